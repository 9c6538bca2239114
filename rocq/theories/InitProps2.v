(** C74: what [init], [assign] and [finish] determine. *)
From Verif Require Import Base CircModel PathModel JsonModel QbModel QbSpec QbProps FreqModel FreqProps AcqSetModel AcqSetProps InitModel InitProps.
From Coq Require Import Ascii.
Local Open Scope string_scope.
Local Open Scope list_scope.

(** An option of the port-clock, if it is given; its value, with the default *)
Definition option_of (c : cfg) (f : raw_options -> option Q) : option Q := match c_options c with Some o => f o | None => None end.
Definition mixer_of (c : cfg) (f : raw_mixer -> option Q) : option Q := match c_mixer c with Some m => f m | None => None end.
Definition chosen (default : Q) (v : option Q) : Q := match v with Some q => q | None => default end.
Definition Within (lo hi : Q) (v : option Q) : Prop := forall q, v = Some q -> lo <= q <= hi.

Lemma field_iff d lo hi v q : field d lo hi v = Ok q <-> q = chosen d v /\ Within lo hi v.
Proof. unfold field, Within, chosen. destruct v as [w|].
  - destruct (Qle_bool lo w && Qle_bool w hi) eqn:E.
    + apply andb_prop in E. destruct E as [a b]. apply Qle_bool_iff in a, b. split; [intros [= <-]; split; [auto|intros x [= <-]; auto]|intros [-> _]; auto].
    + split; [discriminate|]. intros [_ h]. destruct (h _ eq_refl) as [a b]. apply Qle_bool_iff in a, b. rewrite a, b in E. discriminate.
  - split; [intros [= <-]; split; [auto|discriminate]|intros [-> _]; auto]. Qed.
Lemma field_total d lo hi v : Within lo hi v -> field d lo hi v = Ok (chosen d v).
Proof. intros h. apply field_iff. auto. Qed.

Record Started (k : kind) (c : cfg) (s : aset) : Prop := {
  st_sync : sync_en s = true;
  st_name : channel_name s = c_channel c;
  st_outs : output_indices (c_channel c) = Ok (outs s);
  st_ins : input_indices (c_channel c) (c_measure c) = Ok (ins s);
  st_off_I : offset_I s = chosen 0 (option_of c g_off_I) /\ Within (-1) 1 (option_of c g_off_I);
  st_off_Q : offset_Q s = chosen 0 (option_of c g_off_Q) /\ Within (-1) 1 (option_of c g_off_Q);
  st_gain_I : gain_I s = chosen 1 (option_of c g_gain_I) /\ Within (-1) 1 (option_of c g_gain_I);
  st_gain_Q : gain_Q s = chosen 1 (option_of c g_gain_Q) /\ Within (-1) 1 (option_of c g_gain_Q);
  st_ttl : ttl_threshold s = option_of c g_ttl;
  st_phase : mixer_phase s = match c_mixer c with Some m => Some (chosen 0 (g_phase m)) | None => None end /\ Within (-45) 45 (mixer_of c g_phase);
  st_ratio : mixer_gain s = match c_mixer c with Some m => Some (chosen 1 (g_ratio m)) | None => None end /\ Within (1 # 2) 2 (mixer_of c g_ratio);
  st_sb : auto_sb s = match c_mixer c with Some m => g_sideband m | None => SbOff end;
  st_nco : exists cl, class_of (c_channel c) = Ok cl /\ nco_en s = default_nco_en k || negb (is_zero (c_interm c) || match cl with CDigital => true | _ => false end || Nat.eqb (List.length (outs s)) 0) }.
(** what [init] may raise *)
Record Startable (k : kind) (c : cfg) : Prop := {
  sa_class : is_ok (class_of (c_channel c));
  sa_opt : Within (-1) 1 (option_of c g_off_I) /\ Within (-1) 1 (option_of c g_off_Q) /\ Within (-1) 1 (option_of c g_gain_I) /\ Within (-1) 1 (option_of c g_gain_Q);
  sa_mix : Within (1 # 2) 2 (mixer_of c g_ratio) /\ Within (-45) 45 (mixer_of c g_phase);
  sa_out : is_ok (output_indices (c_channel c));
  sa_in : is_ok (input_indices (c_channel c) (c_measure c));
  sa_marker : forall t, default_markers k = Some t -> get t (c_channel c) <> None }.

Ltac bi H := match type of H with bind ?e _ = Ok _ => let x := fresh "v" in let E := fresh "B" in destruct e as [x|] eqn:E; [cbn [bind] in H|discriminate H] end.

Lemma init_inv k c s m : init k c = Ok (s, m) -> Started k c s /\ mod_freq s = c_interm c /\ (forall t, default_markers k = Some t -> get t (c_channel c) = Some m) /\ (default_markers k = None -> m = 0%Z) /\ Startable k c.
Proof. unfold init. intros H.
  bi H. rename B into BC. set (o := match c_options c with Some o => o | None => _ end) in H.
  assert (OO : forall f : raw_options -> option Q, In f [g_off_I; g_off_Q; g_gain_I; g_gain_Q; g_ttl] -> f o = option_of c f).
  { intros f hf. unfold o, option_of. destruct (c_options c); [reflexivity|]. cbn in hf. intuition (subst; reflexivity). }
  do 4 bi H. rewrite !OO in * by (cbn; tauto).
  repeat match goal with B : field _ _ _ _ = Ok _ |- _ => apply field_iff in B; destruct B as [? ?] end.
  bi H. rename B into BM. do 2 bi H. rename B into BO, B0 into BI. bi H. rename B into BK.
  assert (MX : exists p r sb, v4 = (p, r, sb) /\ p = match c_mixer c with Some m => Some (chosen 0 (g_phase m)) | None => None end /\ r = match c_mixer c with Some m => Some (chosen 1 (g_ratio m)) | None => None end
     /\ sb = match c_mixer c with Some m => g_sideband m | None => SbOff end /\ Within (-45) 45 (mixer_of c g_phase) /\ Within (1 # 2) 2 (mixer_of c g_ratio)).
  { unfold mixer_of. destruct (c_mixer c) as [mx|]; [|injection BM as <-; exists None, None, SbOff; split; [auto|]; split; [auto|]; split; [auto|]; split; [auto|]; split; intros ? [=]].
    bi BM. bi BM. apply field_iff in B, B0. destruct B as [-> b1], B0 as [-> b2]. injection BM as <-. eexists _, _, _. split; [reflexivity|]. auto. }
  destruct MX as (p & r & sb & -> & e1 & e2 & e3 & w1 & w2). injection H as <- <-.
  split; [constructor; cbn; auto; try (subst; auto; fail)|].
  - exists v. auto.
  - cbn. split; [reflexivity|]. split; [|split].
    + intros t ht. rewrite ht in BK. unfold index in BK. destruct (get t (c_channel c)); congruence.
    + intros hn. rewrite hn in BK. congruence.
    + constructor; unfold is_ok; eauto. intros t ht. rewrite ht in BK. unfold index in BK. destruct (get t (c_channel c)); congruence. Qed.
Lemma init_total k c : Startable k c -> exists r, init k c = Ok r.
Proof. intros [h1 (h2 & h3 & h4 & h5) (h6 & h7) h8 h9 h10]. unfold init. destruct h1 as [cl ->], h8 as [ol ->], h9 as [il ->]. cbn [bind].
  set (o := match c_options c with Some o => o | None => _ end).
  assert (OO : forall f : raw_options -> option Q, In f [g_off_I; g_off_Q; g_gain_I; g_gain_Q; g_ttl] -> f o = option_of c f).
  { intros f hf. unfold o, option_of. destruct (c_options c); [reflexivity|]. cbn in hf. intuition (subst; reflexivity). }
  rewrite !OO by (cbn; tauto). rewrite !field_total by auto. cbn [bind].
  assert (MX : exists v, (match c_mixer c with None => Ok (None, None, SbOff) | Some m => do r <- field 1 (1 # 2) 2 (g_ratio m); do p <- field 0 (-45) 45 (g_phase m); Ok (Some p, Some r, g_sideband m) end) = Ok v).
  { unfold mixer_of in *. destruct (c_mixer c); [|eauto]. rewrite !field_total by auto. cbn [bind]. eauto. }
  destruct MX as [v ->]. cbn [bind]. 
  destruct (default_markers k) as [t|] eqn:T; [unfold index; specialize (h10 _ eq_refl); destruct (get t (c_channel c)); [|congruence]|]; cbn [bind]; destruct v as [[p r] sb]; eauto. Qed.

(** *** Frequencies *)
Lemma assign_keeps k c clock l s l' s' : assign k c clock l s = Ok (l', s') -> s' = with_freq s (mod_freq s').
Proof. assert (ID : s = with_freq s (mod_freq s)) by (destruct s; reflexivity). assert (W : forall f, with_freq s f = with_freq s (mod_freq (with_freq s f))) by (intros; destruct s; reflexivity).
  unfold assign. destruct clock as [f|]; [|intros [= <- <-]; exact ID]. destruct (contains _ _); [intros [= <- <-]; exact ID|]. destruct (is_rf k).
  - destruct (forallb _ _); [|discriminate]. intros H. bi H. destruct v as [i q']. injection H as <- <-. apply W.
  - destruct (ext l) as [o|].
    + intros H. bi H. destruct v as [o' q']. injection H as <- <-. apply W.
    + destruct (nco_en s); [|intros [= <- <-]; exact ID]. intros H. bi H. injection H as <- <-. apply W. Qed.
(** A configured intermediate frequency is kept, up to the tolerance; exactly if there is a local oscillator *)
Lemma assign_free k c f l s l' s' : is_rf k = false -> ext l = None -> contains "digital" (channel_name s) = false -> assign k c (Some f) l s = Ok (l', s') ->
  if nco_en s then mod_freq s' = Some f /\ (forall i, mod_freq s = Some i -> close i f) else s' = s.
Proof. intros h1 h2 h3. unfold assign. rewrite h1, h2, h3. destruct (nco_en s); [|now intros [= <- <-]]. intros H. bi H. injection H as <- <-. unfold set_if in B. cbn [with_freq mod_freq].
  destruct (mod_freq s) as [i|]; [|injection B as <-; split; [auto|discriminate]]. destruct (isclose i f) eqn:E; [|discriminate]. injection B as <-. split; [auto|]. intros j [= <-]. now apply isclose_iff. Qed.
Lemma assign_ext k c f l s o l' s' : is_rf k = false -> ext l = Some o -> contains "digital" (channel_name s) = false -> assign k c (Some f) l s = Ok (l', s') ->
  exists lo i, ext l' = Some (Some lo) /\ mod_freq s' = Some i /\ (forall lo0, o = Some lo0 -> lo == lo0) /\ (forall i0, mod_freq s = Some i0 -> i = i0) /\
    (if mixes c then close (lo + i) (rf_of f (downconverter c)) else lo == rf_of f (downconverter c)).
Proof. intros h1 h2 h3. unfold assign. rewrite h1, h2, h3. intros H. bi H. destruct v as [o' q']. injection H as <- <-. apply baseband_one in B. cbn [s_clock s_down s_mix s_if] in B.
  destruct B as (lo & -> & (i & e1 & e2) & e3 & e4 & e5 & e6 & e7). cbn [ext mod_freq with_freq]. exists lo, i. rewrite e4, e5, e6 in e2. split; [auto|]. split; [auto|]. split; [auto|]. split; [|auto].
  intros i0 hi. specialize (e7 _ hi). congruence. Qed.
Lemma assign_int k c f l s l' s' : is_rf k = true -> contains "digital" (channel_name s) = false -> assign k c (Some f) l s = Ok (l', s') ->
  (forall i0, mod_freq s = Some i0 -> mod_freq s' = Some i0) /\
  (forall n lo, int l n = Some lo -> int l' n = Some lo) /\
  (lo_indices (outs s) <> [] -> exists i, mod_freq s' = Some i /\ forall n, In n (lo_indices (outs s)) -> has_lo k n = true /\ exists lo, int l' n = Some lo /\ close (lo + i) (rf_of f (downconverter c))).
Proof. intros h1 h3. unfold assign. rewrite h1, h3. destruct (forallb _ _) eqn:F; [|discriminate]. intros H. bi H. destruct v as [o' q']. injection H as <- <-. apply assign_rf_ok in B. cbn [s_clock s_down s_mix s_if] in B.
  destruct B as (g & e1 & _ & _ & e2). cbn [int mod_freq with_freq]. split; [auto|]. split; [exact g|]. intros n. destruct (e2 n) as (i & e3 & e4). exists i. split; [auto|]. intros m hm. split; [|auto]. rewrite forallb_forall in F. auto. Qed.

(** *** Acquisitions, sequence *)
Lemma finish_inv s acqs sq trg s' : finish s acqs sq trg = Ok s' ->
  sync_en s' = sync_en s /\ channel_name s' = channel_name s /\ outs s' = outs s /\ ins s' = ins s /\ sequence s' = Some sq /\ triggers s' = trg /\ nco_en s' = nco_en s /\
  offset_I s' = offset_I s /\ offset_Q s' = offset_Q s /\ gain_I s' = gain_I s /\ gain_Q s' = gain_Q s /\ mod_freq s' = mod_freq s /\ mixer_phase s' = mixer_phase s /\ mixer_gain s' = mixer_gain s /\ auto_sb s' = auto_sb s /\ ttl_threshold s' = ttl_threshold s /\
  exists a, qrm (map Z.to_nat (ins s)) acqs = Ok a /\ QbModel.write_en s' = AcqSetModel.write_en a /\ QbModel.write_address s' = AcqSetModel.write_address a /\ QbModel.integration_length s' = AcqSetModel.integration_length a /\
    thr_threshold s' = AcqSetModel.acq_threshold a /\ thr_rotation s' = acq_rotation a /\ QbModel.ttl_input s' = option_map Z.of_nat (AcqSetModel.ttl_input a) /\ QbModel.ttl_auto s' = AcqSetModel.ttl_auto a.
Proof. unfold finish. intros H. bi H. injection H as <-. cbn. repeat split; auto. exists v. auto 10. Qed.

Lemma settings_inv k c clock l acqs sq trg l' s : settings k c clock l acqs sq trg = Ok (l', s) ->
  exists s0 m s1, init k c = Ok (s0, m) /\ assign k c clock l s0 = Ok (l', s1) /\ finish s1 acqs sq trg = Ok s.
Proof. unfold settings. intros H. bi H. bi H. bi H. destruct v as [s0 m], v0 as [l1 s1]. cbn [fst snd] in *. injection H as <- <-. eauto 8. Qed.
Lemma settings_started k c clock l acqs sq trg l' s : settings k c clock l acqs sq trg = Ok (l', s) -> Started k c s /\ sequence s = Some sq /\ triggers s = trg.
Proof. intros H. apply settings_inv in H. destruct H as (s0 & m & s1 & h1 & h2 & h3). apply init_inv in h1. destruct h1 as ([] & _). apply assign_keeps in h2. rewrite h2 in h3. apply finish_inv in h3. cbn [with_freq] in h3.
  cbn in h3. decompose [and] h3. clear h3. split; [|auto]. constructor; try congruence; try (intuition congruence). destruct st_nco0 as (cl & e1 & e2). exists cl. split; [auto|]. congruence. Qed.
