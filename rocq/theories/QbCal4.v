(** C52: consequences. *)
From Verif Require Import Base PathModel JsonModel QbModel QbSpec QbProps QbSeq QbSeq2 QbPrep QbThms QbMod QbMod2 QbMod3 QbMod4 QbCal QbCal2 QbCal3.
Local Open Scope string_scope.
Local Open Scope list_scope.

Definition CachedAs (m : memory) (l : loc) (p : string) (v : value) : Prop := exists w, cached (m l p) = Some w /\ py_eq w v = true.
Section D.
Variable d : driver.
Lemma wr_cached m l p v : has d l p = true -> CachedAs (wr d m (l, p, v)) l p v.
Proof. intros h. unfold CachedAs. cbn [wr]. rewrite h. destruct (force_set d); [rewrite upd_same; exists v; split; [auto|apply py_eq_refl]|]. destruct (same_as_cache m l p v) eqn:S; [|rewrite upd_same; exists v; split; [auto|apply py_eq_refl]]. unfold same_as_cache in S. destruct (cached (m l p)); [eauto|discriminate]. Qed.
Lemma wrs_last_cached ws l p : has d l p = true -> In (l, p) (map key ws) -> forall m, exists v, In (l, p, v) ws /\ CachedAs (fold_left (wr d) ws m) l p v.
Proof. intros hp. induction ws as [|it ws IH]; cbn [map fold_left]; intros h m; [destruct h|].
  destruct (in_dec key_dec (l, p) (map key ws)) as [i|n].
  - destruct (IH i (wr d m it)) as (v & hv & r). exists v. cbn. auto.
  - destruct h as [h|h]; [|contradiction]. destruct it as [[l0 p0] v]. cbn in h. injection h as -> ->. exists v. split; [cbn; auto|]. unfold CachedAs. rewrite wrs_other by auto. now apply wr_cached. Qed.
Lemma config_cached k i s c c' q v : k <> QTM -> NoDup (map fst (triggers s)) -> config_seq d k i s c = (c', Ok tt) -> SeqWants k s q v -> CachedAs (mem c') (LSeq i) q v.
Proof. intros hk nd h w. pose proof (seq_writes d k i s _ _ h) as [e f]. assert (I : In (q, v) (seq_table k s)) by (apply wants_table; auto; intros; eapply qrc_nco; eauto).
  assert (II : In (LSeq i, q, v) (at_loc (LSeq i) (seq_table k s))) by (apply in_map_iff; now exists (q, v)).
  rewrite Forall_forall in f. pose proof (f _ II) as st. cbn in st. rewrite (wants_not_bt _ _ _ _ v w) in st. destruct st as [st|]; [|discriminate]. unfold CachedAs. rewrite e.
  destruct (wrs_last_cached (at_loc (LSeq i) (seq_table k s)) (LSeq i) q st) with (m := mem c) as (v' & hv & r); auto; [apply in_map_iff; exists (LSeq i, q, v); auto|].
  unfold at_loc in hv. apply in_map_iff in hv. destruct hv as ([q' v''] & hv & ht). injection hv as -> ->. apply table_wants in ht; auto. rewrite (wants_det _ _ _ _ _ nd w ht). exact r. Qed.
Hypothesis gc : GoodCalibration d.
Lemma seq_cached k data p c c' i s q v : k <> QTM -> Dicts p -> prepare d k data p c = (c', Ok tt) -> In (seq_name i, s) (p_seqs p) -> SeqWants k s q v -> CachedAs (mem c') (LSeq i) q v.
Proof. intros hk dd h hin w. destruct (at_sequencer d gc k data p c c' i s hk dd h hin) as (lt & ca & cb & e & _ & e2 & e3). pose proof (config_cached k i s ca cb q v hk (d_trig _ dd _ _ hin) e w) as x. unfold CachedAs in *. rewrite e2 by (eapply wants_not_mixer; eauto). exact x. Qed.
Lemma mod_cached k data p c c' q v : k <> QTM -> prepare d k data p c = (c', Ok tt) -> ~ offset_param q -> In (q, Some v) (mtab k data p) -> CachedAs (mem c') LMod q v.
Proof. intros hk h ho hi. assert (O : OT d (fun l x => l = LMod /\ x = q) (prepare d k data p) (mtab k data p)).
  { apply prepare_ot; auto; [tauto|]. intros st hs. left. intros x [_ ->]. auto. }
  destruct (O _ _ _ h) as [e f]. assert (II : In (LMod, q, v) (flat (mtab k data p))) by (apply flat_in; auto). rewrite Forall_forall in f. pose proof (f _ II) as st. cbn in st. rewrite (mtab_not_bt k data p q _ v hi) in st. destruct st as [st|]; [|discriminate]. unfold CachedAs. rewrite e by auto.
  destruct (wrs_last_cached (flat (mtab k data p)) LMod q st) with (m := mem c) as (v' & hv & r); auto; [apply in_map_iff; exists (LMod, q, v); auto|]. apply flat_in in hv. destruct hv as [_ hv]. pose proof (nodup_fst_inj _ _ _ _ (mtab_nodup k data p) hi hv) as E. injection E as ->. exact r. Qed.
End D.
Lemma lo_field k n param name mode : Lo k n param name mode -> lo_param k param /\ ~ offset_param param /\ In (param, num (fun st => lo_freq st n)) (fields k).
Proof. intros h. destruct h; (split; [cbn; auto|]); (split; [intros x; cbn in x; intuition discriminate|cbn; auto 10]). Qed.

(** Preparing the same program again does not calibrate again. *)
Theorem C52_again : forall d k data p c c1 c2, GoodCalibration d -> k <> QTM -> Dicts p -> Coherent (mem c) \/ force_set d = true -> prepare d k data p c = (c1, Ok tt) -> prepare d k data p c1 = (c2, Ok tt) ->
  (forall i, calls (SidebandCal i) (cals c2) = calls (SidebandCal i) (cals c1)) /\ (forall n param name mode, Lo k n param name mode -> p_settings p <> None -> calls (LoCal name) (cals c2) = calls (LoCal name) (cals c1)).
Proof. intros d k data p c c1 c2 gc hk dd g h1 h2.
  assert (g1 : Coherent (mem c1) \/ force_set d = true).
  { destruct (prepare_shape _ _ _ _ _ _ hk h1) as (x & y & a & b & e). eapply ready_keeps in g; [|apply pre_keeps|exact a]. assert (KB : Keeps (each_seq k p (body d k))) by (apply each_seq_keeps; intros; now apply body_keeps). eapply ready_keeps in g; [|exact KB|exact b]. eapply ready_keeps in g; [exact g|apply (post_keeps d gc k data p)|exact e]. }
  assert (NC : forall i s, In (seq_name i, s) (p_seqs p) -> ~ NcoChanges (mem c1) i s).
  { intros i s hi [hn hd]. assert (W : SeqWants k s "nco_freq" (freq s)) by (unfold freq; destruct (mod_freq s) eqn:E; [now apply w_nco|now apply w_nonco]). destruct (seq_cached d gc k data p c c1 i s _ _ hk dd h1 hi W) as (w & e & r). apply hd in e. congruence. }
  split.
  - intros i. destruct (in_dec string_dec (seq_name i) (map fst (p_seqs p))) as [hi|hn]; [|exact (proj1 (C52_unused d k data p c1 c2 i gc hk h2 hn))].
    assert (K : with_mixer k \/ k = QRC) by (unfold with_mixer; destruct k; auto; congruence). destruct K as [K| ->]; [|apply (C52_qrc d data p c1 c2 gc dd h2 i)].
    apply in_map_iff in hi. destruct hi as ([n s] & e & hi). cbn in e. subst n. refine (proj1 (proj2 (C52_sideband d k data p c1 c2 i s gc K dd g1 h2 hi) _)). intros [_ x]. exact (NC i s hi x).
  - intros n param name mode hl hs. destruct (p_settings p) as [st|] eqn:Es; [|congruence]. destruct (lo_field _ _ _ _ _ hl) as (l1 & l2 & l3). refine (proj2 (C52_lo d k data p c1 c2 st n param name mode gc dd g1 h2 hl Es) _).
    assert (A : ~ LoChanges (mem c1) param (lo_freq st n)).
    { intros (f & ef & hd). assert (I : In (param, Some (VNum f)) (mtab k data p)).
      { apply in_mtab; [auto|]. left. exists st. split; [auto|]. apply field_in; [auto|intros [-> x]; inversion hl|]. exists (num (fun st => lo_freq st n)). split; [auto|]. unfold num. now rewrite ef. }
      destruct (mod_cached d gc k data p c c1 param (VNum f) hk h1 l2 I) as (w & e & r). apply hd in e. congruence. }
    unfold LoDue. destruct (mode st); [tauto|auto|]. intros [x|(i & s & hi & _ & _ & x)]; [auto|eapply NC; eauto]. Qed.
(** The frequency of the LO changes after the sideband calibration: a sequencer calibrated by a program that also changes the LO is calibrated at the old LO frequency. *)
Theorem C52_calibrated_at_old_lo_refuted : forall d k data p c c' i s st n param name mode f, GoodCalibration d -> Dicts p -> Coherent (mem c) \/ force_set d = true -> prepare d k data p c = (c', Ok tt) -> In (seq_name i, s) (p_seqs p) ->
  SidebandDue (mem c) i s -> Lo k n param name mode -> p_settings p = Some st -> lo_freq st n = Some f -> ~ Holds (mem c) LMod param (VNum f) ->
  exists m, calls (SidebandCal i) (cals c') = calls (SidebandCal i) (cals c) ++ [m] /\ ~ Holds m LMod param (VNum f) /\ Holds (mem c') LMod param (VNum f).
Proof. intros d k data p c c' i s st n param name mode f gc dd g h hin hd hl hs hf hn. assert (hk : k = QCM_RF \/ k = QRM_RF) by (destruct hl; auto). assert (K : with_mixer k) by (unfold with_mixer; tauto).
  destruct (proj1 (C52_sideband d k data p c c' i s gc K dd g h hin) hd) as (m & e1 & e2 & e3). destruct (lo_field _ _ _ _ _ hl) as (l1 & l2 & l3). exists m. split; [auto|]. split.
  - unfold Holds in *. now rewrite e3.
  - eapply C51_module; eauto; [destruct hk as [->| ->]; discriminate| |intros [-> _]; destruct hk; discriminate].
    eapply m_field; eauto. unfold num. now rewrite hf. Qed.
(** What an earlier program set stays in the instrument when the next program for the sequencer says nothing about it. *)
Theorem C51_leftover : forall d k data1 p1 c0 c1 data2 p2 c2 i s1 s2 q v, GoodCalibration d -> k <> QTM -> Dicts p1 -> Dicts p2 -> Coherent (mem c0) \/ force_set d = true ->
  prepare d k data1 p1 c0 = (c1, Ok tt) -> prepare d k data2 p2 c1 = (c2, Ok tt) -> In (seq_name i, s1) (p_seqs p1) -> In (seq_name i, s2) (p_seqs p2) ->
  SeqWants k s1 q v -> (forall w, ~ SeqWants k s2 q w) -> Holds (mem c2) (LSeq i) q v.
Proof. intros d k data1 p1 c0 c1 data2 p2 c2 i s1 s2 q v gc hk d1 d2 g h1 h2 i1 i2 w n. unfold Holds. rewrite (C51_frame d k data2 p2 c1 c2 gc hk d2 h2 i s2 q i2 (wants_not_mixer _ _ _ _ w) n). exact (proj2 (C51_sequencers d k data1 p1 c0 c1 gc hk d1 g h1 i s1 q v i1 w)). Qed.
