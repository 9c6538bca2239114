(** C43: every wired port-clock combination has its sequencer; the order of the used combinations does not matter. *)
From Verif Require Import Base CircModel CircProps CircProps5 PathModel PathStr PathSpec PathProps PathProps2 PathProps3 PathProps4 PathProps5 PathProps6 PathThms.
From Verif Require DistModel.
From Coq Require Import Ascii DecimalString Lia Permutation Sorted.
Open Scope string_scope.
Open Scope list_scope.
Open Scope Z_scope.

Lemma sim_ok hw E opts used res : WfHw hw -> NoDup used -> Distinct used -> Plain hw E used -> assign_sequencers hw E opts used = Ok res ->
  exists st loc new, all_paths hw E used = Ok st /\ locals hw E used = Ok new /\ R hw st (rev new) loc /\ Shape st.
Proof. intros wf nu d pl h. pose proof (all_sim hw E used wf nu d pl) as s. assert (X : exists st, all_paths hw E used = Ok st) by (unfold assign_sequencers in h; apply bind_inv in h as (st & h & _); eauto). destruct X as (st & X).
  destruct (locals hw E used) as [new|e]; [|destruct s as (e' & s); congruence]. destruct s as (st' & loc & s1 & s2). exists st', loc, new. split; auto. split; auto. split; auto. eapply all_paths_shape; eauto. Qed.

(** what the sequencer of a port with local paths [L] is *)
Lemma entry_given hw E opts used res st loc new port clks L k c q : WfHw hw -> assign_sequencers hw E opts used = Ok res -> all_paths hw E used = Ok st -> R hw st (rev new) loc -> Shape st ->
  In (port, (clks, L)) new -> In k clks -> get L c = Some q -> exists s, Given res c (p_idx q) s /\ For s port k /\ q_ch s = p_ch q /\ q_meas s = p_meas q.
Proof. intros wf h h1 r sh he hk g. destruct (top_spec _ _ _ _ _ wf h) as (st' & t1 & t2 & t3 & t4 & t5 & _). rewrite h1 in t1. inversion t1; subst st'; clear t1.
  assert (hp : In (pc_key port k, q) (paths_of st (pcs st) c)) by (apply (final_paths _ _ _ _ _ _ _ r (proj1 sh)); exists port, clks, L, k; auto). destruct (paths_in _ _ _ _ _ hp (proj1 sh)) as (l & g1 & g2). destruct (t5 _ _ _ g1) as (p & s & e1 & e2 & e3). rewrite g2 in e1. inversion e1; subst p; clear e1.
  exists s. split; auto. split; [exact e3|]. destruct (given_inv _ _ _ _ _ _ _ _ wf h e2) as (st' & mods & kd & p & a & i1 & _ & _ & _ & _ & i6 & _ & _ & _ & _ & i11 & i12 & _). rewrite h1 in i1. inversion i1; subst st'. rewrite e3 in i6. pose proof (paths_nodup st (pcs st) c (proj1 sh)) as nd. assert (p = q) by (apply in_get in i6; auto; apply in_get in hp; auto; congruence). subst. auto. Qed.
Lemma given_entry hw E opts used res st loc new c i s : WfHw hw -> assign_sequencers hw E opts used = Ok res -> all_paths hw E used = Ok st -> R hw st (rev new) loc -> Shape st -> Given res c i s ->
  exists port clks L k q, In (port, (clks, L)) new /\ In k clks /\ For s port k /\ get L c = Some q /\ p_idx q = i.
Proof. intros wf h h1 r sh g. destruct (given_inv _ _ _ _ _ _ _ _ wf h g) as (st' & mods & kd & p & a & i1 & _ & _ & _ & _ & i6 & i7 & _). rewrite h1 in i1. inversion i1; subst st'. apply (final_paths _ _ _ _ _ _ _ r (proj1 sh)) in i6 as (port & clks & L & k & a1 & a2 & a3 & a4). exists port, clks, L, k, p. auto. Qed.
Lemma entry_unique hw E used new port clks L port' clks' L' k k' : Distinct used -> locals hw E used = Ok new -> In (port, (clks, L)) new -> In (port', (clks', L')) new -> In k clks -> In k' clks' -> pc_key port k = pc_key port' k' -> port = port' /\ k = k' /\ L = L'.
Proof. intros d hl h h' hk hk' e. apply (locals_in _ _ _ _ _ _ _ hl) in h as (h1 & h2). apply (locals_in _ _ _ _ _ _ _ hl) in h' as (h1' & h2'). apply p2c_spec in h1 as (-> & _). apply p2c_spec in h1' as (-> & _). apply clocks_in in hk as hk0. apply clocks_in in hk' as hk0'. destruct (d _ _ _ _ hk0 hk0' e) as (-> & ->). split; auto. split; auto. congruence. Qed.

(** A used port-clock whose port is connected to channels and not to mixers has exactly one sequencer; its channels are exactly those the port is connected to, and they are on one module. *)
Theorem C43_all : forall hw E opts used res port clock, WfHw hw -> NoDup used -> Distinct used -> Plain hw E used -> assign_sequencers hw E opts used = Ok res ->
  In (port, clock) used -> HasDirect hw E port -> (forall x, ~ AtMixer hw E port x) ->
  exists cl m i s, Given res cl i s /\ For s port clock /\ Slot m i /\ (forall ch, Uses s ch <-> Direct hw E port cl m ch) /\
    (forall cl' m' ch, Direct hw E port cl' m' ch -> cl' = cl /\ m' = m) /\ (forall cl' i' s', Given res cl' i' s' -> For s' port clock -> cl' = cl /\ i' = i /\ s' = s).
Proof. intros hw E opts used res port clock wf nu d pl h hu (n0 & hd1 & hd2) nm. destruct (sim_ok _ _ _ _ _ wf nu d pl h) as (st & loc & new & s1 & s2 & s3 & s4).
  assert (PC : In (port, clocks_of port used) (port_to_clocks used)) by (apply p2c_spec; split; auto; intros e; apply clocks_in in hu; rewrite e in hu; destruct hu).
  destruct (mapM_ok_in _ _ _ _ s2 PC) as ((port', (clks, L)) & e & he). apply bind_inv in e as (L' & e1 & e2). inversion e2; subst port' clks L'; clear e2.
  assert (hk : In clock (clocks_of port used)) by now apply clocks_in. unfold lport in e1. destruct (memb port (nodes E)); [|discriminate].
  assert (len : (1 <= List.length (clocks_of port used))%nat) by (destruct (clocks_of port used); [destruct hk|cbn; lia]).
  apply direct_local in e1; [|auto|now apply nomixer_nbrs]. assert (NB : forall n, In n (neighbors E port) <-> Edge E port n) by (intros n; apply neighbors_in).
  destruct e1 as [(-> & e1)|(c & q & -> & o1 & o2 & o3 & o4)]; [apply NB in hd1; apply e1 in hd1; apply is_path_spec in hd2; congruence|].
  destruct (entry_given _ _ _ _ _ _ _ _ _ _ _ clock c q wf h s1 s3 s4 he hk ltac:(cbn; now rewrite String.eqb_refl)) as (s & g1 & g2 & g3 & g4). exists c, (p_mod q), (p_idx q), s. split; auto. split; auto. split; [now apply slot_of|]. split; [|split].
  - intros ch. unfold Uses. rewrite g3, g4. change (Names q ch <-> Direct hw E port c (p_mod q) ch). rewrite o4. unfold Direct. split; intros (n & a & b); exists n; [split; [auto|now apply NB]|split; [now apply NB|auto]].
  - intros cl' m' ch (n & a & b). apply NB in b. destruct (o3 n b) as (ch' & hc); [eapply channel_path; eauto|]. destruct (channel_fun _ _ _ _ _ _ _ _ a hc) as (-> & -> & _). auto.
  - intros cl' i' s' g' f'. destruct (given_entry _ _ _ _ _ _ _ _ _ _ _ wf h s1 s3 s4 g') as (port' & clks' & L' & k' & q' & a1 & a2 & a3 & a4 & a5). unfold For in f', a3.
    destruct (entry_unique _ _ _ _ _ _ _ _ _ _ clock k' d s2 he a1 hk a2) as (_ & _ & <-); [unfold pc_key; congruence|]. cbn [get] in a4. destruct (String.eqb_spec c cl') as [<-|]; [|discriminate]. inversion a4; subst q'. subst i'. split; auto. split; auto.
    eapply C43_distinct; eauto. right. unfold For in g2. congruence. Qed.

(** A used port-clock whose port is connected to mixers only has a sequencer, on a channel behind one of the mixers. *)
Lemma mixer_local hw E n ns : (forall x, In x ns -> is_path hw x = false) -> forall L L', foldM (lstep hw E n) ns L = Ok L' -> (L <> [] \/ exists x t, In x ns /\ before_last x = Some t) -> L' <> [].
Proof. intros hx. induction ns as [|x ns IH]; intros L L' h o; cbn [foldM] in h.
  - inversion h; subst. destruct o as [o|(x & t & [] & _)]; auto.
  - apply bind_inv in h as (L1 & h1 & h2). unfold lstep in h1. rewrite (hx x (or_introl eq_refl)) in h1. destruct (before_last x) as [t|] eqn:B.
    + apply bind_inv in h1 as ((mp, ml) & _ & h1). apply bind_inv in h1 as (p & _ & h1). inversion h1; subst L1. eapply IH; [intros; apply hx; right; auto|exact h2|]. left. destruct L as [|(c, q) L]; cbn; [discriminate|]. destruct (String.eqb c (p_cl p)); discriminate.
    + inversion h1; subst L1. eapply IH; [intros; apply hx; right; auto|exact h2|]. destruct o as [o|(y & t & [<-|hy] & e)]; [auto|congruence|right; eauto]. Qed.
Theorem C43_mixer : forall hw E opts used res port clock x, WfHw hw -> NoDup used -> Distinct used -> Plain hw E used -> assign_sequencers hw E opts used = Ok res ->
  In (port, clock) used -> ~ HasDirect hw E port -> AtMixer hw E port x ->
  exists cl m i s, Given res cl i s /\ For s port clock /\ Slot m i /\ q_meas s = None /\ Mixed hw E port cl m (q_ch s).
Proof. intros hw E opts used res port clock x wf nu d pl h hu nd (t & m1 & m2 & m3). destruct (sim_ok _ _ _ _ _ wf nu d pl h) as (st & loc & new & s1 & s2 & s3 & s4).
  assert (PC : In (port, clocks_of port used) (port_to_clocks used)) by (apply p2c_spec; split; auto; intros e; apply clocks_in in hu; rewrite e in hu; destruct hu).
  destruct (mapM_ok_in _ _ _ _ s2 PC) as ((port', (clks, L)) & e & he). apply bind_inv in e as (L' & e1 & e2). inversion e2; subst port' clks L'; clear e2.
  assert (hk : In clock (clocks_of port used)) by now apply clocks_in. unfold lport in e1. destruct (memb port (nodes E)); [|discriminate].
  assert (NP : forall n, In n (neighbors E port) -> is_path hw n = false) by (intros n hn; apply is_path_false; intros o; apply nd; exists n; split; [now apply neighbors_in|auto]).
  assert (NE : L <> []) by (eapply mixer_local; [exact NP|exact e1|right; exists t, x; split; [now apply neighbors_in|now apply terminal_spec]]).
  assert (NM : forall c q, get L c = Some q -> p_meas q = None).
  { refine (foldM_inv (fun L => forall c q, get L c = Some q -> p_meas q = None) _ _ _ _ e1 _ _); [discriminate|]. intros b y b' hy hb hs. unfold lstep in hs. rewrite (NP _ hy) in hs. destruct (before_last y); [|inversion hs; subst; auto]. apply bind_inv in hs as ((mp, ml) & _ & hs). apply bind_inv in hs as (p & fp & hs). inversion hs; subst.
    intros c q. rewrite get_put. destruct (String.eqb (p_cl p) c); [|apply hb]. intros e; inversion e; subst. now apply from_path_inv in fp as (_ & fp & _). }
  destruct L as [|(c, q) L]; [easy|]. assert (g : get ((c, q) :: L) c = Some q) by (cbn; now rewrite String.eqb_refl). destruct (entry_given _ _ _ _ _ _ _ _ _ _ _ clock c q wf h s1 s3 s4 he hk g) as (s & g1 & g2 & g3 & g4).
  destruct (C43_wired _ _ _ _ _ _ _ _ wf h g1) as (port' & clock' & m & mods & kd & w1 & w2 & _ & _ & _ & _ & w7 & w8 & _). unfold For in g2, w2. destruct (d _ _ _ _ hu w1) as (<- & <-); [congruence|].
  exists c, m, (p_idx q), s. split; auto. split; auto. split; auto. split; [rewrite g4; eapply NM; eauto|]. destruct (w8 (q_ch s)) as [w|w]; [left; auto| |auto]. exfalso. apply nd. destruct w as (n & (-> & a & b & e & md & hm) & ed). eexists. split; [exact ed|]. exists c, md. split; auto. split; auto. right. eexists; reflexivity. Qed.
