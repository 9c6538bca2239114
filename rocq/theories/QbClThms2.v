(** C53: stop, synchronisation, external trigger, retrieval, acceptance. *)
From Verif Require Import Base PathModel JsonModel QbModel QbSpec QbProps QbSeq QbSeq2 QbPrep QbThms QbCal QbAccept QbQtmSpec QbQtm QbClModel QbClSpec QbClProps QbClThms.
From Coq Require Import Lia.
Local Open Scope string_scope.
Local Open Scope list_scope.

(** *** stop *)
Lemma disable_all_ok l l' : disable_all l = (l', Ok tt) -> Forall2 (fun e e' => fst e' = fst e /\ exists c, disable_sync (drv (snd e)) (knd (snd e)) (cmp (snd e)) = (c, Ok tt) /\ snd e' = with_comp (snd e) c) l l'.
Proof. revert l'. induction l as [|[n m] l IH]; cbn [disable_all]; intros l' h; [injection h as <-; constructor|]. destruct (disable_sync (drv m) (knd m) (cmp m)) as [c [[]|e]] eqn:E; [|discriminate]. destruct (disable_all l) as [l2 r2]. injection h as <- ->. constructor; [cbn; eauto|auto]. Qed.
Lemma forall2_in_r {A B} (P : A -> B -> Prop) l l' y : Forall2 P l l' -> In y l' -> exists x, In x l /\ P x y.
Proof. induction 1; cbn; [tauto|]. intros [<-|h]; [eauto|]. destruct (IHForall2 h) as (z & a & b). eauto. Qed.
Lemma stop_ok cl cl' : stop cl = (cl', Ok tt) -> sent cl' = sent cl ++ [StopAll] /\ root cl' = root cl /\ cdrv cl' = cdrv cl /\ prog cl' = prog cl /\ map fst (mods cl') = map fst (mods cl) /\
  forall n m', In (n, m') (mods cl') -> exists m c, In (n, m) (mods cl) /\ disable_sync (drv m) (knd m) (cmp m) = (c, Ok tt) /\ m' = with_comp m c.
Proof. unfold stop. destruct (disable_all (mods cl)) as [l r] eqn:E. destruct r as [[]|e]; [|discriminate]. intros h. injection h as <-. cbn [send sent set_mods root cdrv prog mods]. do 4 (split; [reflexivity|]). assert (F := disable_all_ok _ _ E). split.
  - clear E. induction F as [|x y l1 l2 h F IH]; cbn; [auto|]. destruct h as [-> _]. congruence.
  - intros n m' hin. destruct (forall2_in_r _ _ _ _ F hin) as ([k m] & h1 & h2 & c & h3 & h4). cbn [fst snd] in *. subst. exists m, c. auto. Qed.
(** A successful [stop] leaves nothing running, and no sequencer of any module that waits for synchronisation *)
Theorem C53_stop : forall cl cl', AllFresh cl -> stop cl = (cl', Ok tt) -> running cl' = [] /\ forall n m i, In (n, m) (mods cl') -> (i < sequencers (knd m))%nat -> Holds (mem (cmp m)) (LSeq i) "sync_en" (VBool false).
Proof. intros cl cl' fr h. destruct (stop_ok _ _ h) as (s & _ & _ & _ & _ & g). split.
  - unfold running. rewrite s, fold_left_app. cbn. destruct (fold_left effect (sent cl) ([], [])). reflexivity.
  - intros n m' i hin lt. destruct (g _ _ hin) as (m & c & h1 & h2 & ->). cbn [with_comp cmp knd] in *. rewrite <- n_seq_spec in lt. apply (disable_holds _ _ _ _ h2 (fr _ _ h1) i lt). Qed.
Lemma not_both v : py_eq v (VBool false) = true -> py_eq v (VBool true) = true -> False.
Proof. unfold py_eq. destruct (num_of v) as [q|] eqn:E; cbn.
  - intros h1 h2. apply Qeq_bool_iff in h1, h2. rewrite h1 in h2. discriminate.
  - intros h. discriminate. Qed.
Lemma fresh_disable d k c c' r : disable_sync d k c = (c', r) -> Fresh d c -> Fresh d c'.
Proof. intros h [f|f]; [left; eapply disable_keeps; eauto|now right]. Qed.
(** If the cluster was stopped before, then after [prepare] only sequencers whose program says so wait for synchronisation. *)
Theorem C53_sync : forall p cl cl1 cl2, Distinct (c_mods p) -> Distinct (mods cl) -> AllFresh cl -> (forall n m, In (n, m) (mods cl) -> GoodCalibration (drv m)) -> (forall n q, In (n, q) (c_mods p) -> GoodProgram q) ->
  stop cl = (cl1, Ok tt) -> prepare_cl p cl1 = (cl2, Ok tt) ->
  forall n m i, In (n, m) (mods cl2) -> (i < sequencers (knd m))%nat -> Synced m i -> exists q, In (n, q) (c_mods p) /\ wants_sync q i.
Proof. intros p cl cl1 cl2 d1 d2 fr gc gp hs hp n m i hin lt sy. destruct (C53_stop _ _ fr hs) as [_ off]. destruct (stop_ok _ _ hs) as (_ & _ & _ & _ & nm & g).
  destruct (prepare_cl_ok _ _ _ d1 hp) as (c0 & _ & h1 & _ & _ & _ & _ & h6 & h7).
  assert (nd1 : Distinct (mods cl1)) by (eapply distinct_names; [symmetry; exact nm|auto]). assert (nd2 : Distinct (mods cl2)) by (eapply distinct_names; [symmetry; exact h1|auto]).
  apply (in_get _ _ _ nd2) in hin. destruct (in_dec string_dec n (map fst (c_mods p))) as [i1|n1].
  - apply in_map_iff in i1. destruct i1 as ([n' q] & e & i1). cbn [fst] in e. subst n'. exists q. split; [auto|]. destruct (h6 _ _ i1) as (m1 & c & g1 & g2 & g3). rewrite hin in g3. injection g3 as ->. cbn [with_comp knd cmp] in *.
    apply get_in in g1. destruct (g _ _ g1) as (m0 & c1 & i0 & e0 & ->). cbn [with_comp knd cmp drv] in *. assert (F := fresh_disable _ _ _ _ _ e0 (fr _ _ i0)). assert (GC := gc _ _ i0). assert (GP := gp _ _ i1).
    pose proof (mod_fits _ _ _ _ g2) as ft. unfold Synced in sy. cbn [with_comp cmp] in sy. destruct q as [q|q]; cbn [Fits wants_sync GoodProgram with_comp knd] in *.
    + rewrite mod_analog in g2 by auto. cbn [with_comp knd cmp drv] in g2. destruct (in_dec string_dec (seq_name i) (map fst (p_seqs q))) as [i2|n2].
      * apply in_map_iff in i2. destruct i2 as ([n' s] & e & i2). cbn [fst] in e. subst n'. exists s. split; [auto|]. destruct (C51_sequencers _ _ _ _ _ _ GC ft GP F g2 _ _ _ _ i2 (w_sync _ _)) as [_ hh]. unfold Holds in *. destruct (sync_en s); [auto|]. exfalso. eapply not_both; eauto.
      * exfalso. destruct (C51_unused _ _ _ _ _ _ GC ft F g2 i n2) as [u _]. specialize (u lt). eapply not_both; eauto.
    + rewrite mod_timetag in g2 by auto. cbn [with_comp knd cmp drv] in g2. destruct (in_dec string_dec (seq_name i) (map fst (p_seqs q))) as [i2|n2].
      * apply in_map_iff in i2. destruct i2 as ([n' s] & e & i2). cbn [fst] in e. subst n'. exists s. split; [auto|]. destruct (C54_qtm _ _ _ _ GP F g2 (LSeq i) "sync_en" (VBool (tt_sync_en s))) as [_ hh]; [exists i, s; split; [auto|constructor]|]. unfold Holds in *. destruct (tt_sync_en s); [auto|]. exfalso. eapply not_both; eauto.
      * exfalso. rewrite ft in lt. assert (u := C54_qtm_unused _ _ _ _ F g2 i lt n2). eapply not_both; eauto.
  - exfalso. rewrite h7 in hin by auto. apply get_in in hin. eapply not_both; [apply (off _ _ i hin lt)|exact sy]. Qed.

(** *** External trigger *)
Lemma io_holds d l p v c c' f : Coherent (mem c) \/ f = true -> set_parameter {| has := has d; accepts := accepts d; sideband_cal := sideband_cal d; lo_cal := lo_cal d; force_set := f |} l p v c = (c', Ok tt) -> bt_ignored p v = false -> Holds (mem c') l p v.
Proof. intros h e b. destruct (writes_set _ _ _ _ _ _ e) as [-> s]. inversion s as [|x y st _]; subst. cbn in st. rewrite b in st. destruct st as [st|]; [|discriminate]. cbn [fold_left]. apply wr_holds; [exact st|exact h]. Qed.
(** The time of the cluster is synchronised after the sequencers are armed and before they start; the channel of a QTM that receives the trigger is an input with the threshold *)
Theorem C53_external : forall cl cl' p s, start cl = (cl', Ok tt) -> Distinct (mods cl) -> prog cl = Some p -> ext p = Some s ->
  (exists a, sent cl' = sent cl ++ StopAll :: a ++ [SyncExt (e_slot s) (e_channel s) (e_args s); StartAll] /\ ~ In StartAll a /\ (forall n i, In (n, i) (running cl') -> In (Arm n i) a)) /\
  (e_slot s <> 0%nat -> exists n m ch t, In (n, m) (mods cl') /\ slot m = e_slot s /\ knd m = QTM /\ e_channel s = S ch /\ e_threshold s = Some t /\
     ((forall m0, In (n, m0) (mods cl) -> Coherent (mem (cmp m0)) \/ force_set (cdrv cl) = true) -> Holds (mem (cmp m)) (LIo ch) "mode" (VStr "input") /\ Holds (mem (cmp m)) (LIo ch) "analog_threshold" (VNum t))).
Proof. intros cl cl' p s h nd e x. split.
  - destruct (start_inv _ _ _ h) as [(e2 & _)|(p' & cs & e2 & se & q & gg)]; [congruence|]. assert (p' = p) as -> by congruence. destruct (gg tt eq_refl) as (ar & A & ->). rewrite x in *. exists ar. split; [rewrite se, <- app_assoc; reflexivity|]. split.
    + apply arm_all_quiet in A. rewrite Forall_forall in A. intros hi. apply (A _ hi).
    + intros n i hr. apply (C53_start _ _ h) in hr. destruct hr as (p' & m & q1 & q2 & q3 & q4 & q5). assert (p' = p) as -> by congruence. apply (arm_all_in _ _ _ A). exists m. rewrite n_seq_spec. auto.
  - intros ne. unfold start in h. cbn [send prog mods] in h. rewrite e, x in h. destruct (arm_all p (mods cl)) as [ar [[]|y]]; [|discriminate]. destruct (sync_ext s _) as [cl2 [[]|y]] eqn:S; [|discriminate]. injection h as <-. cbn [send mods].
    unfold sync_ext, set_io in S. destruct (Nat.eqb_spec (e_slot s) 0) as [|_]; [congruence|]. cbn [send mods cdrv] in S. destruct (in_slot (e_slot s) (mods cl)) as [[n m]|] eqn:E; [|discriminate].
    assert (sl : slot m = e_slot s) by (clear -E; induction (mods cl) as [|[k y] l IH]; cbn in E; [discriminate|]; destruct (Nat.eqb_spec (slot y) (e_slot s)); [injection E as -> ->; auto|auto]).
    apply slot_get in E; [|auto]. destruct (knd m) eqn:K; try discriminate. destruct (e_channel s) as [|ch]; [discriminate|].
    destruct (set_parameter _ (LIo ch) "mode" _ (cmp m)) as [c [[]|y]] eqn:F; [|discriminate]. destruct (e_threshold s) as [t|]; [|discriminate]. cbn [with_comp drv cmp send set_mods mods cdrv] in S.
    destruct (set_parameter _ (LIo ch) "analog_threshold" _ c) as [c2 [[]|y]] eqn:F2; [|discriminate]. injection S as <-. cbn [send set_mods mods].
    exists n, (with_comp (with_comp m c) c2), ch, t. split; [|split; [auto|split; [auto|split; [auto|split; [auto|]]]]].
    + apply get_in. eapply get_put. eapply get_put. eauto.
    + intros fr. specialize (fr m (get_in _ _ _ E)). cbn [with_comp cmp]. assert (fr2 : Coherent (mem c) \/ force_set (cdrv cl) = true) by (destruct fr as [fr|fr]; [left; eapply keeps_set; eauto|now right]).
      split; [|eapply io_holds; [exact fr2|exact F2|reflexivity]]. unfold Holds. rewrite (touch_set _ _ _ _ _ _ _ F2 (LIo ch) "mode") by (intros [_ z]; discriminate z). eapply io_holds; [exact fr|exact F|reflexivity]. Qed.

(** *** Retrieval *)
(** Data is retrieved from exactly the modules of the program that have acquisitions in it *)
Theorem C53_retrieve : forall p cl cl1 cl2, Distinct (c_mods p) -> Distinct (mods cl) -> prepare_cl p cl = (cl1, Ok tt) -> Calls cl1 cl2 -> forall n,
  In n (retrieved cl2) <-> exists m q hwm, In (n, m) (mods cl) /\ has_inputs (knd m) /\ In (n, q) (c_mods p) /\ mapping_of q = Some hwm.
Proof. intros p cl cl1 cl2 d1 d2 h k n. destruct (prepare_cl_ok _ _ _ d1 h) as (c0 & _ & h1 & h2 & _ & _ & _ & h6 & h7).
  assert (nd1 : Distinct (mods cl1)) by (eapply distinct_names; [symmetry; exact h1|auto]). assert (E := calls_memo _ _ k nd1). unfold memo in E. injection E as e1 e2. unfold retrieved. rewrite e1, h2, in_flat_map.
  assert (HI : forall k, has_inputs k -> k <> QCM /\ k <> QCM_RF) by (intros k0 [[->|[->| ->]]| ->]; split; discriminate).
  assert (HI2 : forall m g, manager_of m = Some g <-> has_inputs (knd m) /\ mgr (cmp m) = Some g).
  { intros m g. unfold manager_of, has_inputs, readout. destruct (knd m); split; try (intros; discriminate); try tauto; try (intros [[[|[|]]|] ?]; discriminate). }
  split.
  - intros ([n' m] & hin & hn). destruct (named n' (c_mods p)) eqn:N; [|destruct hn]. destruct (manager_of m) as [g|] eqn:G; [|destruct hn]. destruct hn as [->|[]]. apply named_in in N. apply in_map_iff in N. destruct N as ([n' q] & e & N). cbn [fst] in e. subst n'.
    destruct (h6 _ _ N) as (m0 & c & g1 & g2 & g3). apply HI2 in G. destruct G as [G1 G2].
    assert (I : In (n, (knd m, (names (cmp m), mgr (cmp m)))) (map (fun '(n, m) => (n, (knd m, (names (cmp m), mgr (cmp m))))) (mods cl2))) by (apply in_map_iff; exists (n, m); auto). rewrite e2 in I. apply in_map_iff in I. destruct I as ([n' m1] & e & I). injection e as -> f1 f2 f3. apply (in_get _ _ _ nd1) in I. assert (m1 = with_comp m0 c) as -> by congruence. cbn [with_comp cmp knd] in *.
    assert (J : has_inputs (knd m0)) by (rewrite f1; auto). assert (MM := mod_mgr m0 (c_data p) q c J g2). unfold MgrOk in MM. destruct (mapping_of q) as [hwm|] eqn:Q; [|congruence]. exists m0, q, hwm. split; [now apply get_in|auto].
  - intros (m & q & hwm & q1 & q2 & q3 & q4). destruct (h6 _ _ q3) as (m0 & c & g1 & g2 & g3). apply (in_get _ _ _ d2) in q1. assert (m0 = m) as -> by congruence. assert (MM := mod_mgr m (c_data p) q c q2 g2). unfold MgrOk in MM. rewrite q4 in MM. destruct MM as (g & MM & _). apply get_in in g3.
    assert (I : In (n, (knd m, (names c, mgr c))) (map (fun '(n, m) => (n, (knd m, (names (cmp m), mgr (cmp m))))) (mods cl1))) by (apply in_map_iff; exists (n, with_comp m c); auto). rewrite <- e2 in I. apply in_map_iff in I. destruct I as ([n' m1] & e & I). injection e as -> f1 f2 f3. exists (n, m1). split; [auto|].
    assert (named n (c_mods p) = true) as -> by (apply named_in; apply in_map_iff; exists (n, q); auto). assert (manager_of m1 = Some g) as -> by (apply HI2; split; [rewrite f1; auto|congruence]). cbn. auto. Qed.

(** *** Acceptance *)
Lemma qtm_accepts d p c : Permissive d -> (forall n s, In (n, s) (p_seqs p) -> exists i, n = seq_name i /\ (i < 8)%nat) -> exists c', prepare_qtm d p c = (c', Ok tt).
Proof. intros pd g. assert (T : Tot [] (prepare_qtm d p) []).
  { unfold prepare_qtm. eapply tot_then; [eapply tot_then; [eapply tot_then; [eapply tot_then; [apply tot_base|now apply tot_sync]|]|]|].
    - unfold each_seq. apply tot_each. intros [n s] hin. destruct (g _ _ hin) as (i & -> & lt). unfold seq_of. assert (seq_index QTM (seq_name i) = Some i) as -> by (apply seq_index_some; auto). eapply tot_bnd; [apply tot_ret|]. intros j.
      eapply tot_then; [now apply tot_cbase|]. unfold config_io. repeat first [apply (tot_set d pd) | apply tot_ret | eapply tot_then | apply tot_when; intros | apply tot_each; intros | match goal with |- Tot _ (if ?b then _ else _) _ => destruct b end].
    - destruct (p_mapping p); apply tot_mgr.
    - apply tot_when. intros. cbn [config_global]. apply tot_ret. }
  destruct (T c) as (c' & [] & e & _); [intros i []|]. exists c'. exact e. Qed.
(** A program whose modules are in the cluster, of the right kind, with sequencers they have, is accepted when the drivers accept all values *)
Theorem C53_accepts : forall p cl, Distinct (c_mods p) -> Distinct (mods cl) -> Permissive (cdrv cl) ->
  (forall n q, In (n, q) (c_mods p) -> exists m, In (n, m) (mods cl) /\ Permissive (drv m) /\
     match q with Analog q => knd m <> QTM /\ Acceptable (knd m) (c_data p) q | Timetag q => knd m = QTM /\ forall k s, In (k, s) (p_seqs q) -> exists i, k = seq_name i /\ (i < 8)%nat end) ->
  exists cl', prepare_cl p cl = (cl', Ok tt).
Proof. intros p cl d1 d2 pc g. unfold prepare_cl, set_cluster. destruct (tot_set (cdrv cl) pc [] LMod "reference_source" (VStr (reference p)) (root cl)) as (c & [] & e & _); [intros i []|]. rewrite e.
  assert (G : forall l cl, NoDup (map fst l) -> (forall n q, In (n, q) l -> exists m, get_mod n (mods cl) = Some m /\ Permissive (drv m) /\
     match q with Analog q => knd m <> QTM /\ Acceptable (knd m) (c_data p) q | Timetag q => knd m = QTM /\ forall k s, In (k, s) (p_seqs q) -> exists i, k = seq_name i /\ (i < 8)%nat end) -> exists cl', prepare_mods l (c_data p) cl = (cl', Ok tt)).
  { clear. induction l as [|[n q] l IH]; intros cl nd g; [exists cl; reflexivity|]. cbn [map fst] in nd. inversion nd; subst. cbn [prepare_mods]. destruct (g n q) as (m & e & pd & h); [cbn; auto|]. rewrite e.
    assert (R : exists c, prepare_mod m (c_data p) q = (c, Ok tt)). { destruct q as [q|q]; destruct h as [h1 h2]; [rewrite mod_analog by auto; now apply C51_accepts|rewrite mod_timetag by auto; now apply qtm_accepts]. }
    destruct R as [c ->]. apply IH; [auto|]. intros k r hin. cbn [set_mods mods]. assert (k <> n) by (intros ->; apply H1; apply in_map_iff; exists (n, r); auto). rewrite get_put_other by auto. apply g. cbn. auto. }
  apply G; [exact d1|]. intros n q hin. destruct (g _ _ hin) as (m & h1 & h2). exists m. split; [|exact h2]. cbn [set_prog set_root mods]. now apply in_get. Qed.
(** A module that is not in the cluster is an error *)
Theorem C53_unknown_module : forall p cl cl' r n q, prepare_cl p cl = (cl', r) -> In (n, q) (c_mods p) -> ~ In n (map fst (mods cl)) -> exists e, r = Err e.
Proof. intros p cl cl' r n q h hin hn. unfold prepare_cl in h. destruct (set_cluster cl "reference_source" (VStr (reference p))) as [cl1 [[]|e]] eqn:E; [|injection h as <- <-; eauto]. apply set_cluster_ok in E. destruct E as (c & _ & ->).
  assert (hn2 : ~ In n (map fst (mods (set_prog (set_root cl c) p)))) by exact hn. clear hn. revert h hn2. generalize (set_prog (set_root cl c) p). revert hin. generalize (c_mods p) as l. clear. induction l as [|[k x] l IH]; intros hin cl h hn; [destruct hin|]. cbn [prepare_mods] in h.
  destruct (get_mod k (mods cl)) as [m|] eqn:G; [|injection h as <- <-; eauto]. destruct (prepare_mod m (c_data p) x) as [c [[]|e]]; [|injection h as <- <-; eauto].
  destruct hin as [e|hin]; [|eapply IH; eauto; cbn [set_mods mods]; now rewrite put_names]. exfalso. assert (e1 := f_equal fst e). cbn [fst] in e1. subst k. apply hn. apply get_in in G. apply in_map_iff. exists (n, m). auto. Qed.

(** C54: with drivers that accept all values a program is accepted exactly when its sequencers are those of the module *)
Theorem C54_qtm_accepts : forall d p c, Permissive d -> ((exists c', prepare_qtm d p c = (c', Ok tt)) <-> forall n s, In (n, s) (p_seqs p) -> exists i, n = seq_name i /\ (i < 8)%nat).
Proof. intros d p c pd. split; [intros [c' h]; exact (C54_qtm_names d p c c' h)|now apply qtm_accepts]. Qed.
