(** C52: LO calibrations. *)
From Verif Require Import Base PathModel PathProps6 JsonModel QbModel QbSpec QbProps QbSeq QbSeq2 QbPrep QbThms QbCal QbCal2.
Local Open Scope string_scope.
Local Open Scope list_scope.

Section D.
Variable d : driver.
Hypothesis gc : GoodCalibration d.
Lemma body_samelog n k p : Pres (samelog (is_lo n)) (each_seq k p (body d k)).
Proof. apply (pres_each_seq _ (samelog_ord _)). intros j m s _ _ _. eapply quiet_samelog with (i := S j). apply body_quiet; [reflexivity|lia]. Qed.
Lemma mixers_samelog n k p : Pres (samelog (is_lo n)) (each_seq k p (fun i _ s => config_mixer d i s)).
Proof. apply (pres_each_seq _ (samelog_ord _)). intros j m s _ _ _. eapply quiet_samelog with (i := S j). now apply mixer_quiet. Qed.

Lemma at_rf k data p c c' : k = QCM_RF \/ k = QRM_RF -> Dicts p -> prepare d k data p c = (c', Ok tt) ->
  exists cr, prepare_rf d k p cr = (c', Ok tt) /\ (forall q, lo_param k q -> mem cr LMod q = mem c LMod q) /\ (forall n, logged (is_lo n) cr = logged (is_lo n) c) /\ (Ready d (mem c) -> Ready d (mem cr)) /\
    (forall i s, In (seq_name i, s) (p_seqs p) -> nco_flag i (nco_changed cr) = Some (changes (mem c) i s)).
Proof. intros hk dd h. assert (hm : with_mixer k) by (unfold with_mixer; tauto). assert (nq : k <> QTM) by (destruct hk as [->| ->]; discriminate).
  assert (X : exists cr, prepare_rf d k p cr = (c', Ok tt) /\ (forall q, lo_param k q -> mem cr LMod q = mem c LMod q) /\ (forall n, logged (is_lo n) cr = logged (is_lo n) c) /\ (Ready d (mem c) -> Ready d (mem cr))).
  { destruct (prepare_shape _ _ _ _ _ _ nq h) as (cp & cb & h0 & h1 & h2).
    assert (B : (forall q, lo_param k q -> mem cb LMod q = mem c LMod q) /\ (forall n, logged (is_lo n) cb = logged (is_lo n) c) /\ (Ready d (mem c) -> Ready d (mem cb))).
    { split; [|split].
      - intros q hq. rewrite (body_same d gc k p q _ _ _ h1). eapply pre_same; eauto.
      - intros n. rewrite (body_samelog n k p _ _ _ h1). eapply pre_samelog; eauto.
      - intros g. eapply (ready_keeps d _ _ _ _ (pre_keeps d k p) h0) in g. eapply ready_keeps; [|exact h1|exact g]. apply each_seq_keeps. intros. now apply body_keeps. }
    destruct B as (B1 & B2 & B3). destruct hk as [->| ->]; cbn [post mixers] in h2.
    - exists cb. auto.
    - apply then_ok in h2. destruct h2 as (x1 & b1 & b2). apply then_ok in b2. destruct b2 as (x2 & b2 & b3). apply then_ok in b3. destruct b3 as (x3 & b3 & b4). exists x3. split; [auto|]. split; [|split].
      + intros q hq. rewrite (select_same d _ _ _ q hq _ _ _ b3), (mixers_same d gc _ _ q _ _ _ b2), (post_readout_same d _ _ _ q hq _ _ _ b1). auto.
      + intros n. destruct (still_quiet _ (is_lo n) 0%nat (still_select d _ _ _) _ _ _ b3) as [-> _]. rewrite (mixers_samelog n _ _ _ _ _ b2). destruct (still_quiet _ (is_lo n) 0%nat (still_post_readout d _ _ _) _ _ _ b1) as [-> _]. auto.
      + intros g. apply B3 in g. eapply ready_keeps in g; [|apply post_readout_keeps|exact b1]. eapply ready_keeps in g; [|apply (mixers_keeps d gc QRM_RF)|exact b2]. eapply ready_keeps; [apply scope_keeps|exact b3|auto]. }
  destruct X as (cr & r1 & r2 & r3 & r4). exists cr. split; [auto|]. split; [auto|]. split; [auto|]. split; [auto|]. intros i s hin.
  destruct (at_mixer d gc k data p c c' i s hm dd h hin) as (c0 & c1 & c2 & c3 & e1 & e2 & l0 & m0 & k0 & ((l2 & f2) & m2 & k2) & ((l3 & f3) & m3 & k3) & SLO).
  destruct (rf_quiet d (is_sb i) i k p (fun _ => eq_refl) _ _ _ r1) as [_ e]. rewrite <- e, f3. destruct (flags_seq d k i s nq _ _ e1) as [s1 s2].
  assert (FM : nco_changed c3 = nco_changed c2) by (destruct (mixer_ok d i s c2 c3 e2) as [(_ & _ & _ & _ & E)|(_ & _ & E & _)]; exact E).
  rewrite FM, f2, s2, flag_put, Nat.eqb_refl. f_equal. unfold changes, same_as_cache. now rewrite m0 by discriminate. Qed.

Lemma connected_in k seqs n i : In i (connected k seqs n) <-> exists s, In (seq_name i, s) seqs /\ (i < n_seq k)%nat /\ output_channel k s n = "IQ".
Proof. unfold connected. rewrite in_flat_map. split.
  - intros ([nm s] & hi & e). destruct (seq_index k nm) as [j|] eqn:E; [|destruct e]. apply seq_index_some in E. destruct E as [-> lt]. destruct (String.eqb_spec (output_channel k s n) "IQ"); [|destruct e]. destruct e as [<-|[]]. eauto.
  - intros (s & hi & lt & e). exists (seq_name i, s). split; [auto|]. assert (seq_index k (seq_name i) = Some i) as -> by (apply seq_index_some; auto). rewrite e. cbn. auto. Qed.
Lemma iq_iff k s n : k = QCM_RF \/ k = QRM_RF -> output_channel k s n = "IQ" <-> outs s = [2 * Z.of_nat n; 2 * Z.of_nat n + 1]%Z /\ ~ Occurs "digital" (channel_name s).
Proof. intros hk. unfold output_channel. assert (is_rf k = true) as -> by (destruct hk as [->| ->]; reflexivity).
  assert (Z2 : forall a b, zlist_eqb a b = true <-> a = b).
  { intros a. induction a as [|x a IH]; intros [|y b]; cbn; try (split; congruence). rewrite andb_true_iff, Z.eqb_eq, IH. split; [intros [-> ->]; auto|intros e; injection e; auto]. }
  destruct (contains "digital" (channel_name s)) eqn:E1; cbn [negb andb].
  - split; [discriminate|]. intros [_ h]. exfalso. apply h. apply contains_spec in E1. destruct E1 as (a & b & E1). exists a, b. auto.
  - assert (ND : ~ Occurs "digital" (channel_name s)) by (intros (a & b & e); assert (contains "digital" (channel_name s) = true) by (apply contains_spec; eauto); congruence).
    destruct (zlist_eqb (outs s) [2 * Z.of_nat n; 2 * Z.of_nat n + 1]%Z) eqn:E2.
    + apply Z2 in E2. rewrite E2. cbn. tauto.
    + rewrite andb_false_r. split; [discriminate|]. intros [e _]. apply Z2 in e. congruence. Qed.
Lemma any_spec (f : nat -> bool) l : forall c c' b, any_nco l c = (c', Ok b) -> (forall i, In i l -> nco_flag i (nco_changed c) = Some (f i)) -> c' = c /\ (b = true <-> exists i, In i l /\ f i = true).
Proof. induction l as [|x l IH]; intros c c' b h hf; cbn [any_nco] in h.
  - injection h as <- <-. split; [auto|]. split; [discriminate|intros (i & [] & _)].
  - unfold bnd at 1, get_nco, bnd, gets in h. rewrite (hf x) in h by (cbn; auto). cbn [ret] in h. destruct (f x) eqn:E.
    + injection h as <- <-. split; [auto|]. split; [intros _; exists x; cbn; auto|auto].
    + apply IH in h; [|intros; apply hf; cbn; auto]. destruct h as [-> h]. split; [auto|]. rewrite h. split; intros (i & hi & e); exists i; (split; [|auto]); [cbn; auto|]. destruct hi as [<-|hi]; [congruence|auto]. Qed.
Lemma set_lo_ok q o c c' b : set_lo d q o c = (c', Ok b) -> Ready d (mem c) ->
  still c c' /\ (b = true <-> LoChanges (mem c) q o) /\ (forall f, o = Some f -> Holds (mem c') LMod q (VNum f)) /\ (forall x, x <> q -> mem c' LMod x = mem c LMod x) /\ Ready d (mem c').
Proof. intros h g. split; [eapply still_lo_set; eauto|]. unfold set_lo in h. destruct o as [f|].
  - destruct (has d LMod q) eqn:E; [|discriminate]. unfold bnd at 1, gets in h. unfold andthen in h. apply bnd_inv in h. destruct h as [(c1 & [] & h1 & h2)|(x & _ & h)]; [|discriminate]. injection h2 as <- <-. split; [|split; [|split]].
    + unfold LoChanges, Differs, same_as_cache. rewrite negb_true_iff. destruct (cached (mem c LMod q)) as [w|] eqn:C.
      * split; [intros e; exists f; split; [auto|intros w' e'; injection e' as <-; auto]|intros (f' & e & h); injection e as <-; auto].
      * split; [intros _; exists f; split; [auto|discriminate]|auto].
    + intros f' e. injection e as <-. destruct (writes_set d _ _ _ _ _ h1) as [w _]. unfold Holds. rewrite w. cbn [fold_left]. now apply wr_holds.
    + intros x n. eapply touch_set; eauto. intros [_ ->]. congruence.
    + eapply ready_keeps; [apply keeps_set|exact h1|exact g].
  - injection h as <- <-. split; [split; [discriminate|intros (f & e & _); discriminate]|]. split; [discriminate|]. auto. Qed.
Lemma lo_calibrate_ok n mode a b c c' : lo_calibrate d n mode a b c = (c', Ok tt) ->
  let due := match mode with LoOff => False | LoOnLo => a = true | LoOnLoIf => a = true \/ b = true end in
  (due -> cals c' = cals c ++ [(LoCal n, mem c)]) /\ (~ due -> cals c' = cals c) /\ nco_changed c' = nco_changed c /\ (forall l q, ~ (l = LMod /\ offset_param q) -> mem c' l q = mem c l q).
Proof. intros h due. unfold lo_calibrate in h. destruct (match mode with LoOff => false | LoOnLo => a | LoOnLoIf => a || b end) eqn:E.
  - assert (D : due) by (unfold due; destruct mode; [discriminate|auto|now apply orb_true_iff in E]). injection h as <-. cbn. split; [auto|]. split; [tauto|]. split; [auto|]. intros. now apply (gc_lo d gc).
  - assert (D : ~ due) by (unfold due; destruct mode; [tauto|congruence|intros x; apply orb_true_iff in x; congruence]). injection h as <-. tauto. Qed.
Lemma logged_snoc n x (l : list (calib * memory)) m : filter (fun e => is_lo n (fst e)) (l ++ [(LoCal x, m)]) = if String.eqb n x then filter (fun e => is_lo n (fst e)) l ++ [(LoCal x, m)] else filter (fun e => is_lo n (fst e)) l.
Proof. rewrite filter_app. cbn [filter fst is_lo]. destruct (String.eqb n x); [auto|apply app_nil_r]. Qed.
End D.

(** The LO of an RF module is calibrated exactly when the settings ask for it: in mode [LoOnLo] when its frequency is not the cached one, in mode [LoOnLoIf] also when the NCO frequency of a sequencer that plays through it is not. It is calibrated once, with the new LO frequency and the new settings of all sequencers in place. *)
Theorem C52_lo : forall d k data p c c' st n param name mode, GoodCalibration d -> Dicts p -> Coherent (mem c) \/ force_set d = true -> prepare d k data p c = (c', Ok tt) ->
  Lo k n param name mode -> p_settings p = Some st ->
  (LoDue (mem c) p (mode st) param (lo_freq st n) n -> exists m, calls (LoCal name) (cals c') = calls (LoCal name) (cals c) ++ [m] /\
     (forall f, lo_freq st n = Some f -> Holds m LMod param (VNum f)) /\ (forall i s q v, In (seq_name i, s) (p_seqs p) -> SeqWants k s q v -> Holds m (LSeq i) q v)) /\
  (~ LoDue (mem c) p (mode st) param (lo_freq st n) n -> calls (LoCal name) (cals c') = calls (LoCal name) (cals c)).
Proof. intros d k data p c c' st n param name mode gc dd g h hl hs. assert (hk : k = QCM_RF \/ k = QRM_RF) by (destruct hl; auto). assert (nq : k <> QTM) by (destruct hk as [->| ->]; discriminate).
  destruct (at_rf d gc k data p c c' hk dd h) as (cr & r1 & r2 & r3 & r4 & r5). specialize (r4 g).
  assert (SW : forall i s q v, In (seq_name i, s) (p_seqs p) -> SeqWants k s q v -> Holds (mem cr) (LSeq i) q v).
  { intros i s q v hi w. destruct (C51_sequencers d k data p c c' gc nq dd g h i s q v hi w) as [_ x]. unfold Holds in *. rewrite (rf_touch d gc k p _ _ _ r1) in x by discriminate. exact x. }
  unfold prepare_rf in r1. rewrite hs in r1. apply then_ok in r1. destruct r1 as (c0 & a1 & a2). cbn [when_some] in a2.
  assert (c0 = cr) as ->. { assert (P : Pres (fun a b => b = a) (each_seq k p (fun _ _ _ => ret tt))) by (assert (O : Ord (fun a b : comp => b = a)) by (constructor; congruence); apply (pres_each_seq _ O); intros; now apply (pres_id _ O)). eapply P; eauto. }
  clear a1. assert (CONN : forall m b x, any_nco (connected k (p_seqs p) m) x = (x, Ok b) -> nco_changed x = nco_changed cr -> (b = true <-> SomeNcoChanges (mem c) p m)).
  { intros m b x e en. destruct (any_spec (fun i => match nco_flag i (nco_changed cr) with Some b => b | None => false end) _ _ _ _ e) as [_ E].
    - intros i hi. apply connected_in in hi. destruct hi as (s & hi & _ & _). rewrite en. now rewrite (r5 _ _ hi).
    - rewrite E. unfold SomeNcoChanges. split.
      + intros (i & hi & ef). apply connected_in in hi. destruct hi as (s & hi & lt & ho). apply iq_iff in ho; [|auto]. exists i, s. rewrite (r5 _ _ hi) in ef. apply changes_iff in ef. tauto.
      + intros (i & s & hi & ho & hd & hc). exists i. split; [|rewrite (r5 _ _ hi); now apply changes_iff]. apply connected_in. exists s. split; [auto|]. split; [|now apply iq_iff].
        destruct (at_sequencer d gc k data p c c' i s nq dd h hi) as [lt _]. exact lt. }
  assert (AN : forall l x y b, any_nco l x = (y, Ok b) -> y = x). { intros l. induction l as [|z l IH]; intros x y b e; cbn [any_nco] in e; [now injection e|]. unfold bnd at 1, get_nco, bnd, gets in e. destruct (nco_flag z (nco_changed x)) as [[|]|]; cbn [ret raise] in e; [now injection e|eauto|discriminate]. }
  assert (LC : forall q f x, mem x LMod q = mem c LMod q -> LoChanges (mem x) q f <-> LoChanges (mem c) q f) by (intros q f x e; unfold LoChanges, Differs; now rewrite e).
  rewrite !calls_lo. fold (logged (is_lo name) c') (logged (is_lo name) c). destruct hl; cbn [config_lo] in a2.
  - apply bnd_inv in a2. destruct a2 as [(x1 & b0 & s0 & a2)|(e & _ & a2)]; [|discriminate]. apply bnd_inv in a2. destruct a2 as [(x2 & b1 & s1 & a2)|(e & _ & a2)]; [|discriminate].
    apply bnd_inv in a2. destruct a2 as [(x3 & n0 & t0 & a2)|(e & _ & a2)]; [|discriminate]. apply bnd_inv in a2. destruct a2 as [(x4 & n1 & t1 & a2)|(e & _ & a2)]; [|discriminate]. pose proof (AN _ _ _ _ t0). subst x3. pose proof (AN _ _ _ _ t1). subst x4.
    apply then_ok in a2. destruct a2 as (x5 & u0 & u1). destruct (set_lo_ok d _ _ _ _ _ s0 r4) as ((S0 & N0) & B0 & H0 & K0 & G0). destruct (set_lo_ok d _ _ _ _ _ s1 G0) as ((S1 & N1) & B1 & H1 & K1 & G1).
    destruct (lo_calibrate_ok d gc _ _ _ _ _ _ u0) as (D1 & D2 & D3 & D4). destruct (lo_calibrate_ok d gc _ _ _ _ _ _ u1) as (E1 & E2 & E3 & E4). rewrite LC in B0 by (apply r2; cbn; auto). apply CONN in t0; [|congruence].
    assert (P : (match lo0_cal st with LoOff => False | LoOnLo => b0 = true | LoOnLoIf => b0 = true \/ n0 = true end) <-> LoDue (mem c) p (lo0_cal st) "out0_lo_freq" (lo_freq st 0) 0) by (unfold LoDue; destruct (lo0_cal st); tauto).
    assert (F : logged (is_lo "out0_lo_cal") c' = logged (is_lo "out0_lo_cal") x5).
    { unfold logged. assert (L1 : cals c' = cals x5 \/ cals c' = cals x5 ++ [(LoCal "out1_lo_cal", mem x5)]). { clear - E1 E2. assert (DD : forall b : bool, b = true \/ b <> true) by (intros []; auto). destruct (lo1_cal st); cbn in *; [left; tauto| |]; destruct (DD b1), (DD n1); tauto. }
      destruct L1 as [->| ->]; [auto|]. rewrite logged_snoc. reflexivity. }
    assert (X : logged (is_lo "out0_lo_cal") x2 = logged (is_lo "out0_lo_cal") c) by (rewrite <- r3; unfold logged; now rewrite S1, S0). rewrite F. split.
    + intros du. apply P in du. apply D1 in du. exists (mem x2). split; [|split].
      * unfold logged at 1. rewrite du, logged_snoc. cbn [String.eqb Ascii.eqb Bool.eqb]. rewrite map_app. cbn. f_equal. f_equal. exact X.
      * intros f e. unfold Holds. rewrite K1 by discriminate. now apply H0.
      * intros i s q v hi w. unfold Holds. rewrite (set_lo_touch d _ _ _ _ _ s1) by discriminate. rewrite (set_lo_touch d _ _ _ _ _ s0) by discriminate. eapply SW; eauto.
    + intros du. rewrite <- P in du. apply D2 in du. f_equal. rewrite <- X. unfold logged. now rewrite du.
  - apply bnd_inv in a2. destruct a2 as [(x1 & b0 & s0 & a2)|(e & _ & a2)]; [|discriminate]. apply bnd_inv in a2. destruct a2 as [(x2 & b1 & s1 & a2)|(e & _ & a2)]; [|discriminate].
    apply bnd_inv in a2. destruct a2 as [(x3 & n0 & t0 & a2)|(e & _ & a2)]; [|discriminate]. apply bnd_inv in a2. destruct a2 as [(x4 & n1 & t1 & a2)|(e & _ & a2)]; [|discriminate]. pose proof (AN _ _ _ _ t0). subst x3. pose proof (AN _ _ _ _ t1). subst x4.
    apply then_ok in a2. destruct a2 as (x5 & u0 & u1). destruct (set_lo_ok d _ _ _ _ _ s0 r4) as ((S0 & N0) & B0 & H0 & K0 & G0). destruct (set_lo_ok d _ _ _ _ _ s1 G0) as ((S1 & N1) & B1 & H1 & K1 & G1).
    destruct (lo_calibrate_ok d gc _ _ _ _ _ _ u0) as (D1 & D2 & D3 & D4). destruct (lo_calibrate_ok d gc _ _ _ _ _ _ u1) as (E1 & E2 & E3 & E4). rewrite LC in B1 by (rewrite K0 by discriminate; apply r2; cbn; auto). apply CONN in t1; [|congruence].
    assert (P : (match lo1_cal st with LoOff => False | LoOnLo => b1 = true | LoOnLoIf => b1 = true \/ n1 = true end) <-> LoDue (mem c) p (lo1_cal st) "out1_lo_freq" (lo_freq st 1) 1) by (unfold LoDue; destruct (lo1_cal st); tauto).
    assert (F : logged (is_lo "out1_lo_cal") x5 = logged (is_lo "out1_lo_cal") x2).
    { unfold logged. assert (L1 : cals x5 = cals x2 \/ cals x5 = cals x2 ++ [(LoCal "out0_lo_cal", mem x2)]). { clear - D1 D2. assert (DD : forall b : bool, b = true \/ b <> true) by (intros []; auto). destruct (lo0_cal st); cbn in *; [left; tauto| |]; destruct (DD b0), (DD n0); tauto. }
      destruct L1 as [->| ->]; [auto|]. rewrite logged_snoc. reflexivity. }
    assert (X : logged (is_lo "out1_lo_cal") x5 = logged (is_lo "out1_lo_cal") c) by (rewrite F, <- r3; unfold logged; now rewrite S1, S0).
    assert (NO : forall q, q = "out1_lo_freq" -> ~ offset_param q) by (intros q -> hq; cbn in hq; intuition discriminate). split.
    + intros du. apply P in du. apply E1 in du. exists (mem x5). split; [|split].
      * unfold logged at 1. rewrite du, logged_snoc. cbn [String.eqb Ascii.eqb Bool.eqb]. rewrite map_app. cbn. f_equal. f_equal. exact X.
      * intros f e. unfold Holds. rewrite D4 by (intros [_ x]; eapply NO; eauto). now apply H1.
      * intros i s q v hi w. unfold Holds. rewrite D4 by (intros [x _]; discriminate). rewrite (set_lo_touch d _ _ _ _ _ s1) by discriminate. rewrite (set_lo_touch d _ _ _ _ _ s0) by discriminate. eapply SW; eauto.
    + intros du. rewrite <- P in du. apply E2 in du. f_equal. rewrite <- X. unfold logged. now rewrite du.
  - apply bnd_inv in a2. destruct a2 as [(x1 & b0 & s0 & a2)|(e & _ & a2)]; [|discriminate].
    apply bnd_inv in a2. destruct a2 as [(x3 & n0 & t0 & u0)|(e & _ & a2)]; [|discriminate]. pose proof (AN _ _ _ _ t0). subst x3.
    destruct (set_lo_ok d _ _ _ _ _ s0 r4) as ((S0 & N0) & B0 & H0 & K0 & G0). destruct (lo_calibrate_ok d gc _ _ _ _ _ _ u0) as (D1 & D2 & D3 & D4). rewrite LC in B0 by (apply r2; cbn; auto). apply CONN in t0; [|congruence].
    assert (P : (match lo0_cal st with LoOff => False | LoOnLo => b0 = true | LoOnLoIf => b0 = true \/ n0 = true end) <-> LoDue (mem c) p (lo0_cal st) "out0_in0_lo_freq" (lo_freq st 0) 0) by (unfold LoDue; destruct (lo0_cal st); tauto).
    assert (X : logged (is_lo "out0_in0_lo_cal") x1 = logged (is_lo "out0_in0_lo_cal") c) by (rewrite <- r3; unfold logged; now rewrite S0). split.
    + intros du. apply P in du. apply D1 in du. exists (mem x1). split; [|split].
      * unfold logged at 1. rewrite du, logged_snoc. cbn [String.eqb Ascii.eqb Bool.eqb]. rewrite map_app. cbn. f_equal. f_equal. exact X.
      * intros f e. now apply H0.
      * intros i s q v hi w. unfold Holds. rewrite (set_lo_touch d _ _ _ _ _ s0) by discriminate. eapply SW; eauto.
    + intros du. rewrite <- P in du. apply D2 in du. f_equal. rewrite <- X. unfold logged. now rewrite du. Qed.
