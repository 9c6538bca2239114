(** C66: what the settings of a QRM say. *)
From Verif Require Import Base NumericModel NumericProps AcqSetModel AcqSetSpec AcqSetProps AcqSetThms PathProps2.
From Coq Require Import Qabs Lqa.
Local Open Scope Q_scope.

Lemma disc_samples a : discriminates a -> samples a.
Proof. unfold discriminates, samples. tauto. Qed.
Lemma prep_val l r t : prepare_thresholded l = Ok (r, t) -> exists u first, In first l /\ t == u * duration first /\ forall a, In a l -> exists r' t', rotation a = Some r' /\ threshold a = Some t' /\ r' == r /\ t' == u.
Proof.
  unfold prepare_thresholded. intros H. binv H r0 R. binv H u T. apply the_q in R, T. destruct R as [N R], T as [_ T].
  destruct (negb _); [discriminate|]. destruct (negb _); [discriminate|]. destruct l as [|f l]; [discriminate|]. injection H as <- <-. exists u, f.
  split; [left; reflexivity|]. split; [reflexivity|]. intros a I. destruct (R a I) as [r' [R1 R2]]. destruct (T a I) as [t' [T1 T2]]. eauto 10.
Qed.

(** Each acquisition finds its own length, discrimination line, trigger address and input in the settings. *)
Theorem C66_qrm_settings : forall inputs l st, (forall a, In a l -> built a) -> qrm inputs l = Ok st ->
  (forall a, In a l -> samples a -> exists n, integration_length st = Some n /\ Qabs (inject_Z n - duration a) <= 1 # 2) /\
  ((forall a, In a l -> ~ samples a) -> integration_length st = None) /\
  (forall a, In a l -> discriminates a -> exists r t r0 t0 d, rotation a = Some r /\ threshold a = Some t /\ acq_rotation st = Some r0 /\ acq_threshold st = Some t0 /\ r0 == r /\ t0 == t * d /\ Qabs (d - duration a) <= 1 /\
     exists b, In b l /\ discriminates b /\ d = duration b) /\
  ((forall a, In a l -> ~ discriminates a) -> acq_rotation st = None /\ acq_threshold st = None) /\
  (forall a z, In a l -> discriminates a \/ protocol a = ThresholdedTriggerCount -> addr a = Some (Some z) -> write_en st = Some true /\ write_address st = Some z) /\
  (forall z, write_address st = Some z -> exists a, In a l /\ addr a = Some (Some z)) /\
  (forall a, In a l -> triggers a -> exists n, inputs = [n] /\ ttl_input st = Some n /\ (ttl_auto st = Some true <-> exists b, In b l /\ triggers b /\ bin_mode b = DISTRIBUTION)).
Proof.
  intros inputs l st B H. unfold qrm in H. set (tc := filter (fun a => prot_eqb (protocol a) TriggerCount) l) in *. set (ttc := filter (fun a => prot_eqb (protocol a) ThresholdedTriggerCount) l) in *.
  assert (TC : forall a, In a tc <-> In a l /\ protocol a = TriggerCount) by (intros a; unfold tc; now rewrite filter_In, prot_eqb_eq).
  assert (TTC : forall a, In a ttc <-> In a l /\ protocol a = ThresholdedTriggerCount) by (intros a; unfold ttc; now rewrite filter_In, prot_eqb_eq).
  destruct (existsb is_distribution tc && negb (forallb is_distribution tc)); [discriminate|]. binv H ttl E1. binv H wr E2. binv H th E3. binv H n E4. injection H as <-. cbn [integration_length acq_rotation acq_threshold write_en write_address ttl_auto ttl_input].
  destruct (length_val _ _ _ E4) as [L1 [_ L3]].
  assert (ROUND : forall a, In a l -> samples a -> exists m, n = Some m /\ Qabs (inject_Z m - duration a) <= 1 # 2).
  { intros a I Sa. exists (py_round (duration a)). split; [exact (L1 a I Sa)|]. apply Qabs_Qle_condition. apply py_round_spec. }
  refine (conj ROUND (conj (L3 eq_refl) (conj _ (conj _ (conj _ (conj _ _)))))).
  - intros a Ia Da. assert (NE : has ThresholdedAcquisition l || has WeightedThresholdedAcquisition l = true) by (apply analog_spec; eauto). rewrite NE in E3. binv E3 x P. injection E3 as <-. destruct x as [r0 t0]. cbn [fst snd].
    destruct (prep_val _ _ _ P) as [u [f [If [Tf G]]]]. apply (relevant_spec l f B) in If. destruct If as [If Df]. destruct (G a) as [r [t [R1 [R2 [R3 R4]]]]]; [apply (relevant_spec l a B); auto|].
    exists r, t, r0, t0, (duration f). refine (conj R1 (conj R2 (conj eq_refl (conj eq_refl (conj _ (conj _ (conj _ _))))))).
    + now symmetry.
    + rewrite Tf, R4. reflexivity.
    + destruct (ROUND a Ia (disc_samples a Da)) as [m [M1 M2]]. destruct (ROUND f If (disc_samples f Df)) as [m' [M3 M4]]. rewrite M1 in M3. injection M3 as <-. rewrite Qabs_Qle_condition in M2, M4. destruct M2, M4. apply (proj2 (Qabs_Qle_condition _ _)). split; lra.
    + eauto.
  - intros N. destruct (has ThresholdedAcquisition l || has WeightedThresholdedAcquisition l) eqn:NE; [apply analog_spec in NE; destruct NE as [a [I D]]; destruct (N a I D)|]. binv E3 u U. injection E3 as <-. split; reflexivity.
  - intros a z Ia Da Ea. assert (NE : has ThresholdedAcquisition l || has ThresholdedTriggerCount l || has WeightedThresholdedAcquisition l = true).
    { rewrite !orb_true_iff, !has_spec. destruct Da as [[D|D]|D]; eauto 6. }
    rewrite NE in E2. pose proof (addr_values l) as AV. destruct (flat_map _ l) as [|y ys]; [destruct (proj2 (AV z)); eauto|]. binv E2 u U. injection E2 as <-. apply (unique_spec Z.eqb Z.eqb_eq) in U. destruct U as [_ U]. split; [reflexivity|]. cbn [snd]. f_equal. symmetry. apply U, AV. eauto.
  - intros z W. destruct (_ || _ || _); [|injection E2 as <-; discriminate]. pose proof (addr_values l) as AV. destruct (flat_map _ l) as [|y ys]; [injection E2 as <-; discriminate|]. binv E2 u U. injection E2 as <-. cbn [snd] in W. injection W as <-. apply AV.
    apply (unique_spec Z.eqb Z.eqb_eq) in U. destruct U as [_ U]. rewrite <- (U y); left; reflexivity.
  - intros a Ia Ta. assert (NE : match tc, ttc with [], [] => false | _, _ => true end = true).
    { destruct Ta as [P|P]; [assert (X : In a tc) by (apply TC; auto); destruct tc; [destruct X|reflexivity]|assert (X : In a ttc) by (apply TTC; auto); destruct tc, ttc; try reflexivity; destruct X]. }
    rewrite NE in E1. destruct inputs as [|i [|j r]]; try discriminate. injection E1 as <-. exists i. split; [reflexivity|]. split; [reflexivity|]. cbn [fst]. split.
    + intros X. injection X as X. apply orb_true_iff in X. destruct X as [X|X]; apply existsb_exists in X; destruct X as [b [Ib Db]]; exists b; apply is_distribution_spec in Db; [apply TC in Ib|apply TTC in Ib]; unfold triggers; tauto.
    + intros [b [Ib [[P|P] Db]]]; f_equal; apply orb_true_iff; [left|right]; apply existsb_exists; exists b; (split; [|now apply is_distribution_spec]); [apply TC|apply TTC]; auto.
Qed.
