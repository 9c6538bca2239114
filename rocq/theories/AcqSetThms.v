(** C66: QRM. *)
From Verif Require Import Base NumericModel NumericProps AcqSetModel AcqSetSpec AcqSetProps PathProps2.
Local Open Scope Q_scope.

Lemma is_distribution_spec a : is_distribution a = true <-> bin_mode a = DISTRIBUTION.
Proof. unfold is_distribution. destruct (bin_mode a); split; congruence. Qed.
Lemma addr_values l z : In z (flat_map (fun a => match addr a with Some (Some z) => [z] | _ => [] end) l) <-> exists a, In a l /\ addr a = Some (Some z).
Proof.
  rewrite in_flat_map. split; intros [a [I H]]; exists a; (split; [exact I|]).
  - destruct (addr a) as [[x|]|]; [|destruct H|destruct H]. destruct H as [<-|[]]. reflexivity.
  - rewrite H. left. reflexivity.
Qed.
Lemma relevant_spec l a : (forall b, In b l -> built b) ->
  In a (filter (fun a => match rotation a, threshold a with None, None => false | _, _ => true end) l) <-> In a l /\ discriminates a.
Proof.
  intros B. rewrite filter_In. split; intros [I H]; (split; [exact I|]).
  - destruct (B a I) as [H1 _]. unfold discriminates. destruct (protocol a); auto; destruct H1 as [R1 R2]; rewrite R1, R2 in H; discriminate.
  - destruct (B a I) as [H1 _]. destruct H as [H|H]; rewrite H in H1; destruct H1 as [R _]; destruct (rotation a); congruence.
Qed.
Lemma analog_spec l : has ThresholdedAcquisition l || has WeightedThresholdedAcquisition l = true <-> exists a, In a l /\ discriminates a.
Proof.
  rewrite orb_true_iff, !has_spec. unfold discriminates. split.
  - intros [[a [I E]]|[a [I E]]]; eauto.
  - intros [a [I [E|E]]]; [left|right]; eauto.
Qed.
Lemma prep_ok l : (exists x, prepare_thresholded l = Ok x) <->
  l <> [] /\ exists r t, 0 <= r /\ r <= 360 /\ - (16777212) <= t /\ t <= 16777212 /\ forall b, In b l -> exists r' t', rotation b = Some r' /\ threshold b = Some t' /\ r' == r /\ t' == t.
Proof.
  unfold prepare_thresholded. split.
  - intros [x H]. binv H r R. binv H t T. apply the_q in R, T. destruct R as [N R], T as [_ T]. split; [exact N|].
    destruct (Qle_bool 0 r && Qle_bool r 360) eqn:E1; [|discriminate]. cbn [negb] in H. destruct (Qle_bool (- (16777212)) t && Qle_bool t 16777212) eqn:E2; [|discriminate].
    apply andb_true_iff in E1, E2. destruct E1 as [A1 A2], E2 as [A3 A4]. apply Qle_bool_iff in A1, A2, A3, A4. exists r, t. refine (conj A1 (conj A2 (conj A3 (conj A4 _)))).
    intros b I. destruct (R b I) as [r' [R1 R2]]. destruct (T b I) as [t' [T1 T2]]. eauto 10.
  - intros [N [r [t [A1 [A2 [A3 [A4 H]]]]]]].
    destruct (the_q_ok rotation l r N) as [r' [R1 R2]]; [intros b I; destruct (H b I) as [x [y [X1 [_ [X2 _]]]]]; eauto|].
    destruct (the_q_ok threshold l t N) as [t' [T1 T2]]; [intros b I; destruct (H b I) as [x [y [_ [X1 [_ X2]]]]]; eauto|].
    rewrite R1, T1. cbn [bind]. rewrite <- R2 in A1, A2. rewrite <- T2 in A3, A4. apply Qle_bool_iff in A1, A2, A3, A4. rewrite A1, A2, A3, A4. cbn [andb negb]. destruct l; [congruence|]. eexists. reflexivity.
Qed.

Lemma no_counts l : (forall a, In a l -> built a) -> forall a, In a l -> protocol a = ThresholdedTriggerCount -> counts a <> None.
Proof. intros B a I P. destruct (B a I) as [_ [C _]]. now apply C. Qed.
Lemma filter_nil {A} (f : A -> bool) l : filter f l = [] <-> forall a, In a l -> f a = false.
Proof.
  split.
  - intros H a I. destruct (f a) eqn:E; [|reflexivity]. assert (X : In a (filter f l)) by (apply filter_In; auto). rewrite H in X. destruct X.
  - induction l as [|x l IH]; intros H; [reflexivity|]. cbn [filter]. rewrite (H x (or_introl eq_refl)). apply IH. intros a I. apply H. right. exact I.
Qed.

(** The settings are found exactly when they can be the same for all acquisitions. *)
Theorem C66_qrm_accepted_iff : forall inputs l, (forall a, In a l -> built a) -> ((exists st, qrm inputs l = Ok st) <-> qrm_fits inputs l).
Proof.
  intros inputs l B. unfold qrm. set (tc := filter (fun a => prot_eqb (protocol a) TriggerCount) l). set (ttc := filter (fun a => prot_eqb (protocol a) ThresholdedTriggerCount) l).
  assert (TC : forall a, In a tc <-> In a l /\ protocol a = TriggerCount) by (intros a; unfold tc; now rewrite filter_In, prot_eqb_eq).
  assert (TTC : forall a, In a ttc <-> In a l /\ protocol a = ThresholdedTriggerCount) by (intros a; unfold ttc; now rewrite filter_In, prot_eqb_eq).
  assert (BINS : existsb is_distribution tc && negb (forallb is_distribution tc) = false <-> (forall a b, In a l -> In b l -> protocol a = TriggerCount -> protocol b = TriggerCount -> bin_mode a = DISTRIBUTION -> bin_mode b = DISTRIBUTION)).
  { split.
    - intros H a b Ia Ib Pa Pb D. destruct (existsb is_distribution tc) eqn:E.
      + cbn [andb] in H. apply negb_false_iff in H. rewrite forallb_forall in H. apply is_distribution_spec, H, TC. auto.
      + exfalso. assert (X : existsb is_distribution tc = true) by (apply existsb_exists; exists a; split; [apply TC; auto|now apply is_distribution_spec]). congruence.
    - intros H. destruct (existsb is_distribution tc) eqn:E; [|reflexivity]. apply existsb_exists in E. destruct E as [a [Ia Da]]. apply TC in Ia. apply is_distribution_spec in Da. cbn [andb]. apply negb_false_iff.
      apply forallb_forall. intros b Ib. apply TC in Ib. apply is_distribution_spec. destruct Ia, Ib. apply (H a b); auto. }
  assert (TTL : (exists x, (if match tc, ttc with [], [] => false | _, _ => true end then match inputs with [n] => Ok (Some (existsb is_distribution tc || existsb is_distribution ttc), Some n) | _ => Err ValueError end else Ok (None, None)) = Ok x) <->
                (forall a, In a l -> triggers a -> exists n, inputs = [n])).
  { assert (NE : match tc, ttc with [], [] => false | _, _ => true end = true <-> exists a, In a l /\ triggers a).
    { split.
      - intros H. destruct tc as [|a tc'] eqn:E1; [destruct ttc as [|a ttc'] eqn:E2; [discriminate|]|].
        + exists a. destruct (proj1 (TTC a) (or_introl eq_refl)) as [I P]. split; [exact I|right; exact P].
        + exists a. destruct (proj1 (TC a) (or_introl eq_refl)) as [I P]. split; [exact I|left; exact P].
      - intros [a [I [P|P]]]; [assert (X : In a tc) by (apply TC; auto); destruct tc; [destruct X|reflexivity]|assert (X : In a ttc) by (apply TTC; auto); destruct tc, ttc; try reflexivity; destruct X]. }
    destruct (match tc, ttc with [], [] => false | _, _ => true end).
    - destruct (proj1 NE eq_refl) as [a [I T]]. destruct inputs as [|n [|m r]].
      + split; [intros [x H]; discriminate|]. intros H. destruct (H a I T). discriminate.
      + split; [intros _ b _ _; eauto|]. intros _. eexists. reflexivity.
      + split; [intros [x H]; discriminate|]. intros H. destruct (H a I T). discriminate.
    - split; [|intros _; eexists; reflexivity]. intros _ a I T. assert (X : false = true) by (apply NE; eauto). discriminate. }
  assert (WR : (exists x, (if has ThresholdedAcquisition l || has ThresholdedTriggerCount l || has WeightedThresholdedAcquisition l then
              match flat_map (fun a => match addr a with Some (Some z) => [z] | _ => [] end) l with
              | [] => Ok (Some false, None)
              | z :: zs => do z <- unique Z.eqb (z :: zs); Ok (Some true, Some z)
              end
            else Ok (None, None)) = Ok x) <->
            (forall c, In c l -> discriminates c \/ protocol c = ThresholdedTriggerCount -> forall a b x y, In a l -> In b l -> addr a = Some (Some x) -> addr b = Some (Some y) -> x = y)).
  { assert (NE : has ThresholdedAcquisition l || has ThresholdedTriggerCount l || has WeightedThresholdedAcquisition l = true <-> exists c, In c l /\ (discriminates c \/ protocol c = ThresholdedTriggerCount)).
    { rewrite !orb_true_iff, !has_spec. unfold discriminates. split; [intros [[[a [I E]]|[a [I E]]]|[a [I E]]]; eauto 6|]. intros [a [I [[E|E]|E]]]; eauto 6. }
    destruct (has ThresholdedAcquisition l || has ThresholdedTriggerCount l || has WeightedThresholdedAcquisition l).
    - destruct (proj1 NE eq_refl) as [c [Ic Dc]]. pose proof (addr_values l) as AV. destruct (flat_map _ l) as [|z zs].
      + split; [|intros _; eexists; reflexivity]. intros _ _ _ _ a b x y Ia Ib Ea Eb. exfalso. apply (proj2 (AV x)). eauto.
      + split.
        * intros [x H] _ _ _ a b p q Ia Ib Ea Eb. binv H u U. apply (unique_spec Z.eqb Z.eqb_eq) in U. destruct U as [_ U]. rewrite (U p), (U q); [reflexivity|apply AV; eauto|apply AV; eauto].
        * intros H. assert (U : unique Z.eqb (z :: zs) = Ok z). { apply (unique_spec Z.eqb Z.eqb_eq). split; [discriminate|]. intros x Ix. destruct (proj1 (AV x) Ix) as [a [Ia Ea]]. destruct (proj1 (AV z) (or_introl eq_refl)) as [b [Ib Eb]]. exact (H c Ic Dc a b x z Ia Ib Ea Eb). }
          rewrite U. eexists. reflexivity.
    - split; [|intros _; eexists; reflexivity]. intros _ c Ic Dc. assert (X : false = true) by (apply NE; eauto). discriminate. }
  assert (TH : (exists x, (if has ThresholdedAcquisition l || has WeightedThresholdedAcquisition l then
              do x <- prepare_thresholded (filter (fun a => match rotation a, threshold a with None, None => false | _, _ => true end) l); Ok (Some (fst x), Some (snd x))
            else do _ <- (if has ThresholdedTriggerCount l then validate_counts l [] else Ok tt); Ok (None, None)) = Ok x) <->
      (forall a, In a l -> discriminates a -> exists r t, rotation a = Some r /\ threshold a = Some t /\ 0 <= r /\ r <= 360 /\ - (16777212) <= t /\ t <= 16777212 /\
         forall b, In b l -> discriminates b -> exists r' t', rotation b = Some r' /\ threshold b = Some t' /\ r' == r /\ t' == t) /\
      ((forall c, In c l -> ~ discriminates c) -> forall a b, In a l -> In b l -> protocol a = ThresholdedTriggerCount -> protocol b = ThresholdedTriggerCount -> channel a = channel b -> counts a = counts b)).
  { pose proof (analog_spec l) as NE. destruct (has ThresholdedAcquisition l || has WeightedThresholdedAcquisition l).
    - destruct (proj1 NE eq_refl) as [c [Ic Dc]]. set (rel := filter _ l). pose proof (fun a => relevant_spec l a B) as RS. fold rel in RS. split.
      + intros [x H]. binv H y P. destruct (proj1 (prep_ok rel) (ex_intro _ _ P)) as [_ [r [t [A1 [A2 [A3 [A4 G]]]]]]]. split; [|intros N; destruct (N c Ic Dc)].
        intros a Ia Da. destruct (G a (proj2 (RS a) (conj Ia Da))) as [ra [ta [E1 [E2 [E3 E4]]]]]. exists ra, ta. rewrite <- E3 in A1, A2. rewrite <- E4 in A3, A4. refine (conj E1 (conj E2 (conj A1 (conj A2 (conj A3 (conj A4 _)))))).
        intros b Ib Db. destruct (G b (proj2 (RS b) (conj Ib Db))) as [rb [tb [F1 [F2 [F3 F4]]]]]. exists rb, tb. refine (conj F1 (conj F2 (conj _ _))); [rewrite F3, E3|rewrite F4, E4]; reflexivity.
      + intros [H _]. destruct (H c Ic Dc) as [r [t [_ [_ [A1 [A2 [A3 [A4 G]]]]]]]]. destruct (proj2 (prep_ok rel)) as [x X]; [|rewrite X; eexists; reflexivity].
        split; [intros E; pose proof (proj2 (RS c) (conj Ic Dc)) as X; rewrite E in X; destruct X|]. exists r, t. refine (conj A1 (conj A2 (conj A3 (conj A4 _)))). intros b Ib. apply RS in Ib. destruct Ib. auto.
    - assert (ND : forall c, In c l -> ~ discriminates c) by (intros c Ic Dc; assert (X : false = true) by (apply NE; eauto); discriminate).
      assert (VC : (exists u, (if has ThresholdedTriggerCount l then validate_counts l [] else Ok tt) = Ok u) <-> (forall a b, In a l -> In b l -> protocol a = ThresholdedTriggerCount -> protocol b = ThresholdedTriggerCount -> channel a = channel b -> counts a = counts b)).
      { destruct (has ThresholdedTriggerCount l) eqn:HT.
        - rewrite (validate_ok l [] (no_counts l B)). split; [intros [H _]; exact H|]. intros H. split; [exact H|]. intros; discriminate.
        - rewrite has_false in HT. split; [intros _ a b Ia Ib Pa; destruct (HT a Ia Pa)|]. intros _. eexists. reflexivity. }
      split.
      + intros [x H]. binv H u U. split; [intros a Ia Da; destruct (ND a Ia Da)|]. intros _. apply VC. eauto.
      + intros [_ H]. destruct (proj2 VC (H ND)) as [u U]. rewrite U. eexists. reflexivity. }
  pose proof (length_ok l None) as LN. split.
  - intros [st H]. destruct (existsb is_distribution tc && negb (forallb is_distribution tc)) eqn:E0; [discriminate|]. binv H x1 E1. binv H x2 E2. binv H x3 E3. binv H n E4.
    constructor.
    + now apply BINS.
    + apply TTL. eauto.
    + apply WR. exists x2. exact E2.
    + apply TH. eauto.
    + apply TH. eauto.
    + apply LN. eauto.
  - intros F. rewrite (proj2 BINS (fit_bins _ _ F)). destruct (proj2 TTL (fit_input _ _ F)) as [x1 E1]. rewrite E1. cbn [bind]. destruct (proj2 WR (fit_address _ _ F)) as [x2 E2]. 
    match goal with |- exists st, bind ?lhs _ = _ => change lhs with (if has ThresholdedAcquisition l || has ThresholdedTriggerCount l || has WeightedThresholdedAcquisition l then
              match flat_map (fun a => match addr a with Some (Some z) => [z] | _ => [] end) l with
              | [] => Ok (Some false, None)
              | z :: zs => do z <- unique Z.eqb (z :: zs); Ok (Some true, Some z)
              end
            else Ok (None, None)) end. rewrite E2. cbn [bind].
    destruct (proj2 TH (conj (fit_threshold _ _ F) (fit_counts _ _ F))) as [x3 E3]. rewrite E3. cbn [bind]. destruct (proj2 LN) as [n E4]; [split; [exact (fit_length _ _ F)|intros; discriminate]|]. rewrite E4. eexists. reflexivity.
Qed.
