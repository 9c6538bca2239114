(** C69: what a Qblox sequencer puts out for a pulse is the pulse. *)
From Verif Require Import Base NumericModel NumericProps WfModel WfProps AmpModel AmpSpec AmpProps.
Local Open Scope Q_scope.
Local Open Scope list_scope.
Local Notation length := List.length.
Local Notation sample := (Q * Q)%type.

Lemma uploaded_part : forall hash complex ps d ss p w e, generate_all hash complex [] ps = Ok (d, ss) -> no_collision_on hash (parts ps) -> In p ps -> part p w -> In e d -> key e = uuid hash w -> uploaded d w (index e).
Proof.
  intros hash complex ps d ss p w e G N Ip P He K. destruct (table_parts _ _ _ _ _ _ G He) as [Pe Ke]. exists e. split; [exact He|]. split; [reflexivity|].
  apply round12_close. apply N; [exact Pe|exists p; now split|]. rewrite K in Ke. symmetry. exact Ke.
Qed.
Lemma abs_mul_le : forall a b x y, Qabs a <= x -> Qabs b <= y -> Qabs (a * b) <= x * y.
Proof.
  intros a b x y H1 H2. rewrite Qabs_Qmult. apply Qle_trans with (x * Qabs b).
  - apply Qmult_le_compat_r; [exact H1|apply Qabs_nonneg].
  - rewrite (Qmult_comm x), (Qmult_comm x). apply Qmult_le_compat_r; [exact H2|]. apply Qle_trans with (Qabs a); [apply Qabs_nonneg|exact H1].
Qed.
Lemma norm_le_1 : forall l c x, is_peak l c -> ~ c == 0 -> In x l -> Qabs (x / c) <= 1.
Proof.
  intros l c x [_ M] N I. specialize (M x I). assert (P : 0 < Qabs c). { destruct (Qlt_le_dec 0 (Qabs c)) as [H|H]; [exact H|]. exfalso. apply N. apply Qabs_Qle_condition in H. lra. }
  unfold Qdiv. rewrite Qabs_Qmult, Qabs_Qinv. apply Qle_shift_div_r; [exact P|]. lra.
Qed.
Lemma gain_close : forall a g, expand_awg a 65536 = Ok g -> Qabs (inject_Z g / 32768 - a) <= 1 # 32768 /\ Qabs (inject_Z g / 32768) <= 1 /\ Qabs a <= 1.
Proof.
  intros a g H. destruct (C25_dac a) as [A B]. destruct (Qlt_le_dec 1 (Qabs a)) as [L|L]; [rewrite (B L) in H; discriminate|]. destruct (A L) as [c [E [R D]]]. rewrite E in H. injection H as ->.
  assert (X : inject_Z g / 32768 == inject_Z g * (1 # 32768)) by (unfold Qdiv; reflexivity). destruct R as [R1 R2]. rewrite Zle_Qle in R1, R2. change (inject_Z (-32768)) with (-(32768)) in R1. change (inject_Z 32767) with 32767 in R2.
  pose proof L as L'. apply Qabs_Qle_condition in L'. rewrite X. split; [|split; [apply Qabs_Qle_condition; split; lra|exact L]]. apply Qabs_Qle_condition. destruct D as [D|[-> D]]; [apply Qabs_Qle_condition in D; split; lra|]. change (inject_Z 32767) with 32767. split; lra.
Qed.
Lemma quiet_gain : forall a g, expand_awg a 65536 = Ok g -> Qabs a < 1 # 32768 -> Qabs (inject_Z g / 32768) <= 1 # 32768.
Proof.
  intros a g H Q. unfold expand_awg in H. destruct (Qlt_bool 1 (Qabs a)); [discriminate|]. injection H as <-. change (65536 / 2)%Z with 32768%Z. apply Qabs_Qlt_condition in Q. 
  pose proof (py_round_mono (a * inject_Z 32768) 1) as M1. pose proof (py_round_mono (-(1)) (a * inject_Z 32768)) as M2. change (inject_Z 32768) with 32768 in *.
  assert (A1 : (py_round (a * 32768) <= 1)%Z) by (change 1%Z with (py_round 1); apply M1; lra). assert (A2 : (-1 <= py_round (a * 32768))%Z) by (change (-1)%Z with (py_round (-(1))); apply M2; lra).
  rewrite Z.min_l by lia. rewrite Z.max_r by lia. rewrite Zle_Qle in A1, A2. change (inject_Z 1) with 1 in A1. change (inject_Z (-1)) with (-(1)) in A2. set (r := inject_Z _) in *. assert (X : r / 32768 == r * (1 # 32768)) by (unfold Qdiv; reflexivity). rewrite X. apply Qabs_Qle_condition. split; lra.
Qed.
(** one path with a waveform of its own *)
Lemma loud_path : forall l c g m k, is_peak l c -> ~ c == 0 -> (k < length l)%nat -> expand_awg c 65536 = Ok g -> Qabs (m - nth k l 0 / c) <= 1 # 1000000000000 ->
  Qabs (inject_Z g / 32768 * m - nth k l 0) <= (1 # 32768) + (1 # 1000000000000).
Proof.
  intros l c g m k P N L E M. destruct (gain_close _ _ E) as [G1 [G2 _]]. assert (I : Qabs (nth k l 0 / c) <= 1) by (apply (norm_le_1 l); auto; now apply nth_In).
  set (x := nth k l 0) in *. set (G := inject_Z g / 32768) in *. assert (X : G * m - x == G * (m - x / c) + (G - c) * (x / c)) by (field; exact N). rewrite X.
  eapply Qle_trans; [apply Qabs_triangle|]. pose proof (abs_mul_le _ _ _ _ G2 M) as A. pose proof (abs_mul_le _ _ _ _ G1 I) as B. lra.
Qed.
(** one path without *)
Lemma quiet_path : forall l c g m k, is_peak l c -> Qabs c < 1 # 32768 -> (k < length l)%nat -> expand_awg c 65536 = Ok g -> Qabs m <= 1 + (1 # 1000000000000) ->
  Qabs (inject_Z g / 32768 * m - nth k l 0) <= (1 # 16384) + (1 # 1000000000000).
Proof.
  intros l c g m k [_ P] Q L E M. pose proof (quiet_gain _ _ E Q) as G. assert (I : Qabs (nth k l 0) <= Qabs c) by (apply P; now apply nth_In).
  pose proof (abs_mul_le _ _ _ _ G M) as A. set (x := nth k l 0) in *. set (y := inject_Z g / 32768 * m) in *. apply Qabs_Qle_condition in A. assert (J : Qabs x <= 1 # 32768) by lra. apply Qabs_Qle_condition in J. apply Qabs_Qle_condition. split; lra.
Qed.
Lemma near_1 : forall m x, Qabs (m - x) <= 1 # 1000000000000 -> Qabs x <= 1 -> Qabs m <= 1 + (1 # 1000000000000).
Proof. intros m x A B. apply Qabs_Qle_condition in A. apply Qabs_Qle_condition in B. apply Qabs_Qle_condition. split; lra. Qed.
Lemma nth_map_l : forall A B (f : A -> B) l k a b, (k < length l)%nat -> nth k (map f l) b = f (nth k l a).
Proof. intros A B f l k a b L. rewrite (nth_indep _ b (f a)) by now rewrite map_length. apply map_nth. Qed.
Lemma memory_close : forall hash d w i k v, TInv hash d -> uploaded d w i -> memory d i k v -> (k < length w)%nat /\ Qabs (v - nth k w 0) <= 1 # 1000000000000.
Proof.
  intros hash d w i k v I [e [He [Hi [L C]]]] [f [Hf [Hj [K <-]]]]. assert (E : e = f) by (apply (index_unique hash d); auto; congruence). subst f. split; [now rewrite <- L|apply C].
Qed.
Lemma memory_there : forall d w i k, uploaded d w i -> (k < length w)%nat -> exists v, memory d i k v.
Proof. intros d w i k [e [He [Hi [L C]]]] K. eexists. exists e. rewrite L. eauto. Qed.

Lemma forall2_nth : forall A B (P : A -> B -> Prop) l m n x y, Forall2 P l m -> nth_error l n = Some x -> nth_error m n = Some y -> P x y.
Proof. intros A B P l m n x y F. revert n. induction F; intros [|n] H1 H2; try discriminate; [injection H1 as <-; injection H2 as <-; assumption|eapply IHF; eauto]. Qed.

(** Pulse n of a sequencer, when its instructions are accepted, comes out with every sample within two steps of the 16-bit gain on either path,
    and within one step on a path with at least one sample of a step or more. *)
Theorem C69_played : forall hash complex pulses d ss, no_collision_on hash (parts pulses) -> generate_awg_dict hash complex pulses = Ok (d, ss) ->
  length ss = length pulses /\ forall n p s prog, nth_error pulses n = Some p -> nth_error ss n = Some s -> insert_qasm s = Ok prog ->
  forall k, (k < length p)%nat -> (exists z, output d prog k z) /\ forall z, output d prog k z ->
    let wanted := nth k p (0, 0) in
    Qabs (fst z - fst wanted) <= (1 # 16384) + (1 # 1000000000000) /\ Qabs (snd z - snd wanted) <= (1 # 16384) + (1 # 1000000000000) /\
    (~ below (1 # 32768) (map fst p) -> Qabs (fst z - fst wanted) <= (1 # 32768) + (1 # 1000000000000)) /\
    (~ below (1 # 32768) (map snd p) -> Qabs (snd z - snd wanted) <= (1 # 32768) + (1 # 1000000000000)).
Proof.
  intros hash complex ps d ss N H. unfold generate_awg_dict in H. destruct (generate_all hash complex [] ps) as [[d' ss']|] eqn:G; [|discriminate]. cbn [bind] in H.
  destruct (validate 0 [] d') as [[]|]; [|discriminate]. cbn [bind] in H. injection H as <- <-.
  destruct (all_stored hash complex ps [] d' ss' (TInv_nil hash) G) as [T [_ F]]. destruct (all_inv _ _ _ _ _ _ G) as [_ [_ [_ L]]]. split; [exact L|].
  intros n p s prog Hp Hs Hq k K. destruct (forall2_nth _ _ _ _ _ _ _ _ F Hp Hs) as [Pa [Pb [_ [M0 M1]]]]. assert (Ip : In p ps) by (eapply nth_error_In; exact Hp).
  pose proof (nth_map_l _ _ fst p k (0, 0) 0 K) as X0. pose proof (nth_map_l _ _ snd p k (0, 0) 0 K) as X1. cbn [fst snd] in X0, X1. cbn zeta. rewrite <- X0, <- X1.
  assert (K0 : (k < length (map fst p))%nat) by now rewrite map_length. assert (K1 : (k < length (map snd p))%nat) by now rewrite map_length.
  assert (BI : Qabs (amp_I s) < 1 # 32768 -> below (1 # 32768) (map fst p)). { intros B x Hx. destruct Pa as [_ P]. specialize (P x Hx). lra. }
  assert (BQ : Qabs (amp_Q s) < 1 # 32768 -> below (1 # 32768) (map snd p)). { intros B x Hx. destruct Pb as [_ P]. specialize (P x Hx). lra. }
  assert (U0 : forall i e, index0 s = Some i -> In e d' -> index e = i -> key e = uuid hash (map (fun z => fst z / amp_I s) p) -> uploaded d' (map (fun z => fst z / amp_I s) p) i).
  { intros i e _ He <- Ke. eapply uploaded_part; eauto. left. eauto. }
  assert (U1 : forall i e, index1 s = Some i -> In e d' -> index e = i -> key e = uuid hash (map (fun z => snd z / amp_Q s) p) -> uploaded d' (map (fun z => snd z / amp_Q s) p) i).
  { intros i e _ He <- Ke. eapply uploaded_part; eauto. right. eauto. }
  assert (Y0 : nth k (map (fun z : sample => fst z / amp_I s) p) 0 = nth k (map fst p) 0 / amp_I s). { rewrite (nth_map_l _ _ (fun z : sample => fst z / amp_I s) p k (0, 0) 0 K). now rewrite X0. }
  assert (Y1 : nth k (map (fun z : sample => snd z / amp_Q s) p) 0 = nth k (map snd p) 0 / amp_Q s). { rewrite (nth_map_l _ _ (fun z : sample => snd z / amp_Q s) p k (0, 0) 0 K). now rewrite X1. }
  assert (W : forall x : Q, x <= (1 # 32768) + (1 # 1000000000000) -> x <= (1 # 16384) + (1 # 1000000000000)) by (intros; lra).
  unfold insert_qasm in Hq.
  destruct (index0 s) as [i|] eqn:E0, (index1 s) as [j|] eqn:E1.
  - destruct M0 as [N0 [e [He [Hi Ke]]]]. destruct M1 as [N1 [f [Hf [Hj Kf]]]]. destruct (expand_awg (amp_I s) 65536) as [g0|] eqn:G0; [|discriminate]. destruct (expand_awg (amp_Q s) 65536) as [g1|] eqn:G1; [|discriminate]. cbn [bind] in Hq. injection Hq as <-.
    pose proof (U0 _ _ eq_refl He Hi Ke) as V0. pose proof (U1 _ _ eq_refl Hf Hj Kf) as V1. split.
    + destruct (memory_there _ _ _ k V0) as [v0 A0]; [now rewrite map_length|]. destruct (memory_there _ _ _ k V1) as [v1 A1]; [now rewrite map_length|]. exists (inject_Z g0 / 32768 * v0, inject_Z g1 / 32768 * v1). exists v0, v1. auto.
    + intros z [v0 [v1 [A0 [A1 [Z0 Z1]]]]]. rewrite Z0, Z1. destruct (memory_close _ _ _ _ _ _ T V0 A0) as [_ C0]. destruct (memory_close _ _ _ _ _ _ T V1 A1) as [_ C1]. rewrite Y0 in C0. rewrite Y1 in C1.
      pose proof (loud_path _ _ _ _ _ Pa (non_null_ne _ N0) K0 G0 C0) as R0. pose proof (loud_path _ _ _ _ _ Pb (non_null_ne _ N1) K1 G1 C1) as R1. repeat split; auto.
  - destruct M0 as [N0 [e [He [Hi Ke]]]]. destruct (expand_awg (amp_I s) 65536) as [g0|] eqn:G0; [|discriminate]. destruct (expand_awg (amp_Q s) 65536) as [g1|] eqn:G1; [|discriminate]. cbn [bind] in Hq. injection Hq as <-.
    pose proof (U0 _ _ eq_refl He Hi Ke) as V0. split.
    + destruct (memory_there _ _ _ k V0) as [v0 A0]; [now rewrite map_length|]. exists (inject_Z g0 / 32768 * v0, inject_Z g1 / 32768 * v0). exists v0, v0. auto.
    + intros z [v0 [v1 [A0 [A1 [Z0 Z1]]]]]. rewrite Z0, Z1. destruct (memory_close _ _ _ _ _ _ T V0 A0) as [_ C0]. destruct (memory_close _ _ _ _ _ _ T V0 A1) as [_ C1]. rewrite Y0 in C0, C1.
      pose proof (loud_path _ _ _ _ _ Pa (non_null_ne _ N0) K0 G0 C0) as R0. pose proof (quiet_path _ _ _ v1 _ Pb (non_null_false _ M1) K1 G1 (near_1 _ _ C1 (norm_le_1 _ _ _ Pa (non_null_ne _ N0) (nth_In _ _ K0)))) as R1.
      repeat split; auto. intros B. exfalso. apply B. apply BQ. now apply non_null_false.
  - destruct M1 as [N1 [f [Hf [Hj Kf]]]]. destruct (expand_awg (amp_I s) 65536) as [g0|] eqn:G0; [|discriminate]. destruct (expand_awg (amp_Q s) 65536) as [g1|] eqn:G1; [|discriminate]. cbn [bind] in Hq. injection Hq as <-.
    pose proof (U1 _ _ eq_refl Hf Hj Kf) as V1. split.
    + destruct (memory_there _ _ _ k V1) as [v1 A1]; [now rewrite map_length|]. exists (inject_Z g0 / 32768 * v1, inject_Z g1 / 32768 * v1). exists v1, v1. auto.
    + intros z [v0 [v1 [A0 [A1 [Z0 Z1]]]]]. rewrite Z0, Z1. destruct (memory_close _ _ _ _ _ _ T V1 A0) as [_ C0]. destruct (memory_close _ _ _ _ _ _ T V1 A1) as [_ C1]. rewrite Y1 in C0, C1.
      pose proof (quiet_path _ _ _ v0 _ Pa (non_null_false _ M0) K0 G0 (near_1 _ _ C0 (norm_le_1 _ _ _ Pb (non_null_ne _ N1) (nth_In _ _ K1)))) as R0. pose proof (loud_path _ _ _ _ _ Pb (non_null_ne _ N1) K1 G1 C1) as R1.
      repeat split; auto. intros B. exfalso. apply B. apply BI. now apply non_null_false.
  - injection Hq as <-. split; [exists (0, 0); reflexivity|]. intros z ->. cbn [fst snd]. apply non_null_false in M0. apply non_null_false in M1. pose proof (BI M0 _ (nth_In _ 0 K0)) as R0. pose proof (BQ M1 _ (nth_In _ 0 K1)) as R1.
    apply Qabs_Qlt_condition in R0. apply Qabs_Qlt_condition in R1. repeat split; try (apply Qabs_Qle_condition; split; lra); intros B; exfalso; apply B; [apply BI|apply BQ]; assumption.
Qed.
