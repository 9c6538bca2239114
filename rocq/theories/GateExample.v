(** C63: rotations around z are applied with the wrong sign relative to the other rotations. *)
From Coq Require Import Reals Qreals QArith Qabs Qround Lra Lia.
From Verif Require Import Base DevModel DevSpec DevConf DevConfSpec DevConfThms4 FacModel FacSpec FacThms FacThms2 FacExample NumericModel NumericProps GateMat GateModel GateSpec GateProps GateThms GateThms2 GateVirtual.
Local Open Scope string_scope.
Local Open Scope R_scope.

(** X90, S, Y90: the state goes to -y, to x, and to the state 1 *)
Definition xsy : list g1 := [GRxy 90 0; GRz 90; GRxy 90 90].
Lemma rad_of : radians 90 = PI / 2 /\ radians 0 = 0 /\ radians 180 = PI.
Proof. unfold radians, Q2R; cbn. repeat split; field. Qed.
Lemma two_rotations : forall t p t' p' q q', (t == q)%Q -> (p == q')%Q -> meq 2 (product [(t, p); (t', p')]) (mmul 2 (rxy_matrix (radians t') (radians p')) (rxy_matrix (radians q) (radians q'))).
Proof.
  intros t p t' p' q q' E E'. cbn [product]. apply mmul_meq; [eapply meq_trans; [apply mmul_ident2_l | apply Rxy_eq]|]. eapply meq_trans; [apply Rxy_eq|]. rewrite (radians_eq _ _ E), (radians_eq _ _ E'). apply meq_refl.
Qed.
Lemma prob_same_axis : probability (mmul 2 (rxy_matrix (PI / 2) 0) (rxy_matrix (PI / 2) 0)) 1 = 1.
Proof.
  unfold probability, mmul, rxy_matrix, m2, sqmod. cbn [csum]. rewrite cos4, sin4, cis_0. pose proof half_sqrt2 as A. fold r2 in A. unfold cadd, cmul, cneg, ci, re, c0, c1. cbn [fst snd].
  match goal with |- ?l = _ => transitivity (4 * (r2 * r2) * (r2 * r2)); [ring|] end. rewrite A. field.
Qed.
Lemma prob_opposite : forall p, cis p = (- c1)%C -> probability (mmul 2 (rxy_matrix (PI / 2) p) (rxy_matrix (PI / 2) 0)) 1 = 0.
Proof.
  intros p E. unfold probability, mmul, rxy_matrix, m2, sqmod. cbn [csum]. rewrite cos4, sin4, cis_0, E. unfold cadd, cmul, cneg, ci, re, c0, c1. cbn [fst snd]. ring.
Qed.
Lemma xsy_circuit : probability (circuit xsy) 1 = 1.
Proof.
  rewrite C63_outcomes by lia. cbn [in_frame xsy]. destruct rad_of as [R1 [R2 _]].
  rewrite (probability_meq _ (mmul 2 (rxy_matrix (radians 90) (radians 0)) (rxy_matrix (radians 90) (radians 0)))); [rewrite R1, R2; apply prob_same_axis | | lia].
  cbn [product]. apply mmul_meq; [eapply meq_trans; [apply mmul_ident2_l|]|]; (eapply meq_trans; [apply Rxy_eq|]).
  - rewrite (radians_eq (rxy_theta 90) 90), (radians_eq (rxy_phi 90 - (0 + rz_theta 90)) 0) by (vm_compute; reflexivity). apply meq_refl.
  - rewrite (radians_eq (rxy_theta 90) 90), (radians_eq (rxy_phi 0 - 0) 0) by (vm_compute; reflexivity). apply meq_refl.
Qed.
Definition pulses : list dict := match mapM (compiled cfg "q0") xsy with Ok ds => List.concat (map entries_of ds) | Err _ => [] end.
Lemma xsy_pulses : forall sign, (sign == 1 \/ sign == -1)%Q -> probability (rotations sign (1#2) (played 0 pulses)) 1 = 0.
Proof.
  intros sign H. assert (P : exists a1 p1 a2 p2, played 0 pulses = [(a1, p1); (a2, p2)] /\ (a1 * 180 / (1#2) == 90 /\ p1 == 0 /\ a2 * 180 / (1#2) == 90 /\ p2 == 180)%Q).
  { eexists _, _, _, _. split; [vm_compute; reflexivity|]. repeat split; vm_compute; reflexivity. }
  destruct P as [a1 [p1 [a2 [p2 [-> [E1 [E2 [E3 E4]]]]]]]]. destruct rad_of as [R1 [R2 R3]]. cbn [rotations].
  rewrite (probability_meq _ (mmul 2 (rxy_matrix (PI / 2) (radians (sign * 180))) (rxy_matrix (PI / 2) 0))); [|  | lia].
  - apply prob_opposite. destruct H as [H|H].
    + rewrite (radians_eq _ 180) by (rewrite H; reflexivity). rewrite R3. apply cis_PI.
    + rewrite (radians_eq _ (180 + inject_Z (-1) * 360)) by (rewrite H; reflexivity). rewrite radians_turns, cis_turns, R3. apply cis_PI.
  - apply mmul_meq; [eapply meq_trans; [apply mmul_ident2_l|]|]; (eapply meq_trans; [apply Rxy_eq|]).
    + rewrite (radians_eq _ _ E3), (radians_eq (sign * p2) (sign * 180)) by (now rewrite E4). rewrite R1. apply meq_refl.
    + rewrite (radians_eq _ _ E1), (radians_eq (sign * p1) 0) by (rewrite E2; ring). rewrite R1, R2. apply meq_refl.
Qed.
(** The circuit gives 1 with certainty; the pulses that are played for it give 0 with certainty, whichever way the axis of a pulse turns with its phase. *)
Theorem C63_pulses_implement_refuted : forall sign, (sign == 1 \/ sign == -1)%Q -> ~ PulsesImplement sign (fun _ => True).
Proof.
  intros sign H R.
  assert (D : exists ds, mapM (compiled cfg "q0") xsy = Ok ds /\ List.concat (map entries_of ds) = pulses) by (eexists; split; [vm_compute; reflexivity | vm_compute; reflexivity]).
  destruct D as [ds [M E]].
  assert (X : probability (rotations sign (1#2) (played 0 (List.concat (map entries_of ds)))) 1 = probability (circuit xsy) 1).
  { apply (R cfg "q0" (elem "q0") xsy ds (VNum (1#2)) (1#2) (VInt 0) (VNum (1#1000)) (1#1000) (VStr "q0:mw")); try (vm_compute; reflexivity); auto; [apply is_configured; now left | discriminate]. }
  rewrite E, (xsy_pulses sign H), xsy_circuit in X. clear - X. symmetry in X. exact (R1_neq_R0 X).
Qed.
(** the hypotheses of C63_pulses_implement_partial are met: X90, Z, X90 *)
Example half_turns_example : exists ds, mapM (compiled cfg "q0") [GRxy 90 0; GRz 180; GRxy 90 90] = Ok ds /\ half_turns_only [GRxy 90 0; GRz 180; GRxy 90 90].
Proof. eexists. split; [vm_compute; reflexivity|]. intros th [H|[H|[H|[]]]]; try discriminate H. injection H as <-. exists 1%Z. reflexivity. Qed.
Example decimals_example : decimals8 (123456789 # 100000000) /\ decimals8 1000.
Proof. split; [exists 123456789%Z | exists 100000000000%Z]; vm_compute; reflexivity. Qed.
