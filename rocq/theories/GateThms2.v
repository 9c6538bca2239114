(** C63: products of gates, named gates, and composite gates. *)
From Coq Require Import Reals Qreals QArith Qabs Qround Lra Lia.
From Verif Require Import NumericModel NumericProps GateMat GateModel GateSpec GateProps GateThms.
Local Open Scope R_scope.

Lemma rz_mul : forall a b, meq 2 (mmul 2 (rz_matrix a) (rz_matrix b)) (rz_matrix (a + b)).
Proof.
  intros a b. apply meq2; unfold mmul, rz_matrix, m2; cbn [csum]; try ring.
  - replace (- (a + b) / 2) with (- a / 2 + - b / 2) by field. rewrite cis_add. ring.
  - replace ((a + b) / 2) with (a / 2 + b / 2) by field. rewrite cis_add. ring.
Qed.
Lemma same_gate_trans : forall n A B D, same_gate n A B -> same_gate n B D -> same_gate n A D.
Proof.
  intros n A B D [z [Z H]] [w [W H']]. exists (z * w)%C. split; [rewrite sqmod_mul, Z, W; ring|]. eapply meq_trans; [exact H|]. eapply meq_trans; [apply scale_meq, H' | apply scale_scale].
Qed.
Lemma same_gate_sym : forall n A B, same_gate n A B -> same_gate n B A.
Proof.
  intros n A B [z [Z H]]. exists (cconj z). assert (E : (cconj z * z)%C = c1) by (destruct z as [x y]; unfold sqmod in Z; unfold cmul, cconj, c1; cbn in *; f_equal; lra).
  split; [destruct z; unfold sqmod, cconj in *; cbn in *; lra|]. intros i j Hi Hj. unfold scale. rewrite (H i j Hi Hj). unfold scale. transitivity ((cconj z * z) * B i j)%C; [rewrite E|]; ring.
Qed.
Lemma same_gate_mul2 : forall A A' B B', same_gate 2 A A' -> same_gate 2 B B' -> same_gate 2 (mmul 2 A B) (mmul 2 A' B').
Proof.
  intros A A' B B' [z [Z H]] [w [W H']]. exists (z * w)%C. split; [rewrite sqmod_mul, Z, W; ring|]. eapply meq_trans; [apply mmul_meq; [exact H | exact H']|].
  eapply meq_trans; [apply mmul_scale2_l|]. eapply meq_trans; [apply scale_meq, mmul_scale2_r | apply scale_scale].
Qed.
Lemma same_meq : forall n A B, meq n A B -> same_gate n A B.
Proof. intros n A B H. exists c1. split; [unfold sqmod, c1; cbn; ring|]. intros i j Hi Hj. unfold scale. rewrite (H i j Hi Hj). ring. Qed.
Lemma radians_add : forall a b, radians (a + b) = radians a + radians b.
Proof. intros a b. unfold radians. rewrite Q2R_plus. field. Qed.
(** The product of two rotations around z is the rotation by the sum of the angles, also when the sum leaves the range that angles are stored in. *)
Theorem C63_rz_sum : forall a b, same_gate 2 (mmul 2 (rz_unitary a) (rz_unitary b)) (rz_unitary (a + b)).
Proof.
  intros a b. eapply same_gate_trans; [|apply same_gate_sym, C63_rz]. eapply same_gate_trans; [apply same_gate_mul2; apply C63_rz|]. apply same_meq.
  eapply meq_trans; [apply mmul_meq; apply meq_sym, rz_rotation|]. eapply meq_trans; [apply rz_mul|]. unfold Rz_of. rewrite radians_add. apply rz_rotation.
Qed.
Theorem C63_rz_inverse : forall a, same_gate 2 (mmul 2 (rz_unitary a) (rz_unitary (- a))) ident.
Proof.
  intros a. eapply same_gate_trans; [apply C63_rz_sum|]. eapply same_gate_trans; [apply C63_rz|]. unfold Rz_of. assert (E : radians (a + - a) = 0) by (rewrite radians_add; unfold radians; rewrite Q2R_opp; field). rewrite E.
  apply same_meq. apply meq2; unfold rotation, madd, scale, pauli_z, ident, m2; cbn [Nat.eqb]; replace (0 / 2) with 0 by field; rewrite cos_0, sin_0; unfold cadd, cmul, c0, c1; cbn; f_equal; ring.
Qed.
(** ** The named gates have the matrices in their documentation *)
Lemma deg2rad_at : forall a b, (a == b)%Q -> deg2rad a = Q2R b * (PI / 180).
Proof. intros a b H. unfold deg2rad. now rewrite (Qeq_eqR _ _ H). Qed.
Lemma rads : deg2rad (rxy_theta 180) = PI /\ deg2rad (rxy_theta 90) = PI / 2 /\ deg2rad (rxy_phi 0) = 0 /\ deg2rad (rxy_phi 90) = PI / 2 /\ deg2rad (rz_theta 180) = PI /\ deg2rad (rz_theta 90) = PI / 2 /\
  deg2rad (rz_theta (-90)) = - (PI / 2) /\ deg2rad (rz_theta 45) = PI / 4 /\ deg2rad (rz_theta (-45)) = - (PI / 4).
Proof.
  rewrite (deg2rad_at (rxy_theta 180) 180), (deg2rad_at (rxy_theta 90) 90), (deg2rad_at (rxy_phi 0) 0), (deg2rad_at (rxy_phi 90) 90), (deg2rad_at (rz_theta 180) 180), (deg2rad_at (rz_theta 90) 90), (deg2rad_at (rz_theta (-90)) (-90)), (deg2rad_at (rz_theta 45) 45), (deg2rad_at (rz_theta (-45)) (-45)) by (vm_compute; reflexivity).
  unfold Q2R. cbn. repeat split; field.
Qed.
Definition r2 := / sqrt 2.
Lemma cos4 : cos (PI / 2 / 2) = r2. Proof. replace (PI / 2 / 2) with (PI / 4) by field. rewrite cos_PI4. unfold r2. field. apply Rgt_not_eq. apply sqrt_lt_R0; lra. Qed.
Lemma sin4 : sin (PI / 2 / 2) = r2. Proof. replace (PI / 2 / 2) with (PI / 4) by field. rewrite sin_PI4. unfold r2. field. apply Rgt_not_eq. apply sqrt_lt_R0; lra. Qed.
Lemma rz_form : forall t, meq 2 (rz_matrix t) (scale (cis (- (t / 2))) (m2 c1 c0 c0 (cis t))).
Proof.
  intros t. apply meq2; unfold rz_matrix, scale, m2; try ring.
  - replace (- t / 2) with (- (t / 2)) by field. ring.
  - rewrite <- cis_add. f_equal. field.
Qed.
Theorem C63_named_gates :
  meq 2 x_unitary (m2 c0 (0, -1) (0, -1) c0) /\ meq 2 x90_unitary (scale (re r2) (m2 c1 (0, -1) (0, -1) c1)) /\ meq 2 y_unitary (m2 c0 (-1, 0) c1 c0) /\ meq 2 y90_unitary (scale (re r2) (m2 c1 (-1, 0) c1 c1)) /\
  meq 2 z_unitary (m2 (0, -1) c0 c0 ci) /\ meq 2 z90_unitary (scale (re r2) (m2 (1, -1) c0 c0 (1, 1))) /\ meq 2 s_unitary (scale (cis (- (PI / 4))) (m2 c1 c0 c0 ci)) /\
  meq 2 sdagger_unitary (scale (re r2) (m2 (1, 1) c0 c0 (1, -1))) /\ meq 2 t_unitary (scale (cis (- (PI / 8))) (m2 c1 c0 c0 (r2, r2))) /\ meq 2 tdagger_unitary (scale (cis (PI / 8)) (m2 c1 c0 c0 (r2, - r2))).
Proof.
  destruct rads as [A [B [D [E [F [G [H [I J]]]]]]]]. unfold x_unitary, x90_unitary, y_unitary, y90_unitary, z_unitary, z90_unitary, s_unitary, z90_unitary, sdagger_unitary, t_unitary, tdagger_unitary, rxy_unitary, rz_unitary. rewrite A, B, D, E, F, G, H, I, J.
  assert (N : forall x, - x / 2 = - (x / 2)) by (intros; field). assert (M : forall x, - - x / 2 = x / 2) by (intros; field).
  assert (P4 : cis (PI / 4) = (r2, r2)) by (unfold cis; replace (PI / 4) with (PI / 2 / 2) by field; now rewrite cos4, sin4).
  assert (P2 : cis (PI / 2) = ci) by (unfold cis, ci; now rewrite cos_PI2, sin_PI2).
  refine (conj _ (conj _ (conj _ (conj _ (conj _ (conj _ (conj _ (conj _ (conj _ _))))))))).
  7: { rewrite <- P2. replace (- (PI / 4)) with (- (PI / 2 / 2)) by field. apply rz_form. }
  8: { rewrite <- P4. replace (- (PI / 8)) with (- (PI / 4 / 2)) by field. apply rz_form. }
  8: { replace (r2, - r2) with (cis (- (PI / 4))) by (rewrite cis_neg, P4; reflexivity). replace (PI / 8) with (- (- (PI / 4) / 2)) by field. apply rz_form. }
  all: apply meq2; unfold rxy_matrix, rz_matrix, scale, m2; rewrite ?M, ?N, ?cis_neg, ?cos4, ?sin4, ?cos_PI2, ?sin_PI2; unfold cis; rewrite ?cos_PI2, ?sin_PI2, ?cos4, ?sin4, ?cos_0, ?sin_0; ceq; ring.
Qed.
(** ** Composite gates *)
(** H is made of Z and then Y90; its unitary is exactly that of the two *)
Theorem C63_hadamard : meq 2 hadamard_as_y90z_unitary h_unitary.
Proof.
  destruct C63_named_gates as [_ [_ [_ [Y [Z _]]]]]. unfold hadamard_as_y90z_unitary. eapply meq_trans; [apply mmul_meq; [exact Y | exact Z]|].
  apply meq2; unfold mmul, h_unitary, scale, m2; cbn [csum]; fold r2; ceq; ring.
Qed.
(** it exchanges the axes x and z *)
Theorem C63_hadamard_axes : meq 2 (mmul 2 h_unitary (mmul 2 pauli_z (adjoint h_unitary))) pauli_x /\ meq 2 (mmul 2 h_unitary (mmul 2 pauli_x (adjoint h_unitary))) pauli_z.
Proof.
  pose proof half_sqrt2 as A. split; apply meq2; unfold mmul, adjoint, pauli_x, pauli_z, h_unitary, scale, m2; cbn [csum]; ceq; try ring; set (r := / sqrt 2) in *;
    try (transitivity (2 * (r * r)); [ring | rewrite A; lra]); transitivity (- (2 * (r * r))); try ring; rewrite A; lra.
Qed.
(** CNOT and CZ are the controlled X and Z, the first qubit being the control *)
Theorem C63_controlled : meq 4 cnot_unitary (controlled pauli_x) /\ meq 4 cz_unitary (controlled pauli_z).
Proof. split; each; unfold cnot_unitary, cz_unitary, controlled, pauli_x, pauli_z, m4, m2; cbn; ceq; ring. Qed.
(** CNOT as H on the target, CZ, and H on the target *)
Lemma blocks : forall A B D, meq 4 (mmul 4 (on_target A) (mmul 4 (controlled B) (on_target D)))
  (fun i j => if Nat.ltb i 2 then (if Nat.ltb j 2 then mmul 2 A D i j else c0) else if Nat.ltb j 2 then c0 else mmul 2 A (mmul 2 B D) (i - 2)%nat (j - 2)%nat).
Proof. intros A B D. each; unfold mmul, on_target, kron, ident, controlled; cbn; ring. Qed.
Theorem C63_cnot : same_gate 4 cnot_as_h_cz_h_unitary cnot_unitary.
Proof.
  pose proof half_sqrt2 as A. exists (- c1)%C. split; [unfold sqmod, cneg, c1; cbn; ring|]. unfold cnot_as_h_cz_h_unitary.
  eapply meq_trans; [apply mmul_meq; [apply meq_refl | apply mmul_meq; [apply C63_controlled | apply meq_refl]]|]. eapply meq_trans; [apply blocks|].
  each; unfold mmul, h_unitary, pauli_z, cnot_unitary, scale, m2, m4; cbn [Nat.ltb Nat.leb Nat.sub csum]; ceq; try ring; set (r := / sqrt 2) in *;
    try (transitivity (2 * (r * r)); [ring | rewrite A; lra]); transitivity (- (2 * (r * r))); try ring; rewrite A; lra.
Qed.
(** exchanging the qubits does not change CZ ("symmetric" in its gate_info), but it does change CNOT *)
Definition swap (i : nat) : nat := match i with 1 => 2 | 2 => 1 | _ => i end%nat.
Theorem C63_symmetric : meq 4 (fun i j => cz_unitary (swap i) (swap j)) cz_unitary /\ ~ same_gate 4 (fun i j => cnot_unitary (swap i) (swap j)) cnot_unitary.
Proof.
  split; [each; reflexivity|]. intros [z [Z H]]. specialize (H 1%nat 1%nat ltac:(lia) ltac:(lia)). unfold scale, cnot_unitary, m4, swap in H. destruct z as [x y]. unfold cmul, c0, c1, sqmod in *. cbn in *. injection H as H1 H2.
  assert (x = 0) by lra. assert (y = 0) by lra. subst. lra.
Qed.
