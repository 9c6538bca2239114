(** C63: proofs. *)
From Coq Require Import Reals Qreals QArith Lra Lia.
From Verif Require Import NumericModel NumericProps GateMat GateModel GateSpec.
Local Open Scope R_scope.

Ltac ceq := unfold cmul, cadd, cneg, cconj, re, ci, c0, c1, cis in *; cbn [fst snd] in *; f_equal.
Lemma deg_rad : forall d, deg2rad d = radians d.
Proof. intros d. unfold deg2rad, radians. field. Qed.
Lemma rxy_rotation : forall t p, meq 2 (rxy_matrix t p) (rotation t (xy_axis p)).
Proof.
  intros t p. apply meq2; unfold rxy_matrix, rotation, xy_axis, madd, scale, pauli_x, pauli_y, ident, m2; cbn [Nat.eqb]; rewrite ?cis_neg; ceq; ring.
Qed.
Lemma rz_rotation : forall t, meq 2 (rz_matrix t) (rotation t pauli_z).
Proof.
  intros t. replace (rz_matrix t) with (m2 (cis (- (t / 2))) c0 c0 (cis (t / 2))) by (unfold rz_matrix; repeat f_equal; field).
  apply meq2; unfold rotation, pauli_z, madd, scale, ident, m2; cbn [Nat.eqb]; rewrite ?cis_neg; ceq; ring.
Qed.
(** ** Unitarity *)
Lemma rxy_is_unitary : forall t p, is_unitary 2 (rxy_matrix t p).
Proof.
  intros t p. pose proof (sin2_cos2 (t / 2)) as A. pose proof (sin2_cos2 p) as B. unfold Rsqr in A, B.
  split; apply meq2; unfold mmul, adjoint, ident, rxy_matrix, m2; cbn [csum Nat.eqb]; rewrite ?cis_neg; ceq; try ring;
    set (c := cos (t / 2)) in *; set (s := sin (t / 2)) in *; set (u := cos p) in *; set (v := sin p) in *;
    transitivity (s * s * (v * v + u * u) + c * c); try ring; rewrite B; lra.
Qed.
Lemma rz_is_unitary : forall t, is_unitary 2 (rz_matrix t).
Proof.
  intros t. pose proof (sin2_cos2 (- t / 2)) as A. pose proof (sin2_cos2 (t / 2)) as B. unfold Rsqr in A, B.
  split; apply meq2; unfold mmul, adjoint, ident, rz_matrix, m2; cbn [csum Nat.eqb]; ceq; try ring; try lra.
Qed.
Lemma half_sqrt2 : / sqrt 2 * / sqrt 2 = / 2.
Proof. rewrite <- Rinv_mult. now rewrite sqrt_sqrt by lra. Qed.
Lemma h_is_unitary : is_unitary 2 h_unitary.
Proof.
  pose proof half_sqrt2 as A. split; apply meq2; unfold mmul, adjoint, ident, h_unitary, scale, m2; cbn [csum Nat.eqb]; ceq; try ring;
    set (r := / sqrt 2) in *; try (transitivity (2 * (r * r)); [ring | rewrite A; lra]); try (transitivity (- 2 * (r * r) + 2 * (r * r)); [ring | ring]).
Qed.
Lemma below4 : forall i, (i < 4)%nat -> (i = 0 \/ i = 1 \/ i = 2 \/ i = 3)%nat.
Proof. intros i H. lia. Qed.
Ltac each := let i := fresh in let j := fresh in intros i j ?Hi ?Hj; apply below4 in Hi, Hj; destruct Hi as [->|[->|[->| ->]]]; destruct Hj as [->|[->|[->| ->]]].
Lemma cnot_is_unitary : is_unitary 4 cnot_unitary.
Proof. split; each; unfold mmul, adjoint, ident, cnot_unitary, m4; cbn [csum Nat.eqb]; ceq; ring. Qed.
Lemma cz_is_unitary : is_unitary 4 cz_unitary.
Proof. split; each; unfold mmul, adjoint, ident, cz_unitary, m4; cbn [csum Nat.eqb]; ceq; ring. Qed.
