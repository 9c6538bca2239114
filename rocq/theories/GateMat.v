(** Complex numbers and matrices over the reals of the standard library, for C63. *)
From Coq Require Import Reals Lra Lia Arith.
Local Open Scope R_scope.

Definition cplx : Type := (R * R)%type.
Definition c0 : cplx := (0, 0).
Definition c1 : cplx := (1, 0).
Definition ci : cplx := (0, 1).
Definition re (x : R) : cplx := (x, 0).
Definition cadd (a b : cplx) : cplx := (fst a + fst b, snd a + snd b).
Definition cmul (a b : cplx) : cplx := (fst a * fst b - snd a * snd b, fst a * snd b + snd a * fst b).
Definition cneg (a : cplx) : cplx := (- fst a, - snd a).
Definition cconj (a : cplx) : cplx := (fst a, - snd a).
(** exp(1j * x) *)
Definition cis (x : R) : cplx := (cos x, sin x).
Definition sqmod (a : cplx) : R := fst a * fst a + snd a * snd a.

Declare Scope c_scope.
Delimit Scope c_scope with C.
Infix "+" := cadd : c_scope.
Infix "*" := cmul : c_scope.
Notation "- x" := (cneg x) : c_scope.

Lemma c_ring : ring_theory c0 c1 cadd cmul (fun a b => cadd a (cneg b)) cneg eq.
Proof.
  constructor; intros; repeat match goal with x : cplx |- _ => destruct x end; unfold cadd, cmul, cneg, c0, c1; cbn; f_equal; ring.
Qed.
Add Ring c_ring_ : c_ring.

(** a matrix: its entries; only those of rows and columns below the size count *)
Definition mat : Type := nat -> nat -> cplx.
Fixpoint csum (n : nat) (f : nat -> cplx) : cplx := match n with O => c0 | S k => (csum k f + f k)%C end.
Definition mmul (n : nat) (A B : mat) : mat := fun i j => csum n (fun k => (A i k * B k j)%C).
Definition adjoint (A : mat) : mat := fun i j => cconj (A j i).
Definition ident : mat := fun i j => if Nat.eqb i j then c1 else c0.
Definition scale (z : cplx) (A : mat) : mat := fun i j => (z * A i j)%C.
(** np.kron for factors of size 2: the first factor is the most significant qubit *)
Definition kron (A B : mat) : mat := fun i j => (A (Nat.div i 2) (Nat.div j 2) * B (Nat.modulo i 2) (Nat.modulo j 2))%C.
Definition meq (n : nat) (A B : mat) : Prop := forall i j, (i < n)%nat -> (j < n)%nat -> A i j = B i j.
Definition is_unitary (n : nat) (A : mat) : Prop := meq n (mmul n (adjoint A) A) ident /\ meq n (mmul n A (adjoint A)) ident.
(** the same up to a global phase *)
Definition same_gate (n : nat) (A B : mat) : Prop := exists z, sqmod z = 1 /\ meq n A (scale z B).
(** rows *)
Definition m2 (a b c d : cplx) : mat := fun i j => match i, j with O, O => a | O, _ => b | _, O => c | _, _ => d end.
Definition m4 (a b c d e f g h i j k l m n o p : cplx) : mat :=
  fun x y => match x, y with
             | 0, 0 => a | 0, 1 => b | 0, 2 => c | 0, _ => d | 1, 0 => e | 1, 1 => f | 1, 2 => g | 1, _ => h
             | 2, 0 => i | 2, 1 => j | 2, 2 => k | 2, _ => l | _, 0 => m | _, 1 => n | _, 2 => o | _, _ => p end%nat.
(** the amplitude, and the probability, of the outcome [j] when the gate is applied to the state 0 *)
Definition probability (A : mat) (j : nat) : R := sqmod (A j O).

Lemma meq2 : forall A B, A 0%nat 0%nat = B 0%nat 0%nat -> A 0%nat 1%nat = B 0%nat 1%nat -> A 1%nat 0%nat = B 1%nat 0%nat -> A 1%nat 1%nat = B 1%nat 1%nat -> meq 2 A B.
Proof. intros A B H0 H1 H2 H3 i j Hi Hj. destruct i as [|[|i]]; [| |lia]; (destruct j as [|[|j]]; [| |lia]); assumption. Qed.
Lemma meq_refl : forall n A, meq n A A.
Proof. intros n A i j _ _. reflexivity. Qed.
Lemma meq_sym : forall n A B, meq n A B -> meq n B A.
Proof. intros n A B H i j Hi Hj. symmetry. auto. Qed.
Lemma meq_trans : forall n A B D, meq n A B -> meq n B D -> meq n A D.
Proof. intros n A B D H H' i j Hi Hj. now rewrite H, H'. Qed.
Lemma csum_ext : forall n f g, (forall k, (k < n)%nat -> f k = g k) -> csum n f = csum n g.
Proof. induction n as [|n IH]; intros f g H; cbn; auto. rewrite (IH f g), (H n); auto. Qed.
Lemma mmul_meq : forall n A A' B B', meq n A A' -> meq n B B' -> meq n (mmul n A B) (mmul n A' B').
Proof. intros n A A' B B' H H' i j Hi Hj. unfold mmul. apply csum_ext. intros k Hk. now rewrite H, H'. Qed.
Lemma mmul_assoc2 : forall A B D, meq 2 (mmul 2 (mmul 2 A B) D) (mmul 2 A (mmul 2 B D)).
Proof. intros A B D. apply meq2; unfold mmul; cbn [csum]; ring. Qed.
Lemma mmul_ident2 : forall A, meq 2 (mmul 2 A ident) A.
Proof. intros A. apply meq2; unfold mmul, ident; cbn; ring. Qed.
Lemma mmul_ident2_l : forall A, meq 2 (mmul 2 ident A) A.
Proof. intros A. apply meq2; unfold mmul, ident; cbn; ring. Qed.
Lemma mmul_scale2_l : forall z A B, meq 2 (mmul 2 (scale z A) B) (scale z (mmul 2 A B)).
Proof. intros z A B. apply meq2; unfold mmul, scale; cbn; ring. Qed.
Lemma mmul_scale2_r : forall z A B, meq 2 (mmul 2 A (scale z B)) (scale z (mmul 2 A B)).
Proof. intros z A B. apply meq2; unfold mmul, scale; cbn; ring. Qed.
Lemma scale_meq : forall n z A B, meq n A B -> meq n (scale z A) (scale z B).
Proof. intros n z A B H i j Hi Hj. unfold scale. now rewrite H. Qed.
Lemma scale_scale : forall n z w A, meq n (scale z (scale w A)) (scale (z * w)%C A).
Proof. intros n z w A i j _ _. unfold scale. ring. Qed.
Lemma sqmod_mul : forall a b, sqmod (a * b)%C = sqmod a * sqmod b.
Proof. intros [a b] [c d]. unfold sqmod, cmul. cbn. ring. Qed.
Lemma sqmod_neg : forall a, sqmod (- a)%C = sqmod a.
Proof. intros [a b]. unfold sqmod, cneg. cbn. ring. Qed.
Lemma cis_add : forall a b, cis (a + b) = (cis a * cis b)%C.
Proof. intros a b. unfold cis, cmul. cbn. rewrite cos_plus, sin_plus. f_equal; ring. Qed.
Lemma cis_0 : cis 0 = c1.
Proof. unfold cis, c1. now rewrite cos_0, sin_0. Qed.
Lemma cis_neg : forall a, cis (- a) = cconj (cis a).
Proof. intros a. unfold cis, cconj. cbn. now rewrite cos_neg, sin_neg. Qed.
Lemma sqmod_cis : forall a, sqmod (cis a) = 1.
Proof. intros a. unfold sqmod, cis. cbn. pose proof (sin2_cos2 a). unfold Rsqr in H. lra. Qed.
Lemma cis_inv : forall a, (cis a * cis (- a))%C = c1.
Proof. intros a. rewrite <- cis_add. rewrite Rplus_opp_r. apply cis_0. Qed.
Lemma cis_PI : cis PI = (- c1)%C.
Proof. unfold cis, cneg, c1. rewrite cos_PI, sin_PI. cbn. f_equal; ring. Qed.
Lemma cis_2PI : forall a, cis (a + 2 * PI) = cis a.
Proof. intros a. replace (a + 2 * PI) with (a + PI + PI) by ring. rewrite !cis_add, cis_PI. ring. Qed.
Lemma cis_turns_nat : forall n a, cis (a + INR n * (2 * PI)) = cis a.
Proof.
  induction n as [|n IH]; intros a; [cbn [INR]; f_equal; ring|]. rewrite S_INR. replace (a + (INR n + 1) * (2 * PI)) with (a + INR n * (2 * PI) + 2 * PI) by ring. now rewrite cis_2PI.
Qed.
Lemma cis_turns : forall k a, cis (a + IZR k * (2 * PI)) = cis a.
Proof.
  intros k a. destruct (Z_le_gt_dec 0 k) as [H|H].
  - rewrite <- (Z2Nat.id k H), <- INR_IZR_INZ. apply cis_turns_nat.
  - rewrite <- (cis_turns_nat (Z.to_nat (- k)) (a + IZR k * (2 * PI))). f_equal. rewrite INR_IZR_INZ, Z2Nat.id by lia. rewrite opp_IZR. ring.
Qed.
(** half turns only change the sign *)
Definition sgn (k : Z) : cplx := if Z.even k then c1 else (- c1)%C.
Lemma sqmod_sgn : forall k, sqmod (sgn k) = 1.
Proof. intros k. unfold sgn. destruct (Z.even k); unfold sqmod; cbn; ring. Qed.
Lemma cis_half_turns : forall k a, cis (a + IZR k * PI) = (sgn k * cis a)%C.
Proof.
  intros k a. unfold sgn. destruct (Z.even k) eqn:E.
  - apply Z.even_spec in E as [h ->]. rewrite mult_IZR. replace (a + 2 * IZR h * PI) with (a + IZR h * (2 * PI)) by ring. rewrite cis_turns. ring.
  - assert (Z.odd k = true) by (rewrite <- Z.negb_even, E; reflexivity). apply Z.odd_spec in H as [h ->]. rewrite plus_IZR, mult_IZR. replace (a + (2 * IZR h + 1) * PI) with ((a + PI) + IZR h * (2 * PI)) by ring.
    rewrite cis_turns, cis_add, cis_PI. ring.
Qed.
Lemma cos_of_cis : forall a, cos a = fst (cis a). Proof. reflexivity. Qed.
Lemma sin_of_cis : forall a, sin a = snd (cis a). Proof. reflexivity. Qed.
