(** C63: what the documentation of the gates says (gate_library.py), as functions of the angles asked for. *)
From Coq Require Import Reals Qreals QArith.
From Verif Require Import GateMat.
Local Open Scope R_scope.

Definition radians (d : Q) : R := Q2R d / 360 * (2 * PI).
(** a rotation by theta around the axis at the angle phi in the plane of x and y: cos(theta/2) - i sin(theta/2) (cos(phi) X + sin(phi) Y) *)
Definition pauli_x : mat := m2 c0 c1 c1 c0.
Definition pauli_y : mat := m2 c0 (0, -1) (0, 1) c0.
Definition pauli_z : mat := m2 c1 c0 c0 (-1, 0).
Definition madd (A B : mat) : mat := fun i j => (A i j + B i j)%C.
Definition rotation (theta : R) (axis : mat) : mat := madd (scale (cos (theta / 2), 0) ident) (scale (0, - sin (theta / 2)) axis).
Definition xy_axis (phi : R) : mat := madd (scale (cos phi, 0) pauli_x) (scale (sin phi, 0) pauli_y).
Definition Rxy_of (theta phi : Q) : mat := rotation (radians theta) (xy_axis (radians phi)).
Definition Rz_of (theta : Q) : mat := rotation (radians theta) pauli_z.
(** every entry is within [d] of that of the other *)
Definition close (n : nat) (d : R) (A B : mat) : Prop := forall i j, (i < n)%nat -> (j < n)%nat -> Rabs (fst (A i j) - fst (B i j)) <= d /\ Rabs (snd (A i j) - snd (B i j)) <= d.
(** a controlled gate: the control is the first of the two qubits *)
Definition controlled (A : mat) : mat := fun i j => if Nat.ltb i 2 then (if Nat.eqb i j then c1 else c0) else if Nat.ltb j 2 then c0 else A (i - 2)%nat (j - 2)%nat.
