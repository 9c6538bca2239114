(** Model of the unitaries stored with gates (operations/gate_library.py) and of the decompositions of composite gates (operations/composite_factories.py).

    Angles are rational (degrees); cosines, sines and roots are exact reals, where numpy rounds to double precision. *)
From Coq Require Import Reals Qreals QArith List.
From Verif Require Import NumericModel GateMat.
Import ListNotations.
Local Open Scope R_scope.

(** np.deg2rad *)
Definition deg2rad (d : Q) : R := Q2R d * (PI / 180).
(** gate_library.py l.64-84 *)
Definition rxy_matrix (theta_r phi_r : R) : mat :=
  m2 (re (cos (theta_r / 2))) (- ci * cis (- phi_r) * re (sin (theta_r / 2)))%C
     (- ci * cis phi_r * re (sin (theta_r / 2)))%C (re (cos (theta_r / 2))).
Definition rxy_unitary (theta phi : Q) : mat := rxy_matrix (deg2rad (rxy_theta theta)) (deg2rad (rxy_phi phi)).
(** l.300-313 *)
Definition rz_matrix (theta_r : R) : mat := m2 (cis (- theta_r / 2)) c0 c0 (cis (theta_r / 2)).
Definition rz_unitary (theta : Q) : mat := rz_matrix (deg2rad (rz_theta theta)).
(** l.132, l.171, l.210, l.246, l.376, l.413, l.423-455, l.485, l.523, l.561: the named gates are Rxy and Rz of these angles *)
Definition x_unitary := rxy_unitary 180 0.
Definition x90_unitary := rxy_unitary 90 0.
Definition y_unitary := rxy_unitary 180 90.
Definition y90_unitary := rxy_unitary 90 90.
Definition z_unitary := rz_unitary 180.
Definition z90_unitary := rz_unitary 90.
Definition s_unitary := z90_unitary.
Definition sdagger_unitary := rz_unitary (-90).
Definition t_unitary := rz_unitary 45.
Definition tdagger_unitary := rz_unitary (-45).
(** l.599: -1j / np.sqrt(2) * [[1, 1], [1, -1]] *)
Definition h_unitary : mat := scale (- ci * re (/ sqrt 2))%C (m2 c1 c1 c1 (- c1)%C).
(** l.653 *)
Definition cnot_unitary : mat := m4 c1 c0 c0 c0  c0 c1 c0 c0  c0 c0 c0 c1  c0 c0 c1 c0.
(** l.711 *)
Definition cz_unitary : mat := m4 c1 c0 c0 c0  c0 c1 c0 c0  c0 c0 c1 c0  c0 c0 c0 (- c1)%C.
(** composite_factories.py l.9-31: Z, then Y90 (the gate applied first is the factor on the right) *)
Definition hadamard_as_y90z_unitary : mat := mmul 2 y90_unitary z_unitary.
(** l.34-57: H on the target, CZ, H on the target *)
Definition on_target (A : mat) : mat := kron ident A.
Definition cnot_as_h_cz_h_unitary : mat := mmul 4 (on_target h_unitary) (mmul 4 cz_unitary (on_target h_unitary)).
