(** Conversions from user units to hardware integers.  Python floats are modelled by rationals (no float rounding). *)
From Verif Require Import Base.
Open Scope Q_scope.

(** Python's built-in [round(x)] for an exact [x]: nearest integer, ties to even. *)
Definition py_round (x : Q) : Z :=
  let z := Qfloor (x + (1#2)) in
  if Qeq_bool (inject_Z z) (x + (1#2)) && Z.odd z then (z - 1)%Z else z.

(** Python's [x % y] for y > 0 *)
Definition py_mod (x y : Q) : Q := x - inject_Z (Qfloor (x / y)) * y.

(** [round(x, 8)] *)
Definition py_round8 (x : Q) : Q := inject_Z (py_round (x * 100000000)) / 100000000.

(** operations/gate_library.py l.926-970 [_modulo_360_with_mapping] *)
Definition map_angle (theta : Q) : Q := - (py_mod (- theta - 180) 360) + 180.

(** operations/gate_library.py l.300 (Rz.__init__): the stored rotation angle *)
Definition rz_theta (theta : Q) : Q := map_angle theta.
(** operations/gate_library.py l.64, l.66 (Rxy.__init__): the stored rotation angle and axis angle *)
Definition rxy_theta (theta : Q) : Q := py_round8 (map_angle theta).
Definition rxy_phi (phi : Q) : Q := py_round8 (py_mod phi 360).

(** backends/qblox/constants.py l.110 *)
Definition tolerance : Q := 11 # 10000.

(** backends/qblox/helpers.py l.225-273 [to_grid_time]; [time_ns]: the argument in ns (time * 1e9) *)
Definition to_grid_time (time_ns : Q) (grid : Z) : result Z :=
  let r := py_round time_ns in
  if Qlt_bool tolerance (Qabs (time_ns - inject_Z r)) then Err ValueError
  else if negb (Z.eqb (r mod grid) 0) then Err ValueError
  else Ok r.

(** backends/qblox/helpers.py l.276-301 [is_multiple_of_grid_time] *)
Definition is_multiple_of_grid_time (time_ns : Q) (grid : Z) : bool :=
  match to_grid_time time_ns grid with Ok _ => true | Err _ => false end.

(** backends/qblox/qasm_program.py l.348-390 [expand_awg_from_normalised_range] *)
Definition expand_awg (v : Q) (size : Z) : result Z :=
  if Qlt_bool 1 (Qabs v) then Err ValueError
  else
    let mx := (size / 2)%Z in
    Ok (Z.max (- mx) (Z.min (py_round (v * inject_Z mx)) (mx - 1))).

(** backends/qblox/helpers.py l.304-322 [get_nco_phase_arguments]; constants.py l.26 *)
Definition nco_phase (deg : Q) : Z := py_round (py_mod deg 360 * (1000000000 / 360)).

(** backends/qblox/helpers.py l.325-360 [get_nco_set_frequency_arguments]; constants.py l.28-30 *)
Definition nco_freq (hz : Q) : result Z :=
  let s := py_round (hz * 4) in
  if (s <? - 2000000000)%Z || (2000000000 <? s)%Z then Err ValueError else Ok s.

(** math.py l.8-36 [closest_number_ceil] for integers: the next multiple strictly above [number] *)
Definition closest_number_ceil (number multiple : Z) : result Z :=
  if negb (0 <? number)%Z then Err ValueError
  else if negb (0 <? multiple)%Z then Err ValueError
  else Ok (multiple * (Z.quot number multiple + 1))%Z.
