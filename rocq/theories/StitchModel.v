(** Model of backends/qblox/operations/stitched_pulse.py (StitchedPulseBuilder) and pulse_factories.py.
    Times are integers in ns, so the float comparisons of times by math.isclose (l.506, l.510) are equalities; amplitudes are rationals, I and Q path.
    Ports, clocks and reference magnitudes (passed on unchanged to all parts) are left out. *)
From Verif Require Import Base.
Open Scope Z_scope.

Definition V := (Q * Q)%type.
Definition v0 : V := (0%Q, 0%Q).

(** math.isclose with the default tolerances *)
Definition isclose (a b : Q) : bool := Qle_bool (Qabs (a - b)) ((1 # 1000000000) * Qmax (Qabs a) (Qabs b)).

(** Waveforms the factories use: SquarePulse (complex amplitude) and RampPulse with its duration in ns (waveforms.py l.24-26, l.34-45) *)
Inductive shape := Square (a : V) | Ramp (amp offset : Q).
Record bpulse := { b_t : Z; b_dur : Z; b_sh : shape }.
(** l.188-193 [_VoltageOffsetInfo] *)
Record offs := { o_v : V; o_t : Z; o_dur : option Z }.
Definition o_end (o : offs) : Z := o_t o + match o_dur o with Some d => d | None => 0 end.
(** l.215-229 *)
Record builder := { pulses : list bpulse; offsets : list offs }.
Definition new_builder : builder := {| pulses := []; offsets := [] |}.

(** l.416-447 [operation_end] *)
Definition max_list (l : list Z) : Z := match l with [] => 0 | x :: r => fold_left Z.max r x end.
Definition last_end (l : list offs) : Z := match rev l with o :: _ => o_end o | [] => 0 end.
Definition operation_end (b : builder) : Z := Z.max (max_list (map (fun p => b_t p + b_dur p) (pulses b))) (last_end (offsets b)).

(** l.283-336 [add_pulse] for a valid pulse (the error cases concern other kinds of operations) *)
Definition add_pulse (b : builder) (p : bpulse) (append : bool) : builder :=
  {| pulses := pulses b ++ [if append then {| b_t := b_t p + operation_end b; b_dur := b_dur p; b_sh := b_sh p |} else p]; offsets := offsets b |}.

(** bisect.bisect_right on the start times *)
Fixpoint bisect_right (l : list offs) (t : Z) : nat :=
  match l with [] => O | o :: r => if t <? o_t o then O else S (bisect_right r t) end.

(** l.533-582 [_get_offset_list_insertion_index] *)
Definition insertion_index (l : list offs) (o : offs) : result nat :=
  match l with
  | [] => Ok O
  | first :: _ =>
      let nxt := bisect_right l (o_t o) in
      let overlaps :=
        match nxt with
        | O => o_t first <? o_end o
        | S prev =>
            if (nxt =? List.length l)%nat then match rev l with z :: _ => o_t o <? o_end z | [] => false end
            else match nth_error l nxt, nth_error l prev with
                 | Some n, Some p => (o_t n <? o_end o) || (o_t o <? o_end p)
                 | _, _ => false
                 end
        end in
      if overlaps then Err RuntimeError else Ok nxt
  end.
Definition insert_at {A} (i : nat) (x : A) (l : list A) : list A := firstn i l ++ x :: skipn i l.

(** l.338-414 [add_voltage_offset] *)
Definition add_voltage_offset (b : builder) (v : V) (dur : option Z) (rel_time : Z) (append : bool) (min_duration : Z) : result builder :=
  let t := if append then rel_time + operation_end b else rel_time in
  if match dur with Some d => d <? min_duration | None => false end then Err ValueError
  else
    let o := {| o_v := v; o_t := t; o_dur := dur |} in
    do i <- insertion_index (offsets b) o;
    Ok {| pulses := pulses b; offsets := insert_at i o (offsets b) |}.

(** l.493-523: the loop of [_build_voltage_offset_operations]; returns the offset operations and the last background *)
Fixpoint build_loop (op_end : Z) (bg : V) (l : list offs) : list (Z * V) * V :=
  match l with
  | [] => ([], bg)
  | o :: r =>
      match o_dur o with
      | None => let '(ops, b) := build_loop op_end (o_v o) r in ((o_t o, o_v o) :: ops, b)
      | Some d =>
          let e := o_t o + d in
          let bg' := if e =? op_end then v0 else bg in
          let reset := match r with n :: _ => if o_t n =? e then [] else [(e, bg')] | [] => [(e, bg')] end in
          let '(ops, b) := build_loop op_end bg' r in ((o_t o, o_v o) :: reset ++ ops, b)
      end
  end.
(** l.464-531 *)
Definition build_offsets (b : builder) : list (Z * V) :=
  let '(ops, bg) := build_loop (operation_end b) v0 (offsets b) in
  ops ++ (if isclose (fst bg) 0 && isclose (snd bg) 0 then [] else [(operation_end b, v0)]).

(** l.584-602 [build]: voltage offsets and pulses, all shifted by t0 *)
Record stitched := { s_offs : list (Z * V); s_pulses : list bpulse }.
Definition build (b : builder) (t0 : Z) : stitched :=
  {| s_offs := map (fun '(t, v) => (t + t0, v)) (build_offsets b);
     s_pulses := map (fun p => {| b_t := b_t p + t0; b_dur := b_dur p; b_sh := b_sh p |}) (pulses b) |}.

(** constants.py l.36, l.48 *)
Definition MIN_TIME : Z := 4.
Definition STITCHED_PULSE_PART_DURATION_NS : Z := 2000.

(** pulse_factories.py l.26-108 [long_square_pulse] *)
Definition long_square_pulse (amp : V) (duration t0 : Z) : result stitched :=
  if duration <? MIN_TIME then Err ValueError
  else
    do b <- add_voltage_offset new_builder amp None 0 true MIN_TIME;
    do b <- add_voltage_offset b v0 None (duration - MIN_TIME) true MIN_TIME;
    Ok (build (add_pulse b {| b_t := 0; b_dur := MIN_TIME; b_sh := Square amp |} true) t0).

(** np.linspace(a, b, n) *)
Definition linspace (a b : Q) (n : nat) : list Q :=
  map (fun k => (a + inject_Z (Z.of_nat k) * ((b - a) / inject_Z (Z.of_nat (n - 1))))%Q) (seq 0 n).
(** helpers.to_grid_time(duration / num_steps, min_operation_time_ns) for a duration in ns (C24) *)
Definition step_grid (duration num_steps m : Z) : result Z :=
  if (duration mod num_steps =? 0) && ((duration / num_steps) mod m =? 0) then Ok (duration / num_steps) else Err ValueError.
(** pulse_factories.py l.111-217 [staircase_pulse] (num_steps >= 1) *)
Definition staircase_pulse (start_amp final_amp : Q) (num_steps : nat) (duration t0 m : Z) : result stitched :=
  do step <- step_grid duration (Z.of_nat num_steps) m;
  let amps := linspace start_amp final_amp num_steps in
  let final := last amps 0%Q in
  do b <- foldM (fun b a => add_voltage_offset b (a, 0%Q) (Some step) 0 true m) (removelast amps) new_builder;
  do b <- add_voltage_offset b (final, 0%Q) (Some (step - m)) 0 true m;
  do b <- add_voltage_offset b v0 None 0 true MIN_TIME;
  Ok (build (add_pulse b {| b_t := 0; b_dur := m; b_sh := Square (final, 0%Q) |} true) t0).

(** pulse_factories.py l.220-320 [long_ramp_pulse], duration in ns (to_grid_time, C24) *)
Fixpoint ramp_parts (n : nat) (b : builder) (last offset amp_part : Q) (part : Z) : result (builder * Q) :=
  match n with
  | O => Ok (b, last)
  | S n =>
      do b <- (if negb (Qeq_bool last offset) || negb (isclose offset 0) then add_voltage_offset b (last, 0%Q) None 0 true MIN_TIME else Ok b);
      let b := add_pulse b {| b_t := 0; b_dur := part; b_sh := Ramp amp_part 0 |} true in
      ramp_parts n b (last + amp_part)%Q offset amp_part part
  end.
Definition long_ramp_pulse (amp : Q) (duration : Z) (offset : Q) (t0 part : Z) : result stitched :=
  let whole := (duration - 1) / part in
  let amp_part := (inject_Z part / inject_Z duration * amp)%Q in
  let dur_left := duration - whole * part in
  let amp_left := (amp - inject_Z whole * amp_part)%Q in
  do (b, last) <- ramp_parts (Z.to_nat whole) new_builder offset offset amp_part part;
  do b <- (if negb (isclose last offset) && negb (isclose (last - amp_part) 0) then add_voltage_offset b v0 None 0 true MIN_TIME else Ok b);
  Ok (build (add_pulse b {| b_t := 0; b_dur := dur_left; b_sh := Ramp amp_left last |} true) t0).
