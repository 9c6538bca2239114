(** Model of the waveform functions with rational values (quantify_scheduler/waveforms.py): square, ramp, staircase and sudden_net_zero. Floats are rationals; amplitudes are real. *)
From Verif Require Import Base.
From Coq Require Import Qminmax.
Local Open Scope Q_scope.
Local Open Scope list_scope.
Local Notation length := List.length.

(** l.24-26 *)
Definition square (t : list Q) (amp : Q) : list Q := repeat amp (length t).
(** l.34-45, with the duration given *)
Definition ramp (t : list Q) (amp offset duration : Q) : list Q := map (fun x => amp / duration * x + offset) t.
(** l.48-95, with the duration given.  A division by zero is an error for Python numbers. *)
Definition staircase (t : list Q) (start_amp final_amp : Q) (num_steps : Z) (duration : Q) : result (list Q) :=
  if (num_steps =? 1)%Z then Err OtherErr
  else if Qeq_bool duration 0 then Err OtherErr
  else let amp_step := (final_amp - start_amp) / inject_Z (num_steps - 1) in
       Ok (map (fun x => Qmin (Qmax (inject_Z (Qfloor (x * (inject_Z num_steps / duration))) * amp_step + start_amp) start_amp) final_amp) t).

(** Python's int() of a float *)
Definition int_of (x : Q) : Z := if Qle_bool 0 x then Qfloor x else (- Qfloor (- x))%Z.
(** l[a:b] = v for 0 <= a <= b *)
Definition set_slice (l : list Q) (a b : nat) (v : Q) : list Q := firstn a l ++ repeat v (Nat.min b (length l) - a) ++ skipn b l.
(** l[i] = v: a negative index counts from the end *)
Definition set_item (l : list Q) (i : Z) (v : Q) : result (list Q) :=
  let j := if (i <? 0)%Z then (i + Z.of_nat (length l))%Z else i in
  if (0 <=? j)%Z && (j <? Z.of_nat (length l))%Z then Ok (firstn (Z.to_nat j) l ++ v :: skipn (S (Z.to_nat j)) l) else Err IndexError.
Definition sumq (l : list Q) : Q := fold_right Qplus 0 l.
(** l.275-370 [sudden_net_zero].  Simplified: durations are not negative.  The division by zero correction samples gives no error in numpy, and the value is not used. *)
Definition sudden_net_zero (t : list Q) (amp_A amp_B net_zero_A_scale t_pulse t_phi t_integral_correction : Q) : result (list Q) :=
  match t with
  | t0 :: t1 :: _ =>
      let sampling_rate := t1 - t0 in
      if Qeq_bool sampling_rate 0 then Err OtherErr else
      let arm := Z.to_nat (int_of (t_pulse / 2 / sampling_rate)) in
      let mid := Z.to_nat (int_of (t_phi / sampling_rate)) in
      let corr := Z.to_nat (int_of (t_integral_correction / sampling_rate)) in
      if Nat.ltb (length t) (2 * arm + mid + corr) then Err ValueError else
      let w1 := set_slice (repeat 0 (length t)) 0 arm amp_A in
      do w2 <- set_item w1 (Z.of_nat arm - 1) (amp_A * amp_B);
      let w3 := set_slice w2 (arm + mid) (2 * arm + mid) (- amp_A * net_zero_A_scale) in
      do w4 <- set_item w3 (Z.of_nat (arm + mid)) (- amp_A * net_zero_A_scale * amp_B);
      let integral_value := - sumq w4 / inject_Z (Z.of_nat corr) in
      Ok (set_slice w4 (2 * arm + mid) (2 * arm + mid + corr) integral_value)
  | _ => Err IndexError
  end.
