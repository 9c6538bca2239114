(** Model of the library of experiment schedules: schedules/timedomain_schedules.py, schedules/spectroscopy_schedules.py,
    schedules/two_qubit_transmon_schedules.py, schedules/verification.py and schedules/trace_schedules.py.
    Simplifications: numbers are exact rationals; arrays of setpoints have one dimension; amplitudes are real;
    only the arguments of an operation that these functions set are recorded. *)
From Coq Require Import DecimalString.
From Verif Require Import Base TimingModel.
Open Scope Q_scope.
Open Scope string_scope.

Inductive binmode := BinAverage | BinAppend.
(** The operations the library uses, with their arguments. operations/gate_library.py, operations/pulse_library.py,
    operations/acquisition_library.py, operations/nv_native_library.py, operations/shared_native_library.py,
    operations/control_flow_library.py.  [lop]: the operation; the body of a loop is a schedule: label, timing constraint, operation.
    [MeasureGate qs protocol bin]: [None] is the default of the gate. *)
Inductive lop :=
  | ResetGate (qs : list string)
  | XGate (q : string) | X90Gate (q : string) | YGate (q : string)
  | RxyGate (theta phi : Q) (q : string)
  | MeasureGate (qs : list string) (protocol : option string) (bin : option binmode)
  | ChargeReset (q : string) | CRCount (q : string) | Spectroscopy (q : string)
  | Idle (d : Q)
  | Square (d amp : Q) (port clock : string)
  | Drag (d g_amp d_amp : Q) (port clock : string) (phase : Q)
  | SetFreq (clock : string) (f : Q)
  | Offset (i q : Q) (port clock : string)
  | SSB (d : Q) (port clock : string) (ch : Z) (idx : option Z) (bin : binmode) (t0 : Q)
  | TraceAcq (d : Q) (port clock : string) (ch : Z)
  | Loop (body : list (string * tconstr * lop)) (n : Z).
Definition entry : Type := string * tconstr * lop.
Definition e_name (e : entry) : string := fst (fst e).
Definition e_tc (e : entry) : tconstr := snd (fst e).
Definition e_op (e : entry) : lop := snd e.

(** schedules/schedule.py l.710-738: a Schedule (see also SchedModel.v) *)
Record lsched := { l_entries : list entry; l_res : list (string * Q); l_reps : Z }.
(** schedules/schedule.py l.710-738 [Schedule(name, repetitions)]: it brings the clocks "cl0.baseband" and "digital" *)
Definition new (reps : Z) : lsched := {| l_entries := []; l_res := [("cl0.baseband", 0); ("digital", 0)]; l_reps := reps |}.
Definition known (n : string) (l : list string) : bool := existsb (String.eqb n) l.
(** schedules/schedule.py l.744-753 [add_resource], [ClockResource(name, freq)] *)
Definition add_clock (s : lsched) (name : string) (freq : Q) : result lsched :=
  if known name (map fst (l_res s)) then Err ValueError
  else Ok {| l_entries := l_entries s; l_res := l_res s ++ [(name, freq)]; l_reps := l_reps s |}.
(** schedules/schedule.py l.755-852 [add]: without a label a uuid4 is used, here [u k] for the [k]-th call. Returns the schedulable (its name). *)
Definition add (u : nat -> string) (s : lsched) (label : option string) (o : lop) (ref : option string) (pt : option refpt) (rel : Q) : result (lsched * string) :=
  let name := match label with Some l => l | None => u (List.length (l_entries s)) end in
  if known name (map e_name (l_entries s)) then Err ValueError
  else Ok ({| l_entries := l_entries s ++ [(name, {| tc_ref := ref; tc_pt := pt; tc_ptnew := None; tc_rel := rel |}, o)]; l_res := l_res s; l_reps := l_reps s |}, name).
(** schedules/schedule.py l.108-115: the setter of [repetitions] *)
Definition set_reps (s : lsched) (n : Z) : result lsched :=
  if (n <=? 0)%Z then Err ValueError else Ok {| l_entries := l_entries s; l_res := l_res s; l_reps := n |}.

(** [f"{i}"] of a non-negative int *)
Definition dec (n : nat) : string := NilZero.string_of_uint (Nat.to_uint n).
(** np.asarray(x); x.reshape(x.shape or (1,)): a number becomes an array with one element *)
Inductive setpoints := Scalar (x : Q) | Array (l : list Q).
Definition as_array (p : setpoints) : list Q := match p with Scalar x => [x] | Array l => l end.
(** [for i, x in enumerate(xs): s = body(s, i, x)] *)
Definition for_enum {A S} (xs : list A) (s : S) (body : S -> nat -> A -> result S) : result S :=
  foldM (fun s ix => body s (fst ix) (snd ix)) (combine (seq 0 (List.length xs)) xs) s.

Section Lib.
Context (u : nat -> string).   (* the uuids *)
Context (fmt : Q -> string).   (* Python's format specification "e" *)
Let add := add u.

(** timedomain_schedules.py l.30-110 [rabi_sched] *)
Definition rabi_sched (pulse_amp pulse_duration : setpoints) (frequency : Q) (qubit : string) (port clock : option string) (repetitions : Z) : result lsched :=
  let amps := as_array pulse_amp in
  let durations := as_array pulse_duration in
  do ad <- (if Nat.eqb (List.length amps) 1 then Ok (repeat (hd 0 amps) (List.length durations), durations)
            else if Nat.eqb (List.length durations) 1 then Ok (amps, repeat (hd 0 durations) (List.length amps))
            else if negb (Nat.eqb (List.length durations) (List.length amps)) then Err ValueError
            else Ok (amps, durations));
  let '(amps, durations) := ad in
  let port := match port with Some p => p | None => qubit ++ ":mw" end in
  let clock := match clock with Some c => c | None => qubit ++ ".01" end in
  do schedule <- add_clock (new repetitions) clock frequency;
  for_enum (combine amps durations) schedule (fun s i ad =>
    let '(amp, duration) := ad in
    do x <- add s (Some ("Reset " ++ dec i)) (ResetGate [qubit]) None None 0;
    do x <- add (fst x) (Some ("Rabi_pulse " ++ dec i)) (Drag duration amp 0 port clock 0) None None 0;
    do x <- add (fst x) (Some ("Measurement " ++ dec i)) (MeasureGate [qubit] None None) None None 0;
    Ok (fst x)).

(** timedomain_schedules.py l.113-158 [t1_sched] *)
Definition t1_sched (times : setpoints) (qubit : string) (repetitions : Z) : result lsched :=
  for_enum (as_array times) (new repetitions) (fun s i tau =>
    do x <- add s (Some ("Reset " ++ dec i)) (ResetGate [qubit]) None None 0;
    do x <- add (fst x) (Some ("pi " ++ dec i)) (XGate qubit) None None 0;
    do x <- add (fst x) (Some ("Measurement " ++ dec i)) (MeasureGate [qubit] None None) None (Some PtStart) tau;
    Ok (fst x)).

(** timedomain_schedules.py l.161-219 [ramsey_sched]; np.rad2deg(2 * np.pi * x) is 360 x *)
Definition ramsey_sched (times : setpoints) (qubit : string) (artificial_detuning : Q) (repetitions : Z) : result lsched :=
  for_enum (as_array times) (new repetitions) (fun s i tau =>
    do x <- add s (Some ("Reset " ++ dec i)) (ResetGate [qubit]) None None 0;
    do x <- add (fst x) None (X90Gate qubit) None None 0;
    let recovery_phase := 360 * artificial_detuning * tau in
    do x <- add (fst x) None (RxyGate 90 recovery_phase qubit) None (Some PtStart) tau;
    do x <- add (fst x) (Some ("Measurement " ++ dec i)) (MeasureGate [qubit] None None) None None 0;
    Ok (fst x)).

(** timedomain_schedules.py l.222-266 [echo_sched] *)
Definition echo_sched (times : setpoints) (qubit : string) (repetitions : Z) : result lsched :=
  for_enum (as_array times) (new repetitions) (fun s i tau =>
    do x <- add s (Some ("Reset " ++ dec i)) (ResetGate [qubit]) None None 0;
    do x <- add (fst x) None (X90Gate qubit) None None 0;
    do x <- add (fst x) None (XGate qubit) None (Some PtStart) (tau / 2);
    do x <- add (fst x) None (X90Gate qubit) None (Some PtStart) (tau / 2);
    do x <- add (fst x) (Some ("Measurement " ++ dec i)) (MeasureGate [qubit] None None) None None 0;
    Ok (fst x)).

(** timedomain_schedules.py l.325: [np.log2(n_gates) % 1 != 0] is False exactly for the powers of two (log2 of 0 and of a negative number give -inf and nan, and nan != 0) *)
Definition power_of_two (n : Z) : bool := ((0 <? n) && (2 ^ Z.log2 n =? n))%Z.
(** timedomain_schedules.py l.269-372 [cpmg_sched]. [v]: the uuids of the inner schedule of each setpoint. *)
Definition cpmg_sched (v : nat -> nat -> string) (n_gates : Z) (times : setpoints) (qubit : string) (variant : string) (artificial_detuning : Q) (repetitions : Z) : result lsched :=
  if negb (known variant ["X"; "Y"; "XY"]) then Err ValueError
  else if negb (power_of_two n_gates) then Err ValueError
  else for_enum (as_array times) (new repetitions) (fun s i tau =>
    let idle_time := tau / (2 * inject_Z n_gates) in
    do x <- add s (Some ("Reset " ++ dec i)) (ResetGate [qubit]) None None 0;
    do x <- add (fst x) None (X90Gate qubit) None None 0;
    let s := fst x in
    let inner := new 1 in
    do br <-
      (if negb (String.eqb variant "XY") then
         do y <- LibModel.add (v i) inner None (Idle idle_time) None None 0;
         let echo_gate := if String.eqb variant "X" then XGate qubit else YGate qubit in
         do y <- LibModel.add (v i) (fst y) (Some ("pi " ++ dec i)) echo_gate None None 0;
         do y <- LibModel.add (v i) (fst y) None (Idle idle_time) None (Some PtStart) 0;
         Ok (fst y, n_gates)
       else if (n_gates <? 2)%Z then Err ValueError
       else
         do y <- LibModel.add (v i) inner None (Idle idle_time) None None 0;
         do y <- LibModel.add (v i) (fst y) (Some ("pi_x " ++ dec i)) (XGate qubit) None None 0;
         do y <- LibModel.add (v i) (fst y) None (Idle (2 * idle_time)) None (Some PtStart) 0;
         do y <- LibModel.add (v i) (fst y) (Some ("pi_y " ++ dec i)) (YGate qubit) None None 0;
         do y <- LibModel.add (v i) (fst y) None (Idle idle_time) None (Some PtStart) 0;
         Ok (fst y, n_gates / 2)%Z);
    let '(inner, n_reps) := br in
    do x <- add s (Some ("loop " ++ dec i)) (Loop (l_entries inner) n_reps) None (Some PtStart) (4 / 1000000000);
    let recovery_phase := 360 * artificial_detuning * tau in
    do x <- add (fst x) None (RxyGate 90 recovery_phase qubit) None None 0;
    do x <- add (fst x) (Some ("Measurement " ++ dec i)) (MeasureGate [qubit] None None) None None 0;
    Ok (fst x)).

(** timedomain_schedules.py l.413-435 *)
Definition allxy_combinations : list ((Q * Q) * (Q * Q)) :=
  [ ((0, 0), (0, 0)); ((180, 0), (180, 0)); ((180, 90), (180, 90)); ((180, 0), (180, 90)); ((180, 90), (180, 0));
    ((90, 0), (0, 0)); ((90, 90), (0, 0)); ((90, 0), (90, 90)); ((90, 90), (90, 0)); ((90, 0), (180, 90)); ((90, 90), (180, 0));
    ((180, 0), (90, 90)); ((180, 90), (90, 0)); ((90, 0), (180, 0)); ((180, 0), (90, 0)); ((90, 90), (180, 90)); ((180, 90), (90, 90));
    ((180, 0), (0, 0)); ((180, 90), (0, 0)); ((90, 0), (90, 0)); ((90, 90), (90, 90)) ].
(** timedomain_schedules.py l.375-451 [allxy_sched] *)
Definition allxy_sched (qubit : string) (element_select_idx : list Z) (repetitions : Z) : result lsched :=
  for_enum element_select_idx (new repetitions) (fun s i elt_idx =>
    if ((Z.of_nat (List.length allxy_combinations) <? elt_idx) || (elt_idx <? 0))%Z then Err ValueError else
    match nth_error allxy_combinations (Z.to_nat elt_idx) with
    | None => Err IndexError
    | Some ((th0, phi0), (th1, phi1)) =>
        do x <- add s (Some ("Reset " ++ dec i)) (ResetGate [qubit]) None None 0;
        do x <- add (fst x) None (RxyGate th0 phi0 qubit) None None 0;
        do x <- add (fst x) None (RxyGate th1 phi1 qubit) None None 0;
        do x <- add (fst x) (Some ("Measurement " ++ dec i)) (MeasureGate [qubit] None None) None None 0;
        Ok (fst x)
    end).

(** timedomain_schedules.py l.454-515 [readout_calibration_sched] *)
Definition readout_calibration_sched (qubit : string) (prepared_states : list Z) (repetitions : Z) (acq_protocol : string) : result lsched :=
  for_enum prepared_states (new repetitions) (fun s i prep_state =>
    do x <- add s (Some ("Reset " ++ dec i)) (ResetGate [qubit]) None None 0;
    do s <- (if (prep_state =? 0)%Z then Ok (fst x)
             else if (prep_state =? 1)%Z then do x <- add (fst x) None (RxyGate 180 0 qubit) None None 0; Ok (fst x)
             else if (prep_state =? 2)%Z then Err NotImplementedErr
             else Err ValueError);
    do x <- add s (Some ("Measurement " ++ dec i)) (MeasureGate [qubit] (Some acq_protocol) (Some BinAppend)) None None 0;
    Ok (fst x)).

(** timedomain_schedules.py l.518-626 [rabi_pulse_sched] *)
Definition rabi_pulse_sched (mw_G_amp mw_D_amp mw_frequency : Q) (mw_clock mw_port : string) (mw_pulse_duration ro_pulse_amp ro_pulse_duration ro_pulse_delay : Q)
  (ro_pulse_port ro_pulse_clock : string) (ro_pulse_frequency ro_acquisition_delay ro_integration_time init_duration : Q) (repetitions : Z) : result lsched :=
  do s <- add_clock (new repetitions) mw_clock mw_frequency;
  do s <- add_clock s ro_pulse_clock ro_pulse_frequency;
  do x <- add s (Some "qubit reset") (Idle init_duration) None None 0;
  do x <- add (fst x) (Some "Rabi_pulse") (Drag mw_pulse_duration mw_G_amp mw_D_amp mw_port mw_clock 0) None (Some PtEnd) 0;
  do x <- add (fst x) (Some "readout_pulse") (Square ro_pulse_duration ro_pulse_amp ro_pulse_port ro_pulse_clock) None None ro_pulse_delay;
  let '(s, ro_pulse) := x in
  do x <- add s (Some "acquisition") (SSB ro_integration_time ro_pulse_port ro_pulse_clock 0 None BinAverage 0) (Some ro_pulse) (Some PtStart) ro_acquisition_delay;
  Ok (fst x).

(** spectroscopy_schedules.py l.26-99 [heterodyne_spec_sched] *)
Definition heterodyne_spec_sched (pulse_amp pulse_duration frequency acquisition_delay integration_time : Q) (port clock : string) (init_duration : Q) (repetitions : Z) (port_out : option string) : result lsched :=
  do s <- add_clock (new repetitions) clock frequency;
  do x <- add s (Some "buffer") (Idle init_duration) None None 0;
  let port_out := match port_out with Some p => p | None => port end in
  do x <- add (fst x) (Some "spec_pulse") (Square pulse_duration pulse_amp port_out clock) None None 0;
  let '(s, pulse) := x in
  do x <- add s (Some "acquisition") (SSB integration_time port clock 0 (Some 0%Z) BinAverage 0) (Some pulse) (Some PtStart) acquisition_delay;
  Ok (fst x).

(** spectroscopy_schedules.py l.102-235 [heterodyne_spec_sched_nco]; [frequencies.flat[0]] of an empty array: IndexError *)
Definition heterodyne_spec_sched_nco (pulse_amp pulse_duration : Q) (frequencies : list Q) (acquisition_delay integration_time : Q) (port clock : string) (init_duration : Q) (repetitions : Z) (port_out : option string) : result lsched :=
  match frequencies with
  | [] => Err IndexError
  | f0 :: _ =>
    do s <- add_clock (new repetitions) clock f0;
    let port_out := match port_out with Some p => p | None => port end in
    for_enum frequencies s (fun s acq_idx freq =>
      do x <- add s (Some ("buffer " ++ dec acq_idx)) (Idle init_duration) None None 0;
      do x <- add (fst x) (Some ("set_freq " ++ dec acq_idx ++ " (" ++ clock ++ " " ++ fmt freq ++ " Hz)")) (SetFreq clock freq) None None 0;
      do x <- add (fst x) (Some ("spec_pulse " ++ dec acq_idx ++ ")")) (Square pulse_duration pulse_amp port_out clock) None None 0;
      let '(s, spec_pulse) := x in
      do x <- add s (Some ("acquisition " ++ dec acq_idx ++ ")")) (SSB integration_time port clock 0 (Some (Z.of_nat acq_idx)) BinAverage 0) (Some spec_pulse) (Some PtStart) acquisition_delay;
      Ok (fst x))
  end.

(** spectroscopy_schedules.py l.238-338 [two_tone_spec_sched] *)
Definition two_tone_spec_sched (spec_pulse_amp spec_pulse_duration : Q) (spec_pulse_port spec_pulse_clock : string) (spec_pulse_frequency ro_pulse_amp ro_pulse_duration ro_pulse_delay : Q)
  (ro_pulse_port ro_pulse_clock : string) (ro_pulse_frequency ro_acquisition_delay ro_integration_time init_duration : Q) (repetitions : Z) : result lsched :=
  do s <- add_clock (new repetitions) spec_pulse_clock spec_pulse_frequency;
  do s <- add_clock s ro_pulse_clock ro_pulse_frequency;
  do x <- add s (Some "buffer") (Idle init_duration) None None 0;
  do x <- add (fst x) (Some "spec_pulse") (Square spec_pulse_duration spec_pulse_amp spec_pulse_port spec_pulse_clock) None None 0;
  do x <- add (fst x) (Some "readout_pulse") (Square ro_pulse_duration ro_pulse_amp ro_pulse_port ro_pulse_clock) None None ro_pulse_delay;
  let '(s, ro_pulse) := x in
  do x <- add s (Some "acquisition") (SSB ro_integration_time ro_pulse_port ro_pulse_clock 0 (Some 0%Z) BinAverage 0) (Some ro_pulse) (Some PtStart) ro_acquisition_delay;
  Ok (fst x).

(** spectroscopy_schedules.py l.341-517 [two_tone_spec_sched_nco] *)
Definition two_tone_spec_sched_nco (spec_pulse_amp spec_pulse_duration : Q) (spec_pulse_port spec_pulse_clock : string) (spec_pulse_frequencies : list Q) (ro_pulse_amp ro_pulse_duration ro_pulse_delay : Q)
  (ro_pulse_port ro_pulse_clock : string) (ro_pulse_frequency ro_acquisition_delay ro_integration_time init_duration : Q) (repetitions : Z) : result lsched :=
  match spec_pulse_frequencies with
  | [] => Err IndexError
  | f0 :: _ =>
    do s <- add_clock (new repetitions) spec_pulse_clock f0;
    do s <- add_clock s ro_pulse_clock ro_pulse_frequency;
    for_enum spec_pulse_frequencies s (fun s acq_idx spec_pulse_freq =>
      do x <- add s (Some ("buffer " ++ dec acq_idx)) (Idle init_duration) None None 0;
      do x <- add (fst x) (Some ("set_freq " ++ dec acq_idx ++ " (" ++ spec_pulse_clock ++ " " ++ fmt spec_pulse_freq ++ " Hz)")) (SetFreq spec_pulse_clock spec_pulse_freq) None None 0;
      do x <- add (fst x) (Some ("spec_pulse " ++ dec acq_idx)) (Square spec_pulse_duration spec_pulse_amp spec_pulse_port spec_pulse_clock) None None 0;
      let '(s, spec_pulse) := x in
      do x <- add s (Some ("readout_pulse " ++ dec acq_idx)) (Square ro_pulse_duration ro_pulse_amp ro_pulse_port ro_pulse_clock) (Some spec_pulse) (Some PtEnd) ro_pulse_delay;
      let '(s, ro_pulse) := x in
      do x <- add s (Some ("acquisition " ++ dec acq_idx)) (SSB ro_integration_time ro_pulse_port ro_pulse_clock 0 (Some (Z.of_nat acq_idx)) BinAverage 0) (Some ro_pulse) (Some PtStart) ro_acquisition_delay;
      Ok (fst x))
  end.

(** spectroscopy_schedules.py l.520-554 [nv_dark_esr_sched] *)
Definition nv_dark_esr_sched (qubit : string) (repetitions : Z) : result lsched :=
  do x <- add (new repetitions) (Some "Charge reset") (ChargeReset qubit) None None 0;
  do x <- add (fst x) (Some "CRCount pre") (CRCount qubit) None None 0;
  do x <- add (fst x) (Some "Reset") (ResetGate [qubit]) None None 0;
  do x <- add (fst x) (Some "Spectroscopy") (Spectroscopy qubit) None None 0;
  do x <- add (fst x) (Some "Measure") (MeasureGate [qubit] None None) None None 0;
  do x <- add (fst x) (Some "CRCount post") (CRCount qubit) None None 0;
  Ok (fst x).

(** spectroscopy_schedules.py l.557-603 [nv_dark_esr_sched_nco] *)
Definition nv_dark_esr_sched_nco (qubit spec_clock : string) (spec_frequencies : list Q) (repetitions : Z) : result lsched :=
  do x <- add (new repetitions) (Some "Charge reset pre 0") (ChargeReset qubit) None None 0;
  do x <- add (fst x) (Some "CRCount pre 0") (CRCount qubit) None None 0;
  for_enum spec_frequencies (fst x) (fun s idx spec_freq =>
    do x <- add s (Some ("set_freq (" ++ spec_clock ++ " " ++ fmt spec_freq ++ " Hz)")) (SetFreq spec_clock spec_freq) None None 0;
    do x <- add (fst x) (Some ("Reset " ++ dec idx)) (ResetGate [qubit]) None None 0;
    do x <- add (fst x) (Some ("Spectroscopy (" ++ fmt spec_freq ++ " Hz)")) (Spectroscopy qubit) None None 0;
    do x <- add (fst x) (Some ("Measure " ++ dec idx)) (MeasureGate [qubit] None None) None None 0;
    do x <- add (fst x) (Some ("CRCount post " ++ dec idx)) (CRCount qubit) None None 0;
    Ok (fst x)).

(** two_qubit_transmon_schedules.py l.14-117 [chevron_cz_sched] *)
Definition chevron_cz_sched (lf_qubit hf_qubit : string) (amplitudes : setpoints) (duration : Q) (flux_port : option string) (repetitions : Z) : result lsched :=
  let flux_port := match flux_port with Some p => p | None => hf_qubit ++ ":fl" end in
  for_enum (as_array amplitudes) (new repetitions) (fun s acq_index amp =>
    do x <- add s (Some ("Reset " ++ dec acq_index)) (ResetGate [lf_qubit; hf_qubit]) None None 0;
    do x <- add (fst x) (Some (("X(" ++ lf_qubit ++ ") ") ++ dec acq_index)) (XGate lf_qubit) None None 0;
    let '(s, excite_lf) := x in
    do x <- add s (Some (("X(" ++ hf_qubit ++ ") ") ++ dec acq_index)) (XGate hf_qubit) (Some excite_lf) (Some PtStart) 0;
    do x <- add (fst x) (Some (("SquarePulse(" ++ flux_port ++ ") ") ++ dec acq_index)) (Square duration amp flux_port "cl0.baseband") None None 0;
    do x <- add (fst x) (Some (("Measure(" ++ lf_qubit ++ "," ++ hf_qubit ++ ") ") ++ dec acq_index)) (MeasureGate [lf_qubit; hf_qubit] None None) None None 0;
    Ok (fst x)).

(** verification.py l.22-110 [acquisition_staircase_sched]; the acquisition channel is a number here *)
Definition acquisition_staircase_sched (readout_pulse_amps : setpoints) (readout_pulse_duration readout_frequency acquisition_delay integration_time : Q) (port clock : string) (init_duration : Q) (acq_channel : Z) (repetitions : Z) : result lsched :=
  do s <- add_clock (new repetitions) clock readout_frequency;
  for_enum (as_array readout_pulse_amps) s (fun s acq_index readout_pulse_amp =>
    do x <- add s None (Idle init_duration) None None 0;
    do x <- add (fst x) (Some ("SquarePulse_" ++ dec acq_index)) (Square readout_pulse_duration readout_pulse_amp port clock) None None 0;
    let '(s, pulse) := x in
    do x <- add s (Some ("Acquisition_" ++ dec acq_index)) (SSB integration_time port clock acq_channel None BinAverage 0) (Some pulse) (Some PtStart) acquisition_delay;
    Ok (fst x)).

(** verification.py l.113-211 [awg_staircase_sched] *)
Definition awg_staircase_sched (pulse_amps : setpoints) (pulse_duration readout_frequency acquisition_delay integration_time : Q) (mw_port ro_port mw_clock ro_clock : string) (init_duration : Q) (acq_channel : Z) (repetitions : Z) : result lsched :=
  do s <- add_clock (new repetitions) mw_clock readout_frequency;
  do s <- add_clock s ro_clock readout_frequency;
  for_enum (as_array pulse_amps) s (fun s acq_index pulse_amp =>
    do x <- add s None (Idle init_duration) None None 0;
    do x <- add (fst x) (Some ("SquarePulse_" ++ dec acq_index)) (Square pulse_duration pulse_amp mw_port mw_clock) None None 0;
    let '(s, pulse) := x in
    do x <- add s (Some ("Acquisition_" ++ dec acq_index)) (SSB integration_time ro_port ro_clock acq_channel None BinAverage 0) (Some pulse) (Some PtStart) acquisition_delay;
    Ok (fst x)).

(** verification.py l.268-298 [add_staircase_step] *)
Definition add_staircase_step (pulse_duration integration_time : Q) (ro_port : string) (s : lsched) (ref_op : string) (amp : Q) (clock : string) (acq_channel : Z) (delay : Q) : result (lsched * string) :=
  do x <- add s None (Square pulse_duration amp ro_port clock) (Some ref_op) (Some PtEnd) 0;
  let '(s, pulse) := x in
  do x <- add s None (SSB integration_time ro_port clock acq_channel None BinAverage 0) (Some pulse) (Some PtStart) delay;
  Ok (fst x, pulse).
(** verification.py l.214-329 [multiplexing_staircase_sched] *)
Definition multiplexing_staircase_sched (pulse_amps : setpoints) (pulse_duration acquisition_delay integration_time : Q) (ro_port ro_clock0 ro_clock1 : string) (readout_frequency0 readout_frequency1 init_duration : Q) (repetitions : Z) : result lsched :=
  do s <- add_clock (new repetitions) ro_clock0 readout_frequency0;
  do s <- add_clock s ro_clock1 readout_frequency1;
  let amps := as_array pulse_amps in
  do x <- add s None (Idle init_duration) None None 0;
  do x <- for_enum (combine amps (rev amps)) x (fun x _ a =>
    let '(s, ref_pulse) := x in
    do y <- add_staircase_step pulse_duration integration_time ro_port s ref_pulse (fst a) ro_clock0 0 acquisition_delay;
    add_staircase_step pulse_duration integration_time ro_port (fst y) ref_pulse (snd a) ro_clock1 1 acquisition_delay);
  set_reps (fst x) repetitions.

(** trace_schedules.py l.32-107 [trace_schedule] *)
Definition trace_schedule (pulse_amp pulse_duration pulse_delay frequency acquisition_delay integration_time : Q) (port clock : string) (init_duration : Q) (repetitions : Z) : result lsched :=
  do s <- add_clock (new repetitions) clock frequency;
  do x <- add s (Some "Dead time") (Idle init_duration) None None 0;
  do x <- add (fst x) (Some "trace_pulse") (Square pulse_duration pulse_amp port clock) None None pulse_delay;
  let '(s, pulse) := x in
  do x <- add s (Some "acquisition") (TraceAcq integration_time port clock 0) (Some pulse) (Some PtStart) acquisition_delay;
  Ok (fst x).

(** trace_schedules.py l.135-232 [two_tone_trace_schedule] *)
Definition two_tone_trace_schedule (qubit_pulse_amp qubit_pulse_duration qubit_pulse_frequency : Q) (qubit_pulse_port qubit_pulse_clock : string) (ro_pulse_amp ro_pulse_duration ro_pulse_delay : Q)
  (ro_pulse_port ro_pulse_clock : string) (ro_pulse_frequency ro_acquisition_delay ro_integration_time init_duration : Q) (repetitions : Z) : result lsched :=
  do s <- add_clock (new repetitions) qubit_pulse_clock qubit_pulse_frequency;
  do s <- add_clock s ro_pulse_clock ro_pulse_frequency;
  do x <- add s (Some "Reset") (Idle init_duration) None None 0;
  do x <- add (fst x) (Some "qubit_pulse") (Square qubit_pulse_duration qubit_pulse_amp qubit_pulse_port qubit_pulse_clock) None None 0;
  do x <- add (fst x) (Some "readout_pulse") (Square ro_pulse_duration ro_pulse_amp ro_pulse_port ro_pulse_clock) None None ro_pulse_delay;
  let '(s, ro_pulse) := x in
  do x <- add s (Some "acquisition") (TraceAcq ro_integration_time ro_pulse_port ro_pulse_clock 0) (Some ro_pulse) (Some PtStart) ro_acquisition_delay;
  Ok (fst x).

(** trace_schedules.py l.249-353 [long_time_trace]; [w]: the uuids of the inner schedule *)
Definition long_time_trace (w : nat -> string) (pulse_amp_re pulse_amp_im frequency acquisition_delay integration_time : Q) (port clock : string) (num_points : Z) (pulse_delay : Q) (acq_index : Z) (repetitions : Z) : result lsched :=
  do s <- add_clock (new repetitions) clock frequency;
  do x <- add s None (Offset pulse_amp_re pulse_amp_im port clock) None None 0;
  do y <- LibModel.add w (new 1) None (SSB integration_time port clock 0 (Some acq_index) BinAppend pulse_delay) None None 0;
  do x <- add (fst x) None (Loop (l_entries (fst y)) num_points) None (Some PtStart) acquisition_delay;
  do x <- add (fst x) None (Offset 0 0 port clock) None None (4 / 1000000000);
  do x <- add (fst x) None (Idle (4 / 1000000000)) None None 0;
  Ok (fst x).
End Lib.

(** What the timing pass (compilation.py, TimingModel.v) receives after the device compilation: [gdur] gives the duration every
    gate has on the device and [gdelay] its next_operation_delay; pulses and acquisitions last as long as their arguments say
    (operations/operation.py l.150-163). *)
Fixpoint to_op (gdur : lop -> Q) (gdelay : lop -> option Q) (o : lop) : op :=
  match o with
  | Loop body n => OLoop n (OSched None None 1 (map (fun e : string * tconstr * lop => let '(nm, tc, o') := e in Item nm [tc] None (to_op gdur gdelay o')) body))
  | Idle d | Square d _ _ _ | Drag d _ _ _ _ _ | TraceAcq d _ _ _ => OLeaf true d None
  | SSB d _ _ _ _ _ t0 => OLeaf true (d + t0) None
  | SetFreq _ _ | Offset _ _ _ _ => OLeaf true 0 None
  | _ => OLeaf true (gdur o) (gdelay o)
  end.
Definition to_item gdur gdelay (e : entry) : item := Item (e_name e) [e_tc e] None (to_op gdur gdelay (e_op e)).
(** the schedule as the timing pass sees it *)
Definition to_tree gdur gdelay (s : lsched) : op := OSched None None (l_reps s) (map (to_item gdur gdelay) (l_entries s)).
