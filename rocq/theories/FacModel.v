(** Model of the factory functions that turn gates and measurements into pulses: operations/pulse_factories.py, operations/measurement_factories.py,
    operations/composite_factories.py, the constructors they call (operations/pulse_library.py, operations/acquisition_library.py), and the call of a factory
    with the keywords of the device configuration (backends/circuit_to_device.py l.735-764).

    Values are those of DevModel ([CR] is a reference magnitude, [CR None] is None, [CL] a list).  Arithmetic on floats is exact; numbers are real (np.real of a number is the
    number, np.imag is 0).  Arrays in place of numbers, warnings, and the type of number (int or float) of a result are not modelled.  An enum with string values is its string. *)
From Verif Require Import Base DevModel DevConf TimingModel.
Local Open Scope string_scope.

Notation dict := (list (string * cval)).
Definition str (s : string) : cval := CV (VStr s).
Definition none : cval := CV VNone.
Definition zero : cval := CV (VInt 0).
Definition numq (q : Q) : cval := CV (VNum q).
(** [v is None] *)
Definition is_none (v : cval) : bool := match v with CV VNone | CR None => true | _ => false end.
Definition is_str (v : cval) (s : string) : bool := match v with CV (VStr x) => x =? s | _ => false end.
(** bool(v) *)
Definition truth (v : cval) : result bool := match v with CV v => truthy v | CR r => Ok (match r with Some _ => true | None => false end) | CL l => Ok (match l with [] => false | _ => true end) end.
(** a value in arithmetic: [None] is nan *)
Definition fl (v : cval) : result (option Q) :=
  match v with CV VNan => Ok None | CV v => match number v with Some q => Ok (Some q) | None => Err TypeError end | _ => Err TypeError end.
Definition of_fl (x : option Q) : cval := match x with Some q => numq q | None => CV VNan end.
Definition arith (f : Q -> Q -> Q) (a b : cval) : result cval :=
  do x <- fl a; do y <- fl b; Ok (of_fl (match x, y with Some p, Some q => Some (f p q) | _, _ => None end)).
(** [a / b]: ZeroDivisionError *)
Definition divide (a b : cval) : result cval :=
  do x <- fl a; do y <- fl b;
  match y with Some q => if Qeq_bool q 0 then Err OtherErr else arith Qdiv a b | None => arith Qdiv a b end.
Definition minus (a : cval) : result cval := do x <- fl a; Ok (of_fl (option_map Qopp x)).
(** max(0, v): 0 if v is nan *)
Definition max0 (v : cval) : result cval := do x <- fl v; Ok (match x with Some q => if Qlt_bool 0 q then v else zero | None => zero end).
(** abs(min(v, 0)): for nan, min(nan, 0) is nan *)
Definition absmin0 (v : cval) : result cval := do x <- fl v; Ok (match x with Some q => if Qlt_bool 0 q then zero else numq (- q) | None => CV VNan end).
(** len(v) *)
Definition len (v : cval) : result nat := match v with CV (VArr l) | CV (VList l) | CV (VTuple l) => Ok (List.length l) | CL l => Ok (List.length l) | CV (VStr s) => Ok (String.length s) | _ => Err TypeError end.
Definition at_ (d : dict) (k : string) : cval := match lookup k d with Some v => v | None => none end.

(** Operations made: an Operation with its pulse_info and acquisition_info; a gate still to be compiled (class and device elements); a loop;
    a Schedule with data.get("next_operation_delay") and what was added: operation, ref_pt, rel_time (ref_op and ref_pt_new are never given, repetitions is 1). *)
Inductive dop :=
  | DOp (name : string) (pulses acqs : list dict)
  | DGate (class : string) (elems : list string)
  | DLoop (n : Z) (body : dop)
  | DSched (delay : option cval) (items : list (dop * option refpt * cval)).

(** operations/operation.py l.131-142 [_update], as far as it can raise: t0 + duration of every entry *)
Definition made (name : string) (ps acqs : list dict) : result dop :=
  do _ <- mapM (fun i => arith Qplus (at_ i "t0") (at_ i "duration")) (ps ++ acqs)%list; Ok (DOp name ps acqs).

(** ** Pulses *)
(** pulse_library.py l.73-90 *)
Definition shift_clock_phase (phase clock t0 : cval) : result dop :=
  made "ShiftClockPhase" [[("wf_func", none); ("t0", t0); ("phase_shift", phase); ("clock", clock); ("port", none); ("duration", zero)]] [].
(** l.108-120 *)
Definition reset_clock_phase (clock : cval) : result dop :=
  made "ResetClockPhase" [[("wf_func", none); ("clock", clock); ("t0", zero); ("duration", zero); ("port", none); ("reset_clock_phase", CV (VBool true))]] [].
(** l.152-171 *)
Definition set_clock_frequency (clock freq : cval) : result dop :=
  made "SetClockFrequency" [[("wf_func", none); ("t0", zero); ("clock", clock); ("clock_freq_new", freq); ("clock_freq_old", none); ("interm_freq_old", none); ("port", none); ("duration", zero)]] [].
(** l.207-229 *)
Definition voltage_offset (i q port clock : cval) : result dop :=
  made "VoltageOffset" [[("wf_func", none); ("t0", zero); ("offset_path_I", i); ("offset_path_Q", q); ("clock", clock); ("port", port); ("duration", zero); ("reference_magnitude", none)]] [].
(** l.247-258 *)
Definition idle_pulse (duration : cval) : result dop :=
  made "IdlePulse" [[("wf_func", none); ("t0", zero); ("duration", duration); ("clock", str "cl0.baseband"); ("port", none)]] [].
(** l.299-322 *)
Definition ramp_pulse (amp duration port clock : cval) : result dop :=
  made "RampPulse" [[("wf_func", str "quantify_scheduler.waveforms.ramp"); ("amp", amp); ("reference_magnitude", none); ("duration", duration); ("offset", zero); ("t0", zero); ("clock", clock); ("port", port)]] [].
(** l.483-504 *)
Definition square_pulse (amp duration port clock ref t0 : cval) : result dop :=
  made "SquarePulse" [[("wf_func", str "quantify_scheduler.waveforms.square"); ("amp", amp); ("reference_magnitude", ref); ("duration", duration); ("t0", t0); ("clock", clock); ("port", port)]] [].
(** l.787-815 with sigma None *)
Definition drag_entry (g d phase duration port clock ref : cval) : dict :=
  [("wf_func", str "quantify_scheduler.waveforms.drag"); ("G_amp", g); ("D_amp", d); ("reference_magnitude", ref); ("duration", duration); ("phase", phase); ("nr_sigma", CV (VInt 4)); ("sigma", none);
   ("clock", clock); ("port", port); ("t0", zero)].
Definition drag_pulse (g d phase duration port clock ref : cval) : result dop := made "DRAGPulse" [drag_entry g d phase duration port clock ref] [].
(** l.856-883 with sigma None *)
Definition gauss_pulse (g phase duration port clock ref : cval) : result dop := made "GaussPulse" [drag_entry g zero phase duration port clock ref] [].
(** l.1143-1168 *)
Definition skewed_hermite_pulse (duration amplitude skewness phase port clock ref : cval) : result dop :=
  made "SkewedHermitePulse" [[("wf_func", str "quantify_scheduler.waveforms.skewed_hermite"); ("duration", duration); ("amplitude", amplitude); ("reference_magnitude", ref); ("skewness", skewness);
                              ("phase", phase); ("clock", clock); ("port", port); ("t0", zero)]] [].

(** ** Acquisitions: acquisition_library.py *)
(** enums.py l.17-44: BinMode(s) for a string *)
Definition to_bin_mode (v : cval) : result cval :=
  match v with CV (VStr s) => if mem s ["append"; "average"; "first"; "distribution"; "sum"] then Ok v else Err ValueError | _ => Ok v end.
(** float(v) if it is not a float *)
Definition to_float (v : cval) : result cval := match v with CV (VStr _) => Err ValueError | _ => do _ <- fl v; Ok v end.
Definition where_ (port clock channel coords index bin t0 duration : cval) : dict :=
  [("port", port); ("clock", clock); ("acq_channel", channel); ("coords", coords); ("acq_index", index); ("bin_mode", bin); ("t0", t0); ("duration", duration)].
(** l.311-327, l.468-484: the two square windows *)
Definition windows (port clock t0 duration : cval) : cval :=
  CL (map (fun amp => CL [port; clock; t0; duration; str "quantify_scheduler.waveforms.square"; str amp]) ["1"; "1j"]).
(** l.106-139 *)
Definition trace (port clock duration channel coords index bin t0 : cval) : result dop :=
  do duration <- to_float duration; do bin <- to_bin_mode bin;
  made "Trace" [] [(where_ port clock channel coords index bin t0 duration ++ [("waveforms", CL []); ("protocol", str "Trace"); ("acq_return_type", str "ndarray")])%list].
(** l.302-357 *)
Definition ssb (port clock duration channel coords index bin t0 : cval) : result dop :=
  made "SSBIntegrationComplex" [] [(where_ port clock channel coords index bin t0 duration ++
    [("waveforms", windows port clock t0 duration); ("phase", zero); ("protocol", str "SSBIntegrationComplex"); ("acq_return_type", str "complex")])%list].
(** l.500, l.875: float if bin_mode == BinMode.AVERAGE else np.int32 *)
Definition threshold_return (bin : cval) : cval := str (if is_str bin "average" then "float" else "int32").
(** l.449-506 *)
Definition thresholded (port clock duration channel coords index bin t0 label rotation threshold : cval) : result dop :=
  made "ThresholdedAcquisition" [] [(where_ port clock channel coords index bin t0 duration ++
    [("waveforms", windows port clock t0 duration); ("phase", zero); ("protocol", str "ThresholdedAcquisition"); ("acq_return_type", threshold_return bin);
     ("feedback_trigger_label", label); ("acq_threshold", threshold); ("acq_rotation", rotation)])%list].
(** l.579-628: np.arange(len(weights_a)) / rate are the times of the samples of both weights *)
Definition weighted_entry (protocol return_type : string) (port clock wa wb rate channel coords index bin t0 : cval) (more : dict) : result dict :=
  do n <- len wa; do _ <- len wb; do duration <- divide (CV (VInt (Z.of_nat n))) rate;
  do times <- mapM (fun i => arith Qdiv (CV (VInt (Z.of_nat i))) rate) (seq 0 n);
  let wf w := CL [str "quantify_scheduler.waveforms.interpolated_complex_waveform"; w; CL times; str "linear"] in
  Ok (where_ port clock channel coords index bin t0 duration ++
      [("waveforms", CL [wf wa; wf wb]); ("phase", zero); ("protocol", str protocol); ("acq_return_type", str return_type)] ++ more)%list.
(** l.579-628, l.717-747 *)
Definition weighted (protocol : string) (port clock wa wb rate channel coords index bin t0 : cval) : result dop :=
  do e <- weighted_entry protocol "complex" port clock wa wb rate channel coords index bin t0 []; made protocol [] [e].
(** l.827-877 *)
Definition weighted_thresholded (port clock wa wb rate channel coords index bin t0 label threshold : cval) : result dop :=
  do e <- weighted_entry "WeightedThresholdedAcquisition" (if is_str bin "average" then "float" else "int32") port clock wa wb rate channel coords index bin t0
            [("feedback_trigger_label", label); ("acq_threshold", threshold); ("acq_rotation", CV (VInt (360 - 45)))];
  made "WeightedThresholdedAcquisition" [] [e].
(** l.945-999 *)
Definition trigger_count (port clock duration channel coords index bin t0 : cval) : result dop :=
  let bin := if is_str bin "average" then str "distribution" else bin in
  made "TriggerCount" [] [(where_ port clock channel coords index bin t0 duration ++
    [("waveforms", CL []); ("protocol", str "TriggerCount"); ("acq_return_type", str "int"); ("fine_start_delay", zero); ("fine_end_delay", zero)])%list].
(** l.1082-1132, l.1225-1273: the fields about time references; time_ref_port is None *)
Definition time_fields (source ref : cval) : dict :=
  [("time_source", source); ("time_ref", ref); ("time_ref_port", none); ("time_ref_channel", none); ("fine_start_delay", zero); ("fine_end_delay", zero)].
(** l.1082-1132 *)
Definition timetag_trace (port clock duration channel coords index bin t0 ref : cval) : result dop :=
  do duration <- to_float duration; do bin <- to_bin_mode bin;
  if is_str ref "port" then Err ValueError else
  made "TimetagTrace" [] [(where_ port clock channel coords index bin t0 duration ++
    [("waveforms", CL []); ("protocol", str "TimetagTrace"); ("acq_return_type", str "ndarray")] ++ time_fields (str "first") ref)%list].
(** enums.py l.50-75 *)
Definition to_enum (l : list string) (v : cval) : result cval := match v with CV (VStr s) => if mem s l then Ok v else Err ValueError | _ => Ok v end.
(** l.1225-1273 *)
Definition timetag (port clock duration channel coords index bin t0 source ref : cval) : result dop :=
  do source <- to_enum ["first"; "second"; "last"] source; do ref <- to_enum ["start"; "end"; "first"; "timestamp"; "port"] ref;
  if is_str ref "port" then Err ValueError else
  made "Timetag" [] [(where_ port clock channel coords index bin t0 duration ++
    [("waveforms", CL []); ("protocol", str "Timetag"); ("acq_return_type", str "float")] ++ time_fields source ref)%list].

(** ** Calls with keywords *)
(** the parameters of a function, with defaults *)
Definition signature := list (string * option cval).
Definition bind_args (sg : signature) (kw : dict) : result dict :=
  if existsb (fun kv => negb (mem (fst kv) (map fst sg))) kw then Err TypeError
  else mapM (fun p => match lookup (fst p) kw with Some v => Ok (fst p, v) | None => match snd p with Some d => Ok (fst p, d) | None => Err TypeError end end) sg.
Definition req (l : list string) : signature := map (fun k => (k, None)) l.
Definition opt (l : list (string * cval)) : signature := map (fun kd => (fst kd, Some (snd kd))) l.
Definition optn (l : list string) : signature := opt (map (fun k => (k, none)) l).

(** * pulse_factories.py *)
(** l.64, l.114, l.279: amp180 * theta / 180 *)
Definition interpolated (amp180 theta : cval) : result cval := do p <- arith Qmult amp180 theta; divide p (CV (VInt 180)).
(** l.18-75 *)
Definition rxy_drag_sig := (req ["amp180"; "motzoi"; "theta"; "phi"; "port"; "duration"; "clock"] ++ optn ["reference_magnitude"])%list.
Definition rxy_drag_pulse (a : dict) : result dop :=
  do g <- interpolated (at_ a "amp180") (at_ a "theta");
  drag_pulse g (at_ a "motzoi") (at_ a "phi") (at_ a "duration") (at_ a "port") (at_ a "clock") (at_ a "reference_magnitude").
(** l.78-127 *)
Definition rxy_gauss_sig := (req ["amp180"; "theta"; "phi"; "port"; "duration"; "clock"] ++ optn ["reference_magnitude"])%list.
Definition rxy_gauss_pulse (a : dict) : result dop :=
  do g <- interpolated (at_ a "amp180") (at_ a "theta");
  gauss_pulse g (at_ a "phi") (at_ a "duration") (at_ a "port") (at_ a "clock") (at_ a "reference_magnitude").
(** l.130-154 *)
Definition phase_shift_sig := req ["theta"; "clock"].
Definition phase_shift (a : dict) : result dop := shift_clock_phase (at_ a "theta") (at_ a "clock") zero.
(** operation.py l.230-240 [add_pulse], l.242-252 [add_acquisition] *)
Definition add_pulse (o p : dop) : result dop :=
  match o, p with DOp n ps qs, DOp _ ps' _ => made n (ps ++ ps')%list qs | _, _ => Err OtherErr end.
Definition add_acquisition (o p : dop) : result dop :=
  match o, p with DOp n ps qs, DOp _ _ qs' => made n ps (qs ++ qs')%list | _, _ => Err OtherErr end.
(** l.157-232 *)
Definition composite_square_sig :=
  (req ["square_amp"; "square_duration"; "square_port"; "square_clock"; "virt_z_parent_qubit_phase"; "virt_z_parent_qubit_clock"; "virt_z_child_qubit_phase"; "virt_z_child_qubit_clock"]
   ++ optn ["reference_magnitude"] ++ opt [("t0", zero)])%list.
Definition composite_square_pulse (a : dict) : result dop :=
  do o <- square_pulse (at_ a "square_amp") (at_ a "square_duration") (at_ a "square_port") (at_ a "square_clock") (at_ a "reference_magnitude") (at_ a "t0");
  do p <- shift_clock_phase (at_ a "virt_z_parent_qubit_phase") (at_ a "virt_z_parent_qubit_clock") (at_ a "t0"); do o <- add_pulse o p;
  do p <- shift_clock_phase (at_ a "virt_z_child_qubit_phase") (at_ a "virt_z_child_qubit_clock") (at_ a "t0"); add_pulse o p.
(** l.235-304 *)
Definition rxy_sig := (req ["amp180"; "skewness"; "theta"; "phi"; "port"; "duration"; "clock"; "pulse_shape"] ++ optn ["reference_magnitude"])%list.
Definition rxy_pulse (a : dict) : result dop :=
  do g <- interpolated (at_ a "amp180") (at_ a "theta");
  if is_str (at_ a "pulse_shape") "SkewedHermitePulse" then
    skewed_hermite_pulse (at_ a "duration") g (at_ a "skewness") (at_ a "phi") (at_ a "port") (at_ a "clock") (at_ a "reference_magnitude")
  else if is_str (at_ a "pulse_shape") "GaussPulse" then
    gauss_pulse g (at_ a "phi") (at_ a "duration") (at_ a "port") (at_ a "clock") (at_ a "reference_magnitude")
  else Err ValueError.
(** l.307-375 *)
Definition nv_spec_sig := (req ["duration"; "amplitude"; "clock"; "port"; "pulse_shape"] ++ optn ["reference_magnitude"])%list.
Definition nv_spec_pulse_mw (a : dict) : result dop :=
  if is_str (at_ a "pulse_shape") "SquarePulse" then
    square_pulse (at_ a "amplitude") (at_ a "duration") (at_ a "port") (at_ a "clock") (at_ a "reference_magnitude") zero
  else if is_str (at_ a "pulse_shape") "SkewedHermitePulse" then
    skewed_hermite_pulse (at_ a "duration") (at_ a "amplitude") zero zero (at_ a "port") (at_ a "clock") (at_ a "reference_magnitude")
  else if is_str (at_ a "pulse_shape") "GaussPulse" then
    gauss_pulse (at_ a "amplitude") zero (at_ a "duration") (at_ a "port") (at_ a "clock") (at_ a "reference_magnitude")
  else Err ValueError.
(** l.378-438 *)
Definition spin_init_sig := req ["square_duration"; "ramp_diff"; "parent_port"; "parent_clock"; "parent_square_amp"; "parent_ramp_amp"; "parent_ramp_rate";
                                 "child_port"; "child_clock"; "child_square_amp"; "child_ramp_amp"; "child_ramp_rate"].
Definition spin_init_pulse (a : dict) : result dop :=
  do s1 <- square_pulse (at_ a "parent_square_amp") (at_ a "square_duration") (at_ a "parent_port") (at_ a "parent_clock") none zero;
  do s2 <- square_pulse (at_ a "child_square_amp") (at_ a "square_duration") (at_ a "child_port") (at_ a "child_clock") none zero;
  do rel <- absmin0 (at_ a "ramp_diff");
  do d1 <- divide (at_ a "parent_ramp_amp") (at_ a "parent_ramp_rate"); do r1 <- ramp_pulse (at_ a "parent_ramp_amp") d1 (at_ a "parent_port") (at_ a "parent_clock");
  do d2 <- divide (at_ a "child_ramp_amp") (at_ a "child_ramp_rate"); do r2 <- ramp_pulse (at_ a "child_ramp_amp") d2 (at_ a "child_port") (at_ a "child_clock");
  Ok (DSched None [(s1, None, zero); (s2, Some PtStart, zero); (r1, Some PtEnd, rel); (r2, Some PtStart, at_ a "ramp_diff")]).

(** * composite_factories.py *)
Definition as_name (v : cval) : string := match v with CV (VStr s) => s | _ => "" end.
(** l.9-31 *)
Definition hadamard_as_y90z (a : dict) : result dop :=
  let q := as_name (at_ a "qubit") in Ok (DSched None [(DGate "Z" [q], None, zero); (DGate "Y90" [q], None, zero)]).
(** l.34-57 *)
Definition cnot_as_h_cz_h (a : dict) : result dop :=
  let c := as_name (at_ a "control_qubit") in let t := as_name (at_ a "target_qubit") in
  Ok (DSched None [(DGate "H" [t], None, zero); (DGate "CZ" [c; t], None, zero); (DGate "H" [t], None, zero)]).

(** * measurement_factories.py *)
Definition is_int (v : cval) : option Z := match v with CV (VInt z) => Some z | CV (VBool b) => Some (if b then 1 else 0)%Z | _ => None end.
Definition weights_protocols := ["NumericalSeparatedWeightedIntegration"; "NumericalWeightedIntegration"; "WeightedThresholdedAcquisition"].
(** l.153-184: reset of the phase, readout pulse, gate pulse (protocol given as an argument other than LongTimeTrace) *)
Definition readout_pulses (a : dict) : result (list (dop * option refpt * cval)) :=
  do r <- truth (at_ a "reset_clock_phase");
  do i1 <- (if r then do p <- reset_clock_phase (at_ a "clock"); Ok [(p, None, zero)] else Ok []);
  do i2 <- (if is_str (at_ a "pulse_type") "SquarePulse"
            then do p <- square_pulse (at_ a "pulse_amp") (at_ a "pulse_duration") (at_ a "port") (at_ a "clock") (at_ a "reference_magnitude") zero; Ok [(p, Some PtStart, zero)]
            else Err NotImplementedErr);
  do i3 <- (if is_none (at_ a "gate_pulse_amp") && is_none (at_ a "gate_port") then Ok []
            else do p <- square_pulse (at_ a "gate_pulse_amp") (at_ a "pulse_duration") (at_ a "gate_port") (str "cl0.baseband") (at_ a "reference_magnitude") zero; Ok [(p, Some PtStart, zero)]);
  Ok (i1 ++ i2 ++ i3)%list.
(** l.308-373 *)
Definition long_time_trace (a : dict) (bin : cval) : result (list (dop * option refpt * cval)) :=
  if negb (is_str bin "append") then Err ValueError else
  match is_int (at_ a "num_points") with
  | None => Err ValueError
  | Some n =>
    do on <- voltage_offset (at_ a "pulse_amp") zero (at_ a "port") (at_ a "clock");
    do gate <- (if is_none (at_ a "gate_pulse_amp") && is_none (at_ a "gate_port") then Ok []
                else do d <- arith Qmult (CV (VInt n)) (at_ a "acq_duration");
                     do p <- square_pulse (at_ a "gate_pulse_amp") d (at_ a "gate_port") (str "cl0.baseband") none zero; Ok [(p, None, zero)]);
    do acq <- ssb (at_ a "port") (at_ a "clock") (at_ a "acq_duration") zero (at_ a "coords") (at_ a "acq_index") bin zero;
    do reset <- reset_clock_phase (at_ a "clock");
    do off <- voltage_offset zero zero (at_ a "port") (at_ a "clock");
    do idle <- idle_pulse (numq (4 # 1000000000));
    Ok ([(on, None, zero)] ++ gate ++ [(DLoop n (DSched None [(reset, None, zero); (acq, Some PtStart, zero)]), Some PtStart, at_ a "acq_delay"); (off, None, zero); (idle, None, zero)])%list
  end.
(** l.192-376: the acquisition *)
Definition acquisition (a : dict) (protocol channel bin : cval) : result (list (dop * option refpt * cval)) :=
  let start (r : result dop) := do p <- r; Ok [(p, Some PtStart, zero)] in
  let port := at_ a "port" in let clock := at_ a "clock" in let coords := at_ a "coords" in let index := at_ a "acq_index" in let delay := at_ a "acq_delay" in let duration := at_ a "acq_duration" in
  if is_str protocol "SSBIntegrationComplex" then start (ssb port clock duration channel coords index bin delay)
  else if existsb (is_str protocol) weights_protocols then
    let wa := at_ a "acq_weights_a" in let wb := at_ a "acq_weights_b" in let rate := at_ a "acq_weights_sampling_rate" in
    if is_none wa || is_none wb || is_none rate then Err TypeError else
    do n <- len wa; do _ <- divide (CV (VInt (Z.of_nat n))) rate; do _ <- fl duration;
    if is_str protocol "NumericalSeparatedWeightedIntegration" then start (weighted "NumericalSeparatedWeightedIntegration" port clock wa wb rate channel coords index bin delay)
    else if is_str protocol "NumericalWeightedIntegration" then start (weighted "NumericalWeightedIntegration" port clock wa wb rate channel coords index bin delay)
    else start (weighted_thresholded port clock wa wb rate channel coords index bin delay (at_ a "feedback_trigger_label") (at_ a "acq_threshold"))
  else if is_str protocol "ThresholdedAcquisition" then
    start (thresholded port clock duration channel coords index bin delay (at_ a "feedback_trigger_label") (at_ a "acq_rotation") (at_ a "acq_threshold"))
  else if is_str protocol "Trace" then start (trace port clock duration channel coords index (str "average") delay)
  else if is_str protocol "LongTimeTrace" then long_time_trace a bin
  else Err ValueError.
(** l.46-386 [_dispersive_measurement] *)
Definition dispersive (a : dict) : result dop :=
  let bin := if is_none (at_ a "bin_mode") then str "average" else at_ a "bin_mode" in
  do d <- truth (at_ a "next_operation_delay");
  let delay := if d then Some (at_ a "next_operation_delay") else None in
  do first <- (if is_str (at_ a "acq_protocol") "LongTimeTrace" then Ok [] else readout_pulses a);
  let protocol := if is_none (at_ a "acq_protocol") then at_ a "acq_protocol_default" else at_ a "acq_protocol" in
  let channel := if is_none (at_ a "acq_channel_override") then at_ a "acq_channel" else at_ a "acq_channel_override" in
  do acq <- acquisition a protocol channel bin;
  let s := DSched delay (first ++ acq)%list in
  if is_none (at_ a "freq") then Ok s
  else do f1 <- set_clock_frequency (at_ a "clock") (at_ a "freq"); do f2 <- set_clock_frequency (at_ a "clock") none;
       Ok (DSched None [(f1, None, zero); (s, None, zero); (f2, None, zero)]).
(** l.389-415, l.510-538: the parameters *)
Definition dispersive_optional : signature :=
  (opt [("pulse_type", str "SquarePulse"); ("bin_mode", str "average"); ("acq_protocol_default", str "SSBIntegrationComplex"); ("reset_clock_phase", CV (VBool true))]
   ++ optn ["reference_magnitude"; "acq_weights_a"; "acq_weights_b"; "acq_weights_sampling_rate"; "feedback_trigger_label"; "acq_rotation"; "acq_threshold"; "num_points"; "freq"]
   ++ opt [("next_operation_delay", zero)])%list.
Definition dispersive_required := ["pulse_amp"; "pulse_duration"; "port"; "clock"; "acq_duration"; "acq_delay"; "acq_channel"; "acq_channel_override"; "coords"; "acq_index"; "acq_protocol"].
Definition transmon_measure_sig : signature := (req dispersive_required ++ dispersive_optional)%list.
Definition spin_measure_sig : signature := (req (dispersive_required ++ ["gate_pulse_amp"; "gate_port"]) ++ dispersive_optional)%list.
(** l.389-507; l.510-633: for a transmon gate_pulse_amp and gate_port are None *)
Definition dispersive_measurement_transmon (a : dict) : result dop := dispersive ([("gate_pulse_amp", none); ("gate_port", none)] ++ a)%list.
Definition dispersive_measurement_spin (a : dict) : result dop := dispersive a.

(** the entries of a list or a tuple *)
Definition entries (v : cval) : result (list cval) := match v with CL l => Ok l | CV (VArr l) | CV (VList l) | CV (VTuple l) => Ok (map CV l) | _ => Err TypeError end.
(** zip of four lists of the same length *)
Fixpoint zip4 {A} (a b c d : list A) : list (A * A * A * A) :=
  match a, b, c, d with x :: a, y :: b, z :: c, w :: d => (x, y, z, w) :: zip4 a b c d | _, _, _, _ => [] end.
(** l.636-655 *)
Definition optical_sig : signature :=
  (req ["pulse_amplitudes"; "pulse_durations"; "pulse_ports"; "pulse_clocks"; "acq_duration"; "acq_delay"; "acq_port"; "acq_clock"; "acq_channel"; "acq_channel_override"; "coords"; "acq_index";
        "bin_mode"; "acq_protocol"; "acq_protocol_default"; "pulse_type"] ++ optn ["acq_time_source"; "acq_time_ref"])%list.
(** l.727-846 *)
Definition optical_measurement (a : dict) : result dop :=
  let bin := if is_none (at_ a "bin_mode") then str "append" else at_ a "bin_mode" in
  do amps <- entries (at_ a "pulse_amplitudes"); do durs <- entries (at_ a "pulse_durations"); do ports <- entries (at_ a "pulse_ports"); do clocks <- entries (at_ a "pulse_clocks");
  if negb ((List.length amps =? List.length durs)%nat && (List.length durs =? List.length ports)%nat && (List.length ports =? List.length clocks)%nat) then Err ValueError else
  do m <- minus (at_ a "acq_delay"); do t0_pulse <- max0 m; do t0_acq <- max0 (at_ a "acq_delay");
  do o <- made "OpticalMeasurement" [] [];
  do o <- (if is_str (at_ a "pulse_type") "SquarePulse"
           then foldM (fun o p => let '(amp, dur, port, clock) := p in do s <- square_pulse amp dur port clock none t0_pulse; add_pulse o s) (zip4 amps durs ports clocks) o
           else Err NotImplementedErr);
  let protocol := if is_none (at_ a "acq_protocol") then at_ a "acq_protocol_default" else at_ a "acq_protocol" in
  let channel := if is_none (at_ a "acq_channel_override") then at_ a "acq_channel" else at_ a "acq_channel_override" in
  let port := at_ a "acq_port" in let clock := at_ a "acq_clock" in let duration := at_ a "acq_duration" in let coords := at_ a "coords" in let index := at_ a "acq_index" in
  let ref := if is_none (at_ a "acq_time_ref") then str "start" else at_ a "acq_time_ref" in
  let source := if is_none (at_ a "acq_time_source") then str "first" else at_ a "acq_time_source" in
  do q <- (if is_str protocol "TriggerCount" then trigger_count port clock duration channel coords index bin t0_acq
           else if is_str protocol "Trace" then trace port clock duration channel coords index bin t0_acq
           else if is_str protocol "Timetag" then timetag port clock duration channel coords index bin t0_acq source ref
           else if is_str protocol "TimetagTrace" then timetag_trace port clock duration channel coords index bin t0_acq ref
           else Err NotImplementedErr);
  add_acquisition o q.

(** The factories that the configuration names, with their parameters.  IdlePulse and SquarePulse are classes (pulse_library.py l.247, l.483-492). *)
Definition factories : list (string * (signature * (dict -> result dop))) :=
  [("IdlePulse", (req ["duration"], fun a => idle_pulse (at_ a "duration")));
   ("SquarePulse", ((req ["amp"; "duration"; "port"] ++ opt [("clock", str "cl0.baseband")] ++ optn ["reference_magnitude"] ++ opt [("t0", zero)])%list,
                    fun a => square_pulse (at_ a "amp") (at_ a "duration") (at_ a "port") (at_ a "clock") (at_ a "reference_magnitude") (at_ a "t0")));
   ("rxy_drag_pulse", (rxy_drag_sig, rxy_drag_pulse)); ("rxy_gauss_pulse", (rxy_gauss_sig, rxy_gauss_pulse)); ("phase_shift", (phase_shift_sig, phase_shift));
   ("composite_square_pulse", (composite_square_sig, composite_square_pulse)); ("rxy_pulse", (rxy_sig, rxy_pulse)); ("nv_spec_pulse_mw", (nv_spec_sig, nv_spec_pulse_mw));
   ("spin_init_pulse", (spin_init_sig, spin_init_pulse)); ("hadamard_as_y90z", (req ["qubit"], hadamard_as_y90z)); ("cnot_as_h_cz_h", (req ["control_qubit"; "target_qubit"], cnot_as_h_cz_h));
   ("dispersive_measurement_transmon", (transmon_measure_sig, dispersive_measurement_transmon)); ("dispersive_measurement_spin", (spin_measure_sig, dispersive_measurement_spin));
   ("optical_measurement", (optical_sig, optical_measurement))].
Definition call_factory (name : string) (kw : dict) : result dop :=
  if name =? "non_implemented_pulse" then Err NotImplementedErr     (* pulse_factories.py l.441-443: any keywords *)
  else match lookup name factories with Some (sg, f) => do a <- bind_args sg kw; f a | None => Err OtherErr end.

(** backends/circuit_to_device.py l.735-764 [_get_device_repr_from_cfg]; [gate] is operation.data["gate_info"], [no_delay]: a Measure with apply_acquisition_delay=False *)
Definition device_repr (no_delay : bool) (gate over : dict) (c : opcfg) : result dop :=
  do kw <- (if no_delay
            then match lookup "acq_delay" (factory_kwargs c) with Some d => do m <- minus d; Ok (insert "next_operation_delay" m (factory_kwargs c)) | None => Err KeyError end
            else Ok (factory_kwargs c));
  do kw <- foldM (fun kw k => match lookup k gate with Some v => Ok (insert k v kw) | None => Err KeyError end) (gate_info c) kw;
  let kw := map (fun kv => (fst kv, match lookup (fst kv) over with Some v => v | None => snd kv end)) kw in
  match factory c with Some f => call_factory f kw | None => Err AssertionErr end.

(** circuit_to_device.py l.564-595 and l.640-655: the entry of the element or of the edge [m] (found before; C40 is about the search), ConfigKeyError if there is none, and the call *)
Definition gate_op (cfg : config) (m operation : string) (no_delay : bool) (gate over : dict) : result dop :=
  match lookup m (celements cfg ++ cedges cfg)%list with
  | Some ops => match lookup operation ops with Some c => device_repr no_delay gate over c | None => Err KeyError end
  | None => Err KeyError
  end.

(** ** Timing: what the timing pass (TimingModel) sees of an operation *)
(** a time that is not a number (nan) is not modelled *)
Definition time (v : cval) : result Q := do x <- fl v; match x with Some q => Ok q | None => Err OtherErr end.
Fixpoint slot (n : nat) : string := match n with O => "op" | S k => "x" ++ slot k end.
(** operation.py l.131-142: the duration is the latest end of the entries *)
Definition end_of (i : dict) : result Q := do a <- time (at_ i "t0"); do b <- time (at_ i "duration"); Ok (a + b).
Definition latest (l : list Q) : Q := match l with [] => 0 | x :: r => fold_left (fun a b => if Qlt_bool a b then b else a) r x end.
Fixpoint timing (d : dop) : result op :=
  match d with
  | DOp _ ps qs => do ends <- mapM end_of (ps ++ qs)%list; Ok (OLeaf (match (ps ++ qs)%list with [] => false | _ => true end) (latest ends) None)
  | DGate _ _ => Err OtherErr
  | DLoop n b => do b' <- timing b; Ok (OLoop n b')
  | DSched delay items =>
      do dl <- match delay with Some v => do q <- time v; Ok (Some q) | None => Ok None end;
      do is <- (fix go (k : nat) (l : list (dop * option refpt * cval)) : result (list item) :=
                  match l with
                  | [] => Ok []
                  | (o, pt, rel) :: r =>
                      do o' <- timing o; do q <- time rel; do r' <- go (S k) r;
                      Ok (Item (slot k) [{| tc_ref := None; tc_pt := pt; tc_ptnew := None; tc_rel := q |}] None o' :: r')
                  end) O items;
      Ok (OSched None dl 1 is)
  end.
