(** Model of the device configuration: generate_device_config and generate_edge_config of the classes of DevModel.
    Validation by pydantic of what is generated is not modelled. *)
From Coq Require Import Ascii.
From Verif Require Import Base DevModel.
Local Open Scope string_scope.

(** Where a keyword of an operation's factory comes from *)
Inductive src :=
  | Pm (s p : string)            (* self.s.p() *)
  | Clk (suffix : string)        (* f"{self.name}.<suffix>" *)
  | Const (v : val)
  | Ref (s : string)             (* ReferenceMagnitude.from_parameter(self.s.reference_magnitude) *)
  | Me                           (* f"{self.name}" *)
  | Pair (a : src) (b : option src)    (* a list of one or two *)
  | ParentPm (s p : string)      (* self.parent_device_element.s.p() *)
  | ParentClk (suffix : string) | ChildClk (suffix : string)   (* f"{self.parent_device_element.name}.<suffix>" *)
  | PhaseParent | PhaseChild.    (* self.cz.parameters[f"{...}_phase_correction"]() *)
(** OperationCompilationConfig *)
Record template := { tfactory : option string; tkws : list (string * src); tgate : list string }.
Inductive cval := CV (v : val) | CR (r : option (val * string)) | CL (l : list cval).
Record opcfg := { factory : option string; factory_kwargs : list (string * cval); gate_info : list string }.

Definition op1 (f : option string) (k : list (string * src)) (g : list string) : template := {| tfactory := f; tkws := k; tgate := g |}.
Definition measure_gate_info := ["acq_channel_override"; "coords"; "acq_index"; "bin_mode"; "acq_protocol"; "feedback_trigger_label"].
Definition optical_gate_info := ["acq_channel_override"; "coords"; "acq_index"; "bin_mode"; "acq_protocol"].

(** the compensation entry: transmon_element.py l.637-646, spin_element.py l.373-382 and l.529-538, nv_element.py l.663-672 *)
Definition compensation (port : src) (clock : src) : template :=
  op1 None [("port", port); ("clock", clock); ("max_compensation_amp", Pm "pulse_compensation" "max_compensation_amp");
            ("time_grid", Pm "pulse_compensation" "time_grid"); ("sampling_rate", Pm "pulse_compensation" "sampling_rate")] [].
(** spin_element.py l.337-371 and l.493-527: the same in both classes *)
Definition spin_measure_template : template :=
  op1 (Some "dispersive_measurement_spin")
      [("port", Pm "ports" "readout"); ("clock", Clk "ro"); ("gate_port", Pm "ports" "gate"); ("pulse_type", Pm "measure" "pulse_type"); ("pulse_amp", Pm "measure" "pulse_amp");
       ("gate_pulse_amp", Pm "measure" "gate_pulse_amp"); ("pulse_duration", Pm "measure" "pulse_duration"); ("acq_delay", Pm "measure" "acq_delay");
       ("acq_duration", Pm "measure" "integration_time"); ("acq_channel", Pm "measure" "acq_channel"); ("acq_protocol_default", Const (VStr "SSBIntegrationComplex"));
       ("reset_clock_phase", Pm "measure" "reset_clock_phase"); ("reference_magnitude", Ref "measure"); ("acq_weights_a", Pm "measure" "acq_weights_a");
       ("acq_weights_b", Pm "measure" "acq_weights_b"); ("acq_weights_sampling_rate", Pm "measure" "acq_weights_sampling_rate"); ("acq_rotation", Pm "measure" "acq_rotation");
       ("acq_threshold", Pm "measure" "acq_threshold"); ("num_points", Pm "measure" "num_points"); ("freq", Const VNone)] measure_gate_info.

Definition templates (c : class) : list (string * template) :=
  match c with
  (* transmon_element.py l.587-683 *)
  | BasicTransmonElement =>
      [("reset", op1 (Some "IdlePulse") [("duration", Pm "reset" "duration")] []);
       ("Rxy", op1 (Some "rxy_drag_pulse") [("amp180", Pm "rxy" "amp180"); ("motzoi", Pm "rxy" "motzoi"); ("port", Pm "ports" "microwave"); ("clock", Clk "01");
                                            ("duration", Pm "rxy" "duration"); ("reference_magnitude", Ref "rxy")] ["theta"; "phi"]);
       ("Rz", op1 (Some "phase_shift") [("clock", Clk "01")] ["theta"]);
       ("H", op1 (Some "hadamard_as_y90z") [("qubit", Me)] []);
       ("pulse_compensation", compensation (Pm "ports" "microwave") (Clk "01"));
       ("measure", op1 (Some "dispersive_measurement_transmon")
          [("port", Pm "ports" "readout"); ("clock", Clk "ro"); ("pulse_type", Pm "measure" "pulse_type"); ("pulse_amp", Pm "measure" "pulse_amp");
           ("pulse_duration", Pm "measure" "pulse_duration"); ("acq_delay", Pm "measure" "acq_delay"); ("acq_duration", Pm "measure" "integration_time");
           ("acq_channel", Pm "measure" "acq_channel"); ("acq_protocol_default", Const (VStr "SSBIntegrationComplex")); ("reset_clock_phase", Pm "measure" "reset_clock_phase");
           ("reference_magnitude", Ref "measure"); ("acq_weights_a", Pm "measure" "acq_weights_a"); ("acq_weights_b", Pm "measure" "acq_weights_b");
           ("acq_weights_sampling_rate", Pm "measure" "acq_weights_sampling_rate"); ("acq_rotation", Pm "measure" "acq_rotation"); ("acq_threshold", Pm "measure" "acq_threshold");
           ("num_points", Pm "measure" "num_points"); ("freq", Const VNone)] measure_gate_info)]
  (* spin_element.py l.292-385 *)
  | BasicSpinElement =>
      [("reset", op1 (Some "IdlePulse") [("duration", Pm "reset" "duration")] []);
       ("Rxy", op1 (Some "rxy_gauss_pulse") [("amp180", Pm "rxy" "amp180"); ("port", Pm "ports" "microwave"); ("clock", Clk "f_larmor");
                                             ("duration", Pm "rxy" "duration"); ("reference_magnitude", Ref "rxy")] ["theta"; "phi"]);
       ("Rz", op1 (Some "phase_shift") [("clock", Clk "f_larmor")] ["theta"]);
       ("H", op1 (Some "hadamard_as_y90z") [("qubit", Me)] []);
       ("measure", spin_measure_template);
       ("pulse_compensation", compensation (Pm "ports" "microwave") (Clk "f_larmor"))]
  (* spin_element.py l.479-541 *)
  | ChargeSensor => [("measure", spin_measure_template); ("pulse_compensation", compensation (Pm "ports" "gate") (Const (VStr "cl0.baseband")))]
  (* nv_element.py l.604-730 *)
  | BasicElectronicNVElement =>
      [("spectroscopy_operation", op1 (Some "nv_spec_pulse_mw") [("duration", Pm "spectroscopy_operation" "duration"); ("amplitude", Pm "spectroscopy_operation" "amplitude");
           ("port", Pm "ports" "microwave"); ("clock", Clk "spec"); ("pulse_shape", Pm "spectroscopy_operation" "pulse_shape")] []);
       ("reset", op1 (Some "SquarePulse") [("duration", Pm "reset" "duration"); ("amp", Pm "reset" "amplitude"); ("port", Pm "ports" "optical_control"); ("clock", Clk "ge1")] []);
       ("charge_reset", op1 (Some "SquarePulse") [("duration", Pm "charge_reset" "duration"); ("amp", Pm "charge_reset" "amplitude"); ("port", Pm "ports" "optical_control");
           ("clock", Clk "ionization")] []);
       ("measure", op1 (Some "optical_measurement") [("pulse_amplitudes", Pair (Pm "measure" "pulse_amplitude") None); ("pulse_durations", Pair (Pm "measure" "pulse_duration") None);
           ("pulse_ports", Pair (Pm "ports" "optical_control") None); ("pulse_clocks", Pair (Clk "ge0") None); ("acq_duration", Pm "measure" "acq_duration"); ("acq_delay", Pm "measure" "acq_delay");
           ("acq_channel", Pm "measure" "acq_channel"); ("acq_port", Pm "ports" "optical_readout"); ("acq_clock", Clk "ge0"); ("acq_time_source", Pm "measure" "time_source");
           ("acq_time_ref", Pm "measure" "time_ref"); ("pulse_type", Const (VStr "SquarePulse")); ("acq_protocol_default", Const (VStr "TriggerCount"))] optical_gate_info);
       ("pulse_compensation", compensation (Pm "ports" "microwave") (Clk "f_larmor"));
       ("cr_count", op1 (Some "optical_measurement") [("pulse_amplitudes", Pair (Pm "cr_count" "readout_pulse_amplitude") (Some (Pm "cr_count" "spinpump_pulse_amplitude")));
           ("pulse_durations", Pair (Pm "cr_count" "readout_pulse_duration") (Some (Pm "cr_count" "spinpump_pulse_duration")));
           ("pulse_ports", Pair (Pm "ports" "optical_control") (Some (Pm "ports" "optical_control"))); ("pulse_clocks", Pair (Clk "ge0") (Some (Clk "ge1")));
           ("acq_duration", Pm "cr_count" "acq_duration"); ("acq_delay", Pm "cr_count" "acq_delay"); ("acq_channel", Pm "cr_count" "acq_channel"); ("acq_port", Pm "ports" "optical_readout");
           ("acq_clock", Clk "ge0"); ("pulse_type", Const (VStr "SquarePulse")); ("acq_protocol_default", Const (VStr "TriggerCount"))] optical_gate_info);
       ("Rxy", op1 (Some "rxy_pulse") [("amp180", Pm "rxy" "amp180"); ("skewness", Pm "rxy" "skewness"); ("port", Pm "ports" "microwave"); ("clock", Clk "spec");
           ("duration", Pm "rxy" "duration"); ("pulse_shape", Pm "rxy" "pulse_shape")] ["theta"; "phi"])]
  (* composite_square_edge.py l.96-117 *)
  | CompositeSquareEdge =>
      [("CZ", op1 (Some "composite_square_pulse") [("square_port", ParentPm "ports" "flux"); ("square_clock", Const (VStr "cl0.baseband")); ("square_amp", Pm "cz" "square_amp");
           ("square_duration", Pm "cz" "square_duration"); ("virt_z_parent_qubit_phase", PhaseParent); ("virt_z_parent_qubit_clock", ParentClk "01");
           ("virt_z_child_qubit_phase", PhaseChild); ("virt_z_child_qubit_clock", ChildClk "01")] [])]
  (* spin_edge.py l.139-167 *)
  | SpinEdge =>
      [("SpinInit", op1 (Some "non_implemented_pulse") [] []);
       ("CZ", op1 (Some "composite_square_pulse") [("square_port", Pm "ports" "gate"); ("square_clock", Const (VStr "cl0.baseband")); ("square_amp", Pm "cz" "square_amp");
           ("square_duration", Pm "cz" "square_duration"); ("virt_z_parent_qubit_phase", PhaseParent); ("virt_z_parent_qubit_clock", ParentClk "f_larmor");
           ("virt_z_child_qubit_phase", PhaseChild); ("virt_z_child_qubit_clock", ChildClk "f_larmor")] []);
       ("CNOT", op1 (Some "non_implemented_pulse") [] [])]
  end.
(** transmon_element.py l.699-703, spin_element.py l.405-408 and l.552-554, nv_element.py l.747-753: the suffix of the clock, and the parameter of clock_freqs *)
Definition clock_table (c : class) : list (string * string) :=
  match c with
  | BasicTransmonElement => [("01", "f01"); ("12", "f12"); ("ro", "readout")]
  | BasicSpinElement => [("f_larmor", "f_larmor"); ("ro", "readout")]
  | ChargeSensor => [("ro", "readout")]
  | BasicElectronicNVElement => [("f01", "f01"); ("spec", "spec"); ("ge0", "ge0"); ("ge1", "ge1"); ("ionization", "ionization")]
  | _ => []
  end.

Definition get_param (x : instr) (s p : string) : result val :=
  match lookup s (isubs x) with
  | Some y => match lookup p (direct y) with Some v => Ok v | None => Err OtherErr end
  | None => Err OtherErr
  end.
(** edge.py l.99-107 *)
Definition endpoint (w : registry) (n : string) : result instr :=
  do x <- find_instrument w n; if is_element_instr x then Ok x else Err TypeError.
Definition parent_of (i : ident) : string := match i with Element n => n | EdgeOf p _ => p end.
Definition child_of (i : ident) : string := match i with Element n => n | EdgeOf _ c => c end.

Fixpoint eval (w : registry) (x : instr) (s : src) : result cval :=
  match s with
  | Pm sm p => do v <- get_param x sm p; Ok (CV v)
  | Clk sfx => Ok (CV (VStr (iname (iid x) ++ "." ++ sfx)))
  | Const v => Ok (CV v)
  | Ref sm => match lookup sm (isubs x) with
              | Some y => match refm y with Some r => do v <- ref_get r; Ok (CR v) | None => Err OtherErr end
              | None => Err OtherErr
              end
  | Me => Ok (CV (VStr (iname (iid x))))
  | Pair a b => do va <- eval w x a;
                match b with None => Ok (CL [va]) | Some b => do vb <- eval w x b; Ok (CL [va; vb]) end
  | ParentPm sm p => do y <- endpoint w (parent_of (iid x)); do v <- get_param y sm p; Ok (CV v)
  | ParentClk sfx => do y <- endpoint w (parent_of (iid x)); Ok (CV (VStr (iname (iid y) ++ "." ++ sfx)))
  | ChildClk sfx => do y <- endpoint w (child_of (iid x)); Ok (CV (VStr (iname (iid y) ++ "." ++ sfx)))
  | PhaseParent => do v <- get_param x "cz" (parent_of (iid x) ++ "_phase_correction"); Ok (CV v)
  | PhaseChild => do v <- get_param x "cz" (child_of (iid x) ++ "_phase_correction"); Ok (CV v)
  end.
Definition eval_op (w : registry) (x : instr) (t : template) : result opcfg :=
  do k <- mapM (fun ks => do v <- eval w x (snd ks); Ok (fst ks, v)) (tkws t);
  Ok {| factory := tfactory t; factory_kwargs := k; gate_info := tgate t |}.
(** [_generate_config] and [generate_edge_config]: the operations of one instrument *)
Definition operations (w : registry) (x : instr) : result (list (string * opcfg)) :=
  mapM (fun nt => do o <- eval_op w x (snd nt); Ok (fst nt, o)) (templates (icls x)).
Definition clocks_of (x : instr) : result (list (string * val)) :=
  mapM (fun sp => do v <- get_param x "clock_freqs" (snd sp); Ok (iname (iid x) ++ "." ++ fst sp, v)) (clock_table (icls x)).

Record config := { celements : list (string * list (string * opcfg)); cclocks : list (string * val); cedges : list (string * list (string * opcfg)); cstrategy : string }.
(** quantum_device.py l.292-329; the entry of an element or an edge is under its name *)
Definition device_config (w : registry) (d : device) : result config :=
  do ec <- foldM (fun (ec : list (string * list (string * opcfg)) * list (string * val)) n =>
                    do x <- get_element w d n;
                    if negb (is_element_instr x) then Err OtherErr else
                    do o <- operations w x; do c <- clocks_of x;
                    Ok (update (fst ec) [(iname (iid x), o)], update (snd ec) c)) (elements d) ([], []);
  do g <- foldM (fun (g : list (string * list (string * opcfg))) n =>
                   do x <- get_edge w d n;
                   if is_element_instr x then Err OtherErr else
                   do o <- operations w x; Ok (update g [(iname (iid x), o)])) (edges d) [];
  Ok {| celements := fst ec; cclocks := snd ec; cedges := g; cstrategy := strategy d |}.
