(** What the words of C59 mean. *)
From Coq Require Import Ascii.
From Verif Require Import Base DevModel DevSpec DevConf.
Local Open Scope string_scope.

(** a keyword that the configuration gives to the factory of an operation of an element (or edge) *)
Definition setting_in (l : list (string * list (string * opcfg))) (m operation keyword : string) : option cval :=
  match lookup m l with
  | Some ops => match lookup operation ops with Some o => lookup keyword (factory_kwargs o) | None => None end
  | None => None
  end.
(** which parameter of the element a keyword is: operation, keyword, submodule, parameter *)
Definition transmon_settings : list (string * string * string * string) :=
  [("reset", "duration", "reset", "duration"); ("Rxy", "amp180", "rxy", "amp180"); ("Rxy", "motzoi", "rxy", "motzoi"); ("Rxy", "duration", "rxy", "duration");
   ("Rxy", "port", "ports", "microwave"); ("measure", "port", "ports", "readout"); ("measure", "pulse_type", "measure", "pulse_type"); ("measure", "pulse_amp", "measure", "pulse_amp");
   ("measure", "pulse_duration", "measure", "pulse_duration"); ("measure", "acq_delay", "measure", "acq_delay"); ("measure", "acq_duration", "measure", "integration_time");
   ("measure", "acq_channel", "measure", "acq_channel"); ("measure", "reset_clock_phase", "measure", "reset_clock_phase"); ("measure", "acq_weights_a", "measure", "acq_weights_a");
   ("measure", "acq_weights_b", "measure", "acq_weights_b"); ("measure", "acq_weights_sampling_rate", "measure", "acq_weights_sampling_rate");
   ("measure", "acq_rotation", "measure", "acq_rotation"); ("measure", "acq_threshold", "measure", "acq_threshold"); ("measure", "num_points", "measure", "num_points");
   ("pulse_compensation", "port", "ports", "microwave"); ("pulse_compensation", "max_compensation_amp", "pulse_compensation", "max_compensation_amp");
   ("pulse_compensation", "time_grid", "pulse_compensation", "time_grid"); ("pulse_compensation", "sampling_rate", "pulse_compensation", "sampling_rate")].
Definition sensor_settings : list (string * string * string * string) :=
  [("measure", "port", "ports", "readout"); ("measure", "gate_port", "ports", "gate"); ("measure", "pulse_type", "measure", "pulse_type"); ("measure", "pulse_amp", "measure", "pulse_amp");
   ("measure", "gate_pulse_amp", "measure", "gate_pulse_amp"); ("measure", "pulse_duration", "measure", "pulse_duration"); ("measure", "acq_delay", "measure", "acq_delay");
   ("measure", "acq_duration", "measure", "integration_time"); ("measure", "acq_channel", "measure", "acq_channel"); ("measure", "reset_clock_phase", "measure", "reset_clock_phase");
   ("measure", "acq_weights_a", "measure", "acq_weights_a"); ("measure", "acq_weights_b", "measure", "acq_weights_b");
   ("measure", "acq_weights_sampling_rate", "measure", "acq_weights_sampling_rate"); ("measure", "acq_rotation", "measure", "acq_rotation");
   ("measure", "acq_threshold", "measure", "acq_threshold"); ("measure", "num_points", "measure", "num_points");
   ("pulse_compensation", "max_compensation_amp", "pulse_compensation", "max_compensation_amp"); ("pulse_compensation", "time_grid", "pulse_compensation", "time_grid");
   ("pulse_compensation", "sampling_rate", "pulse_compensation", "sampling_rate")].
Definition spin_settings : list (string * string * string * string) :=
  (sensor_settings ++ [("reset", "duration", "reset", "duration"); ("Rxy", "amp180", "rxy", "amp180"); ("Rxy", "duration", "rxy", "duration"); ("Rxy", "port", "ports", "microwave");
                       ("pulse_compensation", "port", "ports", "microwave")])%list.
Definition nv_settings : list (string * string * string * string) :=
  [("spectroscopy_operation", "duration", "spectroscopy_operation", "duration"); ("spectroscopy_operation", "amplitude", "spectroscopy_operation", "amplitude");
   ("spectroscopy_operation", "pulse_shape", "spectroscopy_operation", "pulse_shape"); ("spectroscopy_operation", "port", "ports", "microwave");
   ("reset", "duration", "reset", "duration"); ("reset", "amp", "reset", "amplitude"); ("reset", "port", "ports", "optical_control");
   ("charge_reset", "duration", "charge_reset", "duration"); ("charge_reset", "amp", "charge_reset", "amplitude"); ("charge_reset", "port", "ports", "optical_control");
   ("measure", "acq_duration", "measure", "acq_duration"); ("measure", "acq_delay", "measure", "acq_delay"); ("measure", "acq_channel", "measure", "acq_channel");
   ("measure", "acq_port", "ports", "optical_readout"); ("measure", "acq_time_source", "measure", "time_source"); ("measure", "acq_time_ref", "measure", "time_ref");
   ("cr_count", "acq_duration", "cr_count", "acq_duration"); ("cr_count", "acq_delay", "cr_count", "acq_delay"); ("cr_count", "acq_channel", "cr_count", "acq_channel");
   ("cr_count", "acq_port", "ports", "optical_readout"); ("Rxy", "amp180", "rxy", "amp180"); ("Rxy", "skewness", "rxy", "skewness"); ("Rxy", "duration", "rxy", "duration");
   ("Rxy", "pulse_shape", "rxy", "pulse_shape"); ("Rxy", "port", "ports", "microwave");
   ("pulse_compensation", "port", "ports", "microwave"); ("pulse_compensation", "max_compensation_amp", "pulse_compensation", "max_compensation_amp");
   ("pulse_compensation", "time_grid", "pulse_compensation", "time_grid"); ("pulse_compensation", "sampling_rate", "pulse_compensation", "sampling_rate")].
Definition settings_of (c : class) : list (string * string * string * string) :=
  match c with
  | BasicTransmonElement => transmon_settings | BasicSpinElement => spin_settings | ChargeSensor => sensor_settings | BasicElectronicNVElement => nv_settings
  | CompositeSquareEdge => [("CZ", "square_amp", "cz", "square_amp"); ("CZ", "square_duration", "cz", "square_duration")]
  | SpinEdge => [("CZ", "square_amp", "cz", "square_amp"); ("CZ", "square_duration", "cz", "square_duration"); ("CZ", "square_port", "ports", "gate")]
  end.
(** the clocks of an element: the name of the clock after the dot, and the parameter of [clock_freqs] that is its frequency *)
Definition clocks_spec (c : class) : list (string * string) :=
  match c with
  | BasicTransmonElement => [("01", "f01"); ("12", "f12"); ("ro", "readout")]
  | BasicSpinElement => [("f_larmor", "f_larmor"); ("ro", "readout")]
  | ChargeSensor => [("ro", "readout")]
  | BasicElectronicNVElement => [("f01", "f01"); ("spec", "spec"); ("ge0", "ge0"); ("ge1", "ge1"); ("ionization", "ionization")]
  | _ => []
  end.
(** the clock names in a value *)
Fixpoint strings (v : cval) : list string :=
  match v with CV (VStr s) => [s] | CL l => flat_map strings l | _ => [] end.
Definition clock_keyword (k : string) : Prop := In k ["clock"; "acq_clock"; "pulse_clocks"].
(** the two elements that an edge connects *)
Definition connects (x : instr) (p c : string) : Prop := iid x = EdgeOf p c.
