(** Model of device_under_test/: device_element.py, edge.py, quantum_device.py, transmon_element.py, spin_element.py,
    nv_element.py, composite_square_edge.py, spin_edge.py, and of helpers/validators.py.

    qcodes is modelled as follows.  An instrument has a name, and submodules; a submodule has parameters.  All open
    instruments are in one registry, by name: constructing one with the name of an open one raises KeyError.
    A parameter with [initial_value=None] holds None and is not validated; any other initial value is set, and
    setting validates first.  qcodes' own rewriting and checking of names is not modelled. *)
From Coq Require Import Ascii.
From Verif Require Import Base.
Local Open Scope string_scope.

(** Values of parameters.  A float that is not nan is its exact value (infinities are not modelled). *)
Inductive val :=
  | VInt (z : Z) | VNum (q : Q) | VNan | VBool (b : bool) | VStr (s : string) | VNone
  | VArr (l : list val) | VTuple (l : list val) | VList (l : list val).

Fixpoint lookup {A} (k : string) (l : list (string * A)) : option A :=
  match l with [] => None | (k', v) :: r => if k =? k' then Some v else lookup k r end.
(** dict assignment: an existing key keeps its place *)
Fixpoint insert {A} (k : string) (v : A) (l : list (string * A)) : list (string * A) :=
  match l with [] => [(k, v)] | (k', v') :: r => if k =? k' then (k, v) :: r else (k', v') :: insert k v r end.
Definition mem (k : string) (l : list string) : bool := existsb (String.eqb k) l.
(** dict.update *)
Definition update {A} (l m : list (string * A)) : list (string * A) := fold_left (fun l kv => insert (fst kv) (snd kv) l) m l.

(** The number a value stands for (booleans are ints in Python) *)
Definition number (v : val) : option Q :=
  match v with
  | VInt z => Some (inject_Z z) | VNum q => Some q | VBool b => Some (inject_Z (if b then 1 else 0)%Z)
  | _ => None
  end.

(** * helpers/validators.py l.14-116, and the qcodes validators used *)
Inductive validator :=
  | Anything
  | Numbers (low high : option Q) (allow_nan : bool)
  | Ints (low : Z)
  | Bools | Arrays | Strings
  | Enum (l : list string)
  | Hashable.

Definition within (low high : option Q) (q : Q) : bool :=
  match low with Some l => Qle_bool l q | None => true end && match high with Some h => Qle_bool q h | None => true end.
(** validators.py l.42-74 for [Numbers]; l.104-133 for [Hashable] (lists and arrays are not Hashable, tuples are) *)
Definition validate (d : validator) (v : val) : result unit :=
  match d with
  | Anything => Ok tt
  | Numbers low high allow_nan =>
      match v with
      | VNan => if allow_nan then Ok tt else Err ValueError
      | _ => match number v with
             | None => Err TypeError
             | Some q => if within low high q then Ok tt else Err ValueError
             end
      end
  | Ints low =>
      match v with
      | VInt z => if (low <=? z)%Z then Ok tt else Err ValueError
      | VBool b => if (low <=? if b then 1 else 0)%Z then Ok tt else Err ValueError
      | _ => Err TypeError
      end
  | Bools => match v with VBool _ => Ok tt | _ => Err TypeError end
  | Arrays => match v with VArr _ => Ok tt | _ => Err TypeError end
  | Strings => match v with VStr _ => Ok tt | _ => Err TypeError end
  | Enum l => match v with VStr s => if mem s l then Ok tt else Err ValueError | _ => Err ValueError end
  | Hashable => match v with VList _ | VArr _ => Err TypeError | _ => Ok tt end
  end.

(** bool(v), as in [v or default] *)
Fixpoint truthy (v : val) : result bool :=
  match v with
  | VInt z => Ok (negb (z =? 0)%Z)
  | VNum q => Ok (negb (Qeq_bool q 0))
  | VNan => Ok true
  | VBool b => Ok b
  | VStr s => Ok (negb (s =? ""))
  | VNone => Ok false
  | VArr [] => Ok false
  | VArr [x] => truthy x
  | VArr _ => Err ValueError
  | VTuple l | VList l => Ok (match l with [] => false | _ => true end)
  end.

(** * Classes as data *)

(** How a constructor turns the keyword (if given) into the initial value: a keyword with a default; [keyword or f"{name}<suffix>"];
    [keyword if keyword is not None else default]. *)
Inductive init := Default (v : val) | OrName (suffix : string) | IfNone (v : val).
Record pspec := { pname : string; pinit : init; pvals : validator }.
(** [reference]: whether the submodule has a nested submodule ReferenceMagnitude; [strict]: whether unknown keywords raise TypeError
    (a submodule that takes [**kwargs] ignores them). *)
Record submod := { params : list pspec; reference : bool; strict : bool }.

(** Identity of an instrument: the name of an element, or the parent and child of an edge *)
Inductive ident := Element (name : string) | EdgeOf (parent child : string).
(** device_element.py l.28-34; edge.py l.33-43 *)
Definition iname (i : ident) : string := match i with Element n => n | EdgeOf p c => p ++ "_" ++ c end.

Inductive class := BasicTransmonElement | BasicSpinElement | ChargeSensor | BasicElectronicNVElement | CompositeSquareEdge | SpinEdge.
Definition is_edge (c : class) : bool := match c with CompositeSquareEdge | SpinEdge => true | _ => false end.
(** export_python_object_to_path_string of the class *)
Definition class_path (c : class) : string :=
  match c with
  | BasicTransmonElement => "quantify_scheduler.device_under_test.transmon_element.BasicTransmonElement"
  | BasicSpinElement => "quantify_scheduler.device_under_test.spin_element.BasicSpinElement"
  | ChargeSensor => "quantify_scheduler.device_under_test.spin_element.ChargeSensor"
  | BasicElectronicNVElement => "quantify_scheduler.device_under_test.nv_element.BasicElectronicNVElement"
  | CompositeSquareEdge => "quantify_scheduler.device_under_test.composite_square_edge.CompositeSquareEdge"
  | SpinEdge => "quantify_scheduler.device_under_test.spin_edge.SpinEdge"
  end.
Definition classes := [BasicTransmonElement; BasicSpinElement; ChargeSensor; BasicElectronicNVElement; CompositeSquareEdge; SpinEdge].
(** json_utils.py l.195-238 [_get_type_from_string], for these classes *)
Definition class_of_path (s : string) : option class := find (fun c => class_path c =? s) classes.

Definition P (n : string) (i : init) (v : validator) : pspec := {| pname := n; pinit := i; pvals := v |}.
Definition num (low high : Q) (nan : bool) := Numbers (Some low) (Some high) nan.
Definition from_zero (nan : bool) := Numbers (Some 0) None nan.
Definition tera : Q := 1000000000000 # 1.
Definition nano (z : Z) : val := VNum (z # 1000000000).

(** transmon_element.py l.37-70 *)
Definition transmon_ports := {| params := [P "microwave" (OrName ":mw") Anything; P "flux" (OrName ":fl") Anything; P "readout" (OrName ":res") Anything];
                                reference := false; strict := true |}.
(** transmon_element.py l.73-114 *)
Definition transmon_clocks := {| params := [P "f01" (Default VNan) (num 0 tera true); P "f12" (Default VNan) (num 0 tera true); P "readout" (Default VNan) (num 0 tera true)];
                                 reference := false; strict := true |}.
(** transmon_element.py l.117-130 *)
Definition idling_reset := {| params := [P "duration" (Default (nano 200000)) (num 0 1 false)]; reference := false; strict := true |}.
(** transmon_element.py l.133-190 *)
Definition rxy_drag := {| params := [P "amp180" (Default VNan) (num (-10) 10 true); P "motzoi" (Default (VInt 0)) (num (-1) 1 false); P "duration" (Default (nano 20)) (num 0 1 false)];
                          reference := true; strict := true |}.
(** transmon_element.py l.193-231 *)
Definition pulse_compensation := {| params := [P "max_compensation_amp" (Default VNan) (from_zero true); P "time_grid" (Default VNan) (from_zero true);
                                               P "sampling_rate" (Default VNan) (from_zero true)]; reference := false; strict := true |}.
(** transmon_element.py l.234-409, up to [integration_time] and after it *)
Definition measure_before : list pspec :=
  [P "pulse_type" (Default (VStr "SquarePulse")) (Enum ["SquarePulse"]); P "pulse_amp" (Default (VNum (1#4))) (num 0 1 false); P "pulse_duration" (Default (nano 300)) (num 0 1 false);
   P "acq_channel" (Default (VInt 0)) Hashable; P "acq_delay" (Default (VInt 0)) (num 0 (1#10000) false)].
Definition measure_after : list pspec :=
  [P "reset_clock_phase" (Default (VBool true)) Bools; P "acq_weights_a" (IfNone (VArr [])) Arrays; P "acq_weights_b" (IfNone (VArr [])) Arrays;
   P "acq_weights_sampling_rate" (Default (VNum 1000000000)) (num 1 10000000000 false); P "acq_weight_type" (Default (VStr "SSB")) (Enum ["SSB"; "Numerical"]);
   P "acq_rotation" (Default (VInt 0)) Anything; P "acq_threshold" (Default (VInt 0)) Anything; P "num_points" (Default (VInt 1)) (Ints 1)].
Definition measure_transmon := {| params := (measure_before ++ [P "integration_time" (Default (nano 1000)) (num 0 (1#10000) false)] ++ measure_after)%list; reference := true; strict := true |}.
(** spin_element.py l.185-215: the keyword [integration_time] is taken out, the validator of the parameter is replaced, and the value is set if it is not None *)
Definition measure_spin := {| params := (measure_before ++ [P "integration_time" (IfNone (nano 1000)) (num 0 (1#100) false)] ++ measure_after
                                        ++ [P "gate_pulse_amp" (Default (VInt 0)) (num (-1) 1 false)])%list; reference := true; strict := true |}.
(** spin_element.py l.37-84 *)
Definition sensor_ports_params := [P "gate" (OrName ":gt") Anything; P "readout" (OrName ":res") Anything].
Definition sensor_ports := {| params := sensor_ports_params; reference := false; strict := true |}.
Definition spin_ports := {| params := (sensor_ports_params ++ [P "microwave" (OrName ":mw") Anything])%list; reference := false; strict := true |}.
(** spin_element.py l.87-131 *)
Definition sensor_clocks_params := [P "readout" (Default VNan) (num 0 tera true)].
Definition sensor_clocks := {| params := sensor_clocks_params; reference := false; strict := true |}.
Definition spin_clocks := {| params := (sensor_clocks_params ++ [P "f_larmor" (Default VNan) (num 0 tera true)])%list; reference := false; strict := true |}.
(** spin_element.py l.134-182 *)
Definition rxy_gaussian := {| params := [P "amp180" (Default VNan) (num (-10) 10 true); P "duration" (Default (nano 20)) (num 0 1 false)]; reference := true; strict := true |}.
(** nv_element.py l.47-86 *)
Definition nv_ports := {| params := [P "microwave" (OrName ":mw") Strings; P "optical_control" (OrName ":optical_control") Strings; P "optical_readout" (OrName ":optical_readout") Strings];
                          reference := false; strict := true |}.
Definition amplitudes := Numbers None None true.
Definition durations := from_zero false.
Definition delays := Numbers None None false.
(** nv_element.py l.89-158 *)
Definition nv_clocks := {| params := map (fun n => P n (Default VNan) (from_zero true)) ["f01"; "spec"; "ge0"; "ge1"; "ionization"]; reference := false; strict := true |}.
(** nv_element.py l.161-211 *)
Definition nv_spectroscopy := {| params := [P "amplitude" (Default VNan) amplitudes; P "duration" (Default (nano 8000)) durations;
                                            P "pulse_shape" (Default (VStr "SquarePulse")) (Enum ["SquarePulse"; "SkewedHermitePulse"; "GaussPulse"])]; reference := false; strict := true |}.
(** nv_element.py l.214-246 *)
Definition nv_reset := {| params := [P "amplitude" (Default VNan) amplitudes; P "duration" (Default (nano 50000)) durations]; reference := false; strict := true |}.
(** nv_element.py l.249-350 (a StrEnum is its string) *)
Definition nv_measure := {| params := [P "pulse_amplitude" (Default VNan) amplitudes; P "pulse_duration" (Default (nano 20000)) durations; P "acq_duration" (Default (nano 50000)) durations;
                                       P "acq_delay" (Default (VInt 0)) delays; P "acq_channel" (Default (VInt 0)) Hashable; P "time_source" (Default (VStr "first")) Hashable;
                                       P "time_ref" (Default (VStr "start")) Hashable]; reference := false; strict := true |}.
(** nv_element.py l.353-386 *)
Definition nv_charge_reset := {| params := [P "amplitude" (Default VNan) amplitudes; P "duration" (Default (nano 20000)) durations]; reference := false; strict := true |}.
(** nv_element.py l.389-478 *)
Definition nv_cr_count := {| params := [P "readout_pulse_amplitude" (Default VNan) amplitudes; P "spinpump_pulse_amplitude" (Default VNan) amplitudes;
                                        P "readout_pulse_duration" (Default (nano 20000)) durations; P "spinpump_pulse_duration" (Default (nano 20000)) durations;
                                        P "acq_duration" (Default (nano 50000)) durations; P "acq_delay" (Default (VInt 0)) delays; P "acq_channel" (Default (VInt 0)) Hashable];
                             reference := false; strict := true |}.
(** nv_element.py l.481-534 *)
Definition nv_rxy := {| params := [P "amp180" (Default VNan) amplitudes; P "skewness" (Default (VInt 0)) (num (-1) 1 false); P "duration" (Default (nano 20)) durations;
                                   P "pulse_shape" (Default (VStr "SkewedHermitePulse")) (Enum ["SkewedHermitePulse"; "GaussPulse"])]; reference := false; strict := true |}.
(** composite_square_edge.py l.22-61 and spin_edge.py l.53-92; [parent] and [child] are names of elements *)
Definition cz (amp : val) (bound : validator) (parent child : string) :=
  {| params := [P "square_amp" (Default amp) bound; P "square_duration" (Default (nano 20)) bound;
                P (parent ++ "_phase_correction") (Default (VInt 0)) (num (-tera) tera true); P (child ++ "_phase_correction") (Default (VInt 0)) (num (-tera) tera true)];
     reference := false; strict := false |}.
Definition nothing := {| params := []; reference := false; strict := false |}.
(** spin_edge.py l.26-43: the default is [f"{parent}_{child}:gt"], and the name of the edge is [f"{parent}_{child}"] *)
Definition edge_ports := {| params := [P "gate" (OrName ":gt") Anything]; reference := false; strict := true |}.

(** transmon_element.py l.549-556; spin_element.py l.257-264, l.446-451; nv_element.py l.565-575; composite_square_edge.py l.72-86; spin_edge.py l.109-129 *)
Definition schema (c : class) (i : ident) : list (string * submod) :=
  let '(p, ch) := match i with EdgeOf p ch => (p, ch) | Element n => (n, n) end in
  match c with
  | BasicTransmonElement => [("reset", idling_reset); ("rxy", rxy_drag); ("measure", measure_transmon); ("pulse_compensation", pulse_compensation);
                             ("ports", transmon_ports); ("clock_freqs", transmon_clocks)]
  | BasicSpinElement => [("reset", idling_reset); ("rxy", rxy_gaussian); ("measure", measure_spin); ("pulse_compensation", pulse_compensation);
                         ("ports", spin_ports); ("clock_freqs", spin_clocks)]
  | ChargeSensor => [("measure", measure_spin); ("pulse_compensation", pulse_compensation); ("ports", sensor_ports); ("clock_freqs", sensor_clocks)]
  | BasicElectronicNVElement => [("spectroscopy_operation", nv_spectroscopy); ("ports", nv_ports); ("clock_freqs", nv_clocks); ("reset", nv_reset); ("charge_reset", nv_charge_reset);
                                 ("measure", nv_measure); ("pulse_compensation", pulse_compensation); ("cr_count", nv_cr_count); ("rxy", nv_rxy)]
  | CompositeSquareEdge => [("cz", cz (VNum (1#2)) (num 0 tera true) p ch)]
  | SpinEdge => [("spin_init", nothing); ("cz", cz (VInt 0) (from_zero true) p ch); ("cnot", nothing); ("ports", edge_ports)]
  end.

(** * Instruments *)

(** transmon_element.py l.411-463 ReferenceMagnitude: its three parameters *)
Record refmag := { dBm : val; V : val; A : val }.
Inductive runit := UdBm | UV | UA.
Definition is_nan (v : val) : bool := match v with VNan => true | _ => false end.
(** transmon_element.py l.465-476 [_set_parameter], for a value that is a number or nan *)
Definition ref_put (r : refmag) (u : runit) (v : val) : refmag :=
  let other old := if is_nan v then old else VNan in
  match u with
  | UdBm => {| dBm := v; V := other (V r); A := other (A r) |}
  | UV => {| dBm := other (dBm r); V := v; A := other (A r) |}
  | UA => {| dBm := other (dBm r); V := other (V r); A := v |}
  end.
(** Parameter.set with [Numbers(allow_nan=True)] *)
Definition ref_set (r : refmag) (u : runit) (v : val) : result refmag := do _ <- validate (Numbers None None true) v; Ok (ref_put r u v).
(** transmon_element.py l.432-463: the parameters are made one after the other, each with its initial value; a keyword None is not set. *)
Definition ref_init (kw : list (string * val)) : result refmag :=
  let get k := match lookup k kw with Some v => v | None => VNan end in
  let step r u v := match v with VNone => Ok (match u with UdBm => {| dBm := VNone; V := V r; A := A r |}
                                                        | UV => {| dBm := dBm r; V := VNone; A := A r |}
                                                        | UA => {| dBm := dBm r; V := V r; A := VNone |} end)
                               | _ => ref_set r u v end in
  do r <- step {| dBm := VNan; V := VNan; A := VNan |} UdBm (get "reference_magnitude_dBm");
  do r <- step r UV (get "reference_magnitude_V");
  step r UA (get "reference_magnitude_A").
(** transmon_element.py l.478-504 [get_val_unit], then pulse_library.py l.26-34 [from_parameter]; math.isnan of None raises TypeError *)
Definition ref_get (r : refmag) : result (option (val * string)) :=
  do l <- mapM (fun vu : val * string => match fst vu with VNan => Ok [] | v => match number v with Some _ => Ok [(v, snd vu)] | None => Err TypeError end end)
               [(dBm r, "dBm"); (V r, "V"); (A r, "A")];
  match List.concat l with
  | [] => Ok None
  | [x] => Ok (Some x)
  | _ => Err ValueError
  end.

Record sub := { direct : list (string * val); refm : option refmag }.
Record instr := { icls : class; iid : ident; isubs : list (string * sub) }.

Definition initial (n : string) (i : init) (kw : option val) : result val :=
  match i with
  | Default d => Ok (match kw with Some v => v | None => d end)
  | OrName s => match kw with
                | Some v => do t <- truthy v; Ok (if t then v else VStr (n ++ s))
                | None => Ok (VStr (n ++ s))
                end
  | IfNone d => Ok (match kw with Some VNone | None => d | Some v => v end)
  end.
(** One parameter of a submodule: [KeyError] for a name that is already there (add_parameter); the initial value is validated unless it is None *)
Definition make_param (n : string) (kw : list (string * val)) (acc : list (string * val)) (p : pspec) : result (list (string * val)) :=
  do v <- initial n (pinit p) (lookup (pname p) kw);
  do _ <- match v with VNone => Ok tt | _ => validate (pvals p) v end;
  if mem (pname p) (map fst acc) then Err KeyError else Ok (acc ++ [(pname p, v)])%list.
Definition reference_keys := ["reference_magnitude_dBm"; "reference_magnitude_V"; "reference_magnitude_A"].
Definition make_sub (n : string) (m : submod) (kw : list (string * val)) : result sub :=
  if strict m && negb (forallb (fun kv => mem (fst kv) (map pname (params m) ++ if reference m then reference_keys else [])%list) kw) then Err TypeError else
  do d <- foldM (make_param n kw) (params m) [];
  do r <- if reference m then do r <- ref_init kw; Ok (Some r) else Ok None;
  Ok {| direct := d; refm := r |}.

Fixpoint contains_char (c : Ascii.ascii) (s : string) : bool :=
  match s with EmptyString => false | String a r => Ascii.eqb a c || contains_char c r end.
(** device_element.py l.28-34: hyphens and underscores are refused in the name of an element. An edge checks nothing. *)
Definition name_ok (i : ident) : bool :=
  match i with Element n => negb (contains_char "-"%char n || contains_char "_"%char n) | EdgeOf _ _ => true end.
(** an element is made with a name, an edge with a parent and a child *)
Definition kind_ok (c : class) (i : ident) : bool := match i with Element _ => negb (is_edge c) | EdgeOf _ _ => is_edge c end.

(** Keywords of a constructor: a dictionary of values for each submodule *)
Definition kwargs := list (string * list (string * val)).
(** transmon_element.py l.548-568 and the same lines of the other classes: [kwargs.pop(sub_name, {})]; keywords left over raise TypeError
    (qcodes' own keywords, metadata and label, are not modelled) *)
Definition construct (c : class) (i : ident) (kw : kwargs) : result instr :=
  if negb (kind_ok c i) then Err TypeError else
  if negb (name_ok i) then Err ValueError else
  if negb (forallb (fun kv => mem (fst kv) (map fst (schema c i))) kw) then Err TypeError else
  do subs <- mapM (fun nm => do s <- make_sub (iname i) (snd nm) (match lookup (fst nm) kw with Some d => d | None => [] end); Ok (fst nm, s)) (schema c i);
  Ok {| icls := c; iid := i; isubs := subs |}.

(** * The registry of open instruments *)
Definition registry := list (string * instr).
(** constructing an instrument: qcodes refuses the name of an open one *)
Definition create (w : registry) (c : class) (i : ident) (kw : kwargs) : result registry :=
  do x <- construct c i kw;
  match lookup (iname i) w with Some _ => Err KeyError | None => Ok (w ++ [(iname i, x)])%list end.
Definition close (w : registry) (n : string) : registry := filter (fun kv => negb (fst kv =? n)) w.
Definition find_instrument (w : registry) (n : string) : result instr := match lookup n w with Some x => Ok x | None => Err KeyError end.

Definition spec_of (c : class) (i : ident) (s p : string) : option pspec :=
  match lookup s (schema c i) with
  | None => None
  | Some m => find (fun q => pname q =? p) (params m)
  end.
(** [instrument.submodule.parameter(value)] *)
Definition set_param (x : instr) (s p : string) (v : val) : result instr :=
  match spec_of (icls x) (iid x) s p, lookup s (isubs x) with
  | Some q, Some y =>
      do _ <- validate (pvals q) v;
      Ok {| icls := icls x; iid := iid x; isubs := insert s {| direct := insert p v (direct y); refm := refm y |} (isubs x) |}
  | _, _ => Err OtherErr
  end.
(** [instrument.submodule.reference_magnitude.unit(value)] *)
Definition set_reference (x : instr) (s : string) (u : runit) (v : val) : result instr :=
  match lookup s (isubs x) with
  | Some y => match refm y with
              | Some r => do r <- ref_set r u v; Ok {| icls := icls x; iid := iid x; isubs := insert s {| direct := direct y; refm := Some r |} (isubs x) |}
              | None => Err OtherErr
              end
  | None => Err OtherErr
  end.

(** * QuantumDevice *)
(** quantum_device.py l.55-136. [hardware_config] is whatever the user gave, None at first *)
Record device := { dname : string; elements : list string; edges : list string; reps : Z; keep : bool; strategy : string; hardware : option Z }.
Definition new_device (n : string) : device :=
  {| dname := n; elements := []; edges := []; reps := 1024; keep := true; strategy := "asap"; hardware := None |}.
Definition with_elements (d : device) (l : list string) := {| dname := dname d; elements := l; edges := edges d; reps := reps d; keep := keep d; strategy := strategy d; hardware := hardware d |}.
Definition with_edges (d : device) (l : list string) := {| dname := dname d; elements := elements d; edges := l; reps := reps d; keep := keep d; strategy := strategy d; hardware := hardware d |}.
Definition with_reps (d : device) (z : Z) := {| dname := dname d; elements := elements d; edges := edges d; reps := z; keep := keep d; strategy := strategy d; hardware := hardware d |}.

Definition is_element_instr (x : instr) : bool := negb (is_edge (icls x)).
(** quantum_device.py l.435-460 *)
Definition add_element (d : device) (x : instr) : result device :=
  if mem (iname (iid x)) (elements d) then Err ValueError else
  if negb (is_element_instr x) then Err TypeError else
  Ok (with_elements d (elements d ++ [iname (iid x)])%list).
(** quantum_device.py l.506-522 *)
Definition add_edge (d : device) (x : instr) : result device :=
  if mem (iname (iid x)) (edges d) then Err ValueError else
  if is_element_instr x then Err TypeError else
  Ok (with_edges d (edges d ++ [iname (iid x)])%list).
(** list.remove *)
Fixpoint remove_first (n : string) (l : list string) : result (list string) :=
  match l with [] => Err ValueError | x :: r => if x =? n then Ok r else do r' <- remove_first n r; Ok (x :: r') end.
(** quantum_device.py l.462-473, l.524-538 *)
Definition remove_element (d : device) (n : string) : result device := do l <- remove_first n (elements d); Ok (with_elements d l).
Definition remove_edge (d : device) (n : string) : result device := do l <- remove_first n (edges d); Ok (with_edges d l).
(** quantum_device.py l.412-433, l.475-504 *)
Definition get_element (w : registry) (d : device) (n : string) : result instr := if mem n (elements d) then find_instrument w n else Err KeyError.
Definition get_edge (w : registry) (d : device) (n : string) : result instr := if mem n (edges d) then find_instrument w n else Err KeyError.
(** the parameter cfg_sched_repetitions, quantum_device.py l.93-104 *)
Definition set_reps (d : device) (v : val) : result device :=
  do _ <- validate (Ints 1) v;
  Ok (with_reps d (match v with VInt z => z | VBool b => if b then 1 else 0 | _ => 0 end)%Z).

(** * Serialization *)
(** What JSON makes of a value: a tuple comes back as a list; arrays are written with their type (json_utils.py l.385-391, C45) *)
Fixpoint json (v : val) : val :=
  match v with
  | VArr l => VArr (map json l)
  | VTuple l | VList l => VList (map json l)
  | _ => v
  end.
(** The document of an instrument: its class, its identity, and the keywords. *)
Record idoc := { dtype : string; did : ident; ddata : kwargs }.
(** device_element.py l.36-57, edge.py l.45-74: the parameters of the submodules; the submodules of submodules are not visited *)
Definition instr_doc (x : instr) : idoc :=
  {| dtype := class_path (icls x); did := iid x;
     ddata := map (fun ns => (fst ns, map (fun pv => (fst pv, json (snd pv))) (direct (snd ns)))) (isubs x) |}.
Record ddoc := { qname : string; qelements : list (string * idoc); qedges : list (string * idoc); qreps : Z }.
(** quantum_device.py l.138-161 *)
Definition device_doc (w : registry) (d : device) : result ddoc :=
  do es <- mapM (fun n => do x <- get_element w d n; Ok (n, instr_doc x)) (elements d);
  do gs <- mapM (fun n => do x <- get_edge w d n; Ok (n, instr_doc x)) (edges d);
  Ok {| qname := dname d; qelements := update [] es; qedges := update [] gs; qreps := reps d |}.
(** quantum_device.py l.228-267 *)
Definition to_json (w : registry) (d : device) : result ddoc :=
  let all := (elements d ++ edges d)%list in
  match all with
  | [] => Err RuntimeError
  | _ => if forallb (fun n => match lookup n w with Some _ => true | None => false end) all then device_doc w d else Err RuntimeError
  end.

(** json_utils.py l.216-221: [class_type( ** data)]; the registry has the instrument afterwards *)
Definition load_instr (w : registry) (x : idoc) : registry * result instr :=
  match class_of_path (dtype x) with
  | None => (w, Err OtherErr)
  | Some c => match create w c (did x) (ddata x) with
              | Err e => (w, Err e)
              | Ok w' => (w', find_instrument w' (iname (did x)))
              end
  end.
Fixpoint load_all (w : registry) (l : list (string * idoc)) : registry * result (list instr) :=
  match l with
  | [] => (w, Ok [])
  | (_, x) :: r =>
      match load_instr w x with
      | (w, Err e) => (w, Err e)
      | (w, Ok i) => match load_all w r with
                     | (w, Err e) => (w, Err e)
                     | (w, Ok l) => (w, Ok (i :: l))
                     end
      end
  end.
(** json.loads calls the hook on inner objects first, so the instruments are made first, in the order of the document; then
    quantum_device.py l.175-209.  ([isinstance] is checked there: an object of another kind is passed to json.loads, a TypeError.) *)
Definition from_json (w : registry) (q : ddoc) : registry * result device :=
  match load_all w (qelements q) with
  | (w, Err e) => (w, Err e)
  | (w, Ok es) =>
      match load_all w (qedges q) with
      | (w, Err e) => (w, Err e)
      | (w, Ok gs) =>
          (w, do d <- foldM (fun d x => if is_element_instr x then add_element d x else Err TypeError) es (new_device (qname q));
              do d <- foldM (fun d x => if is_element_instr x then Err TypeError else add_edge d x) gs d;
              set_reps d (VInt (qreps q)))
      end
  end.

(** * Histories of a session with one device (when another is loaded, that one is used from then on; a load that raises leaves
    the instruments it has made) *)
Inductive op :=
  | Create (c : class) (i : ident) (kw : kwargs)
  | SetParam (n s p : string) (v : val)
  | SetReference (n s : string) (u : runit) (v : val)
  | Close (n : string)
  | AddElement (n : string) | AddEdge (n : string) | RemoveElement (n : string) | RemoveEdge (n : string)
  | Load (q : ddoc)
  | SetReps (v : val) | SetStrategy (s : string) | SetKeep (b : bool) | SetHardware (h : option Z).
Definition on_instr (w : registry) (n : string) (f : instr -> result instr) : result registry :=
  do x <- find_instrument w n; do y <- f x; Ok (insert n y w).
Definition step (s : registry * device) (o : op) : result (registry * device) :=
  let '(w, d) := s in
  match o with
  | Create c i kw => do w <- create w c i kw; Ok (w, d)
  | SetParam n sm p v => do w <- on_instr w n (fun x => set_param x sm p v); Ok (w, d)
  | SetReference n sm u v => do w <- on_instr w n (fun x => set_reference x sm u v); Ok (w, d)
  | Close n => Ok (close w n, d)
  | AddElement n => do x <- find_instrument w n; do d <- add_element d x; Ok (w, d)
  | AddEdge n => do x <- find_instrument w n; do d <- add_edge d x; Ok (w, d)
  | RemoveElement n => do d <- remove_element d n; Ok (w, d)
  | RemoveEdge n => do d <- remove_edge d n; Ok (w, d)
  | Load q => match from_json w q with (w, Ok d) => Ok (w, d) | (w, Err _) => Ok (w, d) end
  | SetReps v => do d <- set_reps d v; Ok (w, d)
  | SetStrategy x => do _ <- validate (Enum ["asap"; "alap"]) (VStr x);
                     Ok (w, {| dname := dname d; elements := elements d; edges := edges d; reps := reps d; keep := keep d; strategy := x; hardware := hardware d |})
  | SetKeep b => Ok (w, {| dname := dname d; elements := elements d; edges := edges d; reps := reps d; keep := b; strategy := strategy d; hardware := hardware d |})
  | SetHardware h => Ok (w, {| dname := dname d; elements := elements d; edges := edges d; reps := reps d; keep := keep d; strategy := strategy d; hardware := h |})
  end.
(** an operation that raises changes nothing, and the user may go on *)
Definition after (s : registry * device) (l : list op) : registry * device :=
  fold_left (fun s o => match step s o with Ok s' => s' | Err _ => s end) l s.
Definition session (n : string) (l : list op) : registry * device := after ([], new_device n) l.
