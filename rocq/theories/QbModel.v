(** Model of the preparation of a Qblox module: instrument_coordinator/components/qblox.py l.103-1643 and instrument_coordinator/utility.py l.79-130. Unless said otherwise, line numbers are those of components/qblox.py. *)
From Verif Require Import Base PathModel JsonModel.
From Coq Require Import Ascii.
Local Open Scope string_scope.

(** ** Parameters of an instrument *)

(** The values that reach QCoDeS parameters. A [sequence] (the json of a sequencer: program, waveforms, weights, acquisitions) is identified by a string; floats are rationals. *)
Inductive value := VBool (b : bool) | VNum (q : Q) | VStr (s : string) | VSeq (s : string) | VList (l : list Q) | VNone.
(** Python's [==] on them: [True == 1] *)
Definition num_of (v : value) : option Q := match v with VBool b => Some (if b then 1%Q else 0%Q) | VNum q => Some q | _ => None end.
Fixpoint qlist_eqb (a b : list Q) : bool := match a, b with [], [] => true | x :: a, y :: b => Qeq_bool x y && qlist_eqb a b | _, _ => false end.
Definition py_eq (a b : value) : bool :=
  match num_of a, num_of b with
  | Some x, Some y => Qeq_bool x y
  | None, None => match a, b with
                  | VStr s, VStr t => String.eqb s t
                  | VSeq s, VSeq t => String.eqb s t
                  | VList s, VList t => qlist_eqb s t
                  | VNone, VNone => true
                  | _, _ => false
                  end
  | _, _ => false
  end.

(** Where a parameter lives: on the module, on one of its sequencers, on one of its io channels *)
Inductive loc := LMod | LSeq (i : nat) | LIo (i : nat).
Definition loc_eqb (a b : loc) : bool := match a, b with LMod, LMod => true | LSeq i, LSeq j => Nat.eqb i j | LIo i, LIo j => Nat.eqb i j | _, _ => false end.
(** A parameter: the value in the instrument and the QCoDeS cache ([None]: cache not valid) *)
Record cell := { hw : value; cached : option value }.
Definition memory := loc -> string -> cell.
Definition upd (m : memory) (l : loc) (p : string) (c : cell) : memory := fun l' p' => if loc_eqb l l' && String.eqb p p' then c else m l' p'.

(** The driver (qblox-instruments), outside the repository: which parameters exist, what their validators accept, what the mixer calibrations do to the parameters. Setting a parameter stores the value as it is. *)
Record driver := {
  has : loc -> string -> bool;
  accepts : loc -> string -> value -> bool;
  sideband_cal : nat -> memory -> memory;
  lo_cal : string -> memory -> memory;
  force_set : bool  (* components/base.py l.77-88: the parameter [force_set_parameters] of the component *)
}.

(** types/qblox.py l.604-645 and l.703-770 (AnalogSequencerSettings); l.590-601 *)
Record trigger := { t_invert : option bool; t_count : option Z }.
Inductive sb_mode := SbOff | SbOnIf.
Record aset := {
  sync_en : bool; channel_name : string; outs : list Z; ins : list Z; sequence : option string; triggers : list (Z * trigger);
  write_en : option bool; write_address : option Z; write_invert : bool;
  nco_en : bool; offset_I : Q; offset_Q : Q; gain_I : Q; gain_Q : Q; mod_freq : option Q;
  mixer_phase : option Q; mixer_gain : option Q; auto_sb : sb_mode;
  integration_length : option Z; thr_threshold : option Q; thr_rotation : option Q;
  ttl_input : option Z; ttl_threshold : option Q; ttl_auto : option bool }.
(** types/qblox.py l.867-917 (TimetagSequencerSettings), of the fields of the base class only those read *)
Record tset := {
  tt_sync_en : bool; tt_outs : list nat; tt_ins : list nat; tt_sequence : option string; tt_triggers : list (Z * trigger); tt_write_en : option bool;
  analog_threshold : option Q; time_source : option string; time_ref : option string; time_ref_channel : option Z;
  trace_type : option string; trace_duration : option Z; addr_low : Z; addr_mid : Z; addr_high : Z; addr_invalid : Z }.
(** types/qblox.py l.271-330: real time filters; coefficients given as a single float are not modelled *)
Record filt := { coeffs : option (list Q); fconfig : string; fmarker : string }.
Record dist := { exps : list filt; fir : filt }.
(** types/qblox.py l.397-534: settings of a module; [lo_freqs] and [out_atts] are the fields lo0_freq..lo5_freq and out0_att..out5_att *)
Inductive lo_mode := LoOff | LoOnLo | LoOnLoIf.
Record mset := {
  off0I : option Q; off0Q : option Q; off1I : option Q; off1Q : option Q; in0_gain : option Z; in1_gain : option Z; dists : list dist;
  lo0_cal : lo_mode; lo1_cal : lo_mode; lo_freqs : list (option Q); out_atts : list (option Z); in0_att : option Z }.
(** Acquisition data of the program: the channels with whether their protocol is Trace, and the hardware mapping of each sequencer (an acquisition index, or, for other protocols, a mapping that is not an int) *)
Definition channels_data := list (string * bool).
Definition hw_mapping := list (string * list (string * option Z)).
(** The program of a module (settings given as objects; dicts are converted by from_dict, not modelled). The presence of a key is an [option]. *)
Record program (S : Type) := { p_settings : option mset; p_seqs : list (string * S); p_mapping : option hw_mapping }.
Arguments p_settings {S} _. Arguments p_seqs {S} _. Arguments p_mapping {S} _.

(** ** The kinds of module: l.142-190 *)
Inductive kind := QCM | QRM | QCM_RF | QRM_RF | QRC | QTM.
Definition n_seq (k : kind) : nat := match k with QRC => 12 | QTM => 8 | _ => 6 end.
Definition n_out (k : kind) : nat := match k with QCM => 4 | QRM => 2 | QCM_RF => 2 | QRM_RF => 1 | QRC => 6 | QTM => 8 end.
Definition n_in (k : kind) : nat := match k with QCM => 0 | QRM => 2 | QCM_RF => 0 | QRM_RF => 1 | QRC => 2 | QTM => 8 end.
Definition n_scope (k : kind) : nat := match k with QRM => 2 | QRM_RF => 2 | QRC => 4 | _ => 0 end.
Definition is_rf (k : kind) : bool := match k with QCM_RF | QRM_RF | QRC => true | _ => false end.
Definition dec_n (n : nat) : string := dec_Z (Z.of_nat n).
(** l.214-216 [_seq_name_to_idx_map] *)
Definition seq_name (i : nat) : string := "seq" ++ dec_n i.
Definition seq_index (k : kind) (name : string) : option nat := find (fun i => String.eqb name (seq_name i)) (List.seq 0 (n_seq k)).

(** ** The state of a component and its operations *)

(** The calibrations the component asks for, with the state of the instrument when asked *)
Inductive calib := SidebandCal (i : nat) | LoCal (name : string).
(** The acquisition manager, as far as [prepare] determines it: scope sequencer and acquisition index, durations by sequencer *)
Record manager := { m_scope : option (nat * Z); m_durations : list (string * option Z); m_mapping : hw_mapping }.
Record comp := { mem : memory; names : list string (* the keys of self._program["sequencers"] *); nco_changed : list (nat * bool); cals : list (calib * memory); mgr : option manager }.
(** A method call: the state it leaves, and its result or exception *)
Definition M (A : Type) := comp -> comp * result A.
Definition ret {A} (a : A) : M A := fun c => (c, Ok a).
Definition raise {A} (e : exn) : M A := fun c => (c, Err e).
Definition bnd {A B} (m : M A) (f : A -> M B) : M B := fun c => let '(c', r) := m c in match r with Ok a => f a c' | Err e => (c', Err e) end.
Definition andthen {A B} (m : M A) (n : M B) : M B := bnd m (fun _ => n).
Infix ">>" := andthen (at level 61, left associativity).
Fixpoint for_each {A} (l : list A) (f : A -> M unit) : M unit := match l with [] => ret tt | x :: r => f x >> for_each r f end.
Definition set_mem (f : memory -> memory) : M unit := fun c => ({| mem := f (mem c); names := names c; nco_changed := nco_changed c; cals := cals c; mgr := mgr c |}, Ok tt).
Definition set_names (l : list string) : M unit := fun c => ({| mem := mem c; names := l; nco_changed := nco_changed c; cals := cals c; mgr := mgr c |}, Ok tt).
Definition set_nco (f : list (nat * bool) -> list (nat * bool)) : M unit := fun c => ({| mem := mem c; names := names c; nco_changed := f (nco_changed c); cals := cals c; mgr := mgr c |}, Ok tt).
Definition set_mgr (o : option manager) : M unit := fun c => ({| mem := mem c; names := names c; nco_changed := nco_changed c; cals := cals c; mgr := o |}, Ok tt).
(** a call of a calibration routine of the driver *)
Definition calibrate (k : calib) (f : memory -> memory) : M unit := fun c => ({| mem := f (mem c); names := names c; nco_changed := nco_changed c; cals := (cals c ++ [(k, mem c)])%list; mgr := mgr c |}, Ok tt).
Definition gets {A} (f : comp -> A) : M A := fun c => (c, Ok (f c)).
Definition when_some {A} (o : option A) (f : A -> M unit) : M unit := match o with Some a => f a | None => ret tt end.

(** utility.py l.80-103 [parameter_value_same_as_cache] on an existing parameter *)
Definition same_as_cache (m : memory) (l : loc) (p : string) (v : value) : bool := match cached (m l p) with Some w => py_eq w v | None => false end.
(** l.256-265: the names of bias-tee parameters, which may be missing *)
Definition bt_name (suffix p : string) : bool := existsb (fun base => existsb (fun d => contains (base ++ d ++ suffix) p) ["0"; "1"; "2"; "3"]) ["out"; "marker"].
Definition bt_ignored (p : string) (v : value) : bool := (bt_name "_bt_config" p && py_eq v (VStr "bypassed")) || bt_name "_bt_time_constant" p.
(** a QCoDeS parameter set: the validator, then the instrument and the cache *)
Definition raw_set (d : driver) (l : loc) (p : string) (v : value) : M unit :=
  if accepts d l p v then set_mem (fun m => upd m l p {| hw := v; cached := Some v |}) else raise OtherErr.
(** l.234-270 [_set_parameter]; utility.py l.106-126 [lazy_set] *)
Definition set_parameter (d : driver) (l : loc) (p : string) (v : value) : M unit :=
  if has d l p
  then if force_set d then raw_set d l p v
       else bnd (gets (fun c => same_as_cache (mem c) l p v)) (fun same => if same then ret tt else raw_set d l p v)
  else if bt_ignored p v then ret tt else raise ValueError.

Definition onum (o : option Q) : value := match o with Some q => VNum q | None => VNone end.
Definition vint (z : Z) : value := VNum (inject_Z z).
Definition oseq (o : option string) : value := match o with Some s => VSeq s | None => VNone end.

(** ** Sequencer settings *)

(** l.382-410 [_ModuleComponentBase._configure_sequencer_settings] *)
Definition config_base (d : driver) (i : nat) (sync : bool) (sq : option string) (trg : list (Z * trigger)) : M unit :=
  set_parameter d (LSeq i) "sync_en" (VBool sync) >>
  set_parameter d (LSeq i) "sequence" (oseq sq) >>
  for_each trg (fun '(address, t) =>
    when_some (t_invert t) (fun b => set_parameter d (LSeq i) ("trigger" ++ dec_Z address ++ "_threshold_invert") (VBool b)) >>
    when_some (t_count t) (fun n => set_parameter d (LSeq i) ("trigger" ++ dec_Z address ++ "_count_threshold") (vint n))).

Definition zmem (z : Z) (l : list Z) : bool := existsb (Z.eqb z) l.
Fixpoint zlist_eqb (a b : list Z) : bool := match a, b with [], [] => true | x :: a, y :: b => Z.eqb x y && zlist_eqb a b | _, _ => false end.
(** l.535-554 and, for RF modules, l.1127-1147 [_determine_output_channel_map_parameters] *)
Definition output_channel (k : kind) (s : aset) (ch : nat) : string :=
  if is_rf k
  then if negb (contains "digital" (channel_name s)) && negb (Nat.eqb (List.length (outs s)) 0) && zlist_eqb (outs s) [2 * Z.of_nat ch; 2 * Z.of_nat ch + 1]%Z then "IQ" else "off"
  else if negb (Nat.eqb (List.length (outs s)) 0) && zmem (Z.of_nat ch) (outs s)
       then if contains "complex" (channel_name s) then (if Nat.even ch then "I" else "Q")
            else if contains "real" (channel_name s) then "I" else "off"
       else "off".
Definition output_map (k : kind) (s : aset) : list (string * string) := map (fun ch => ("connect_out" ++ dec_n ch, output_channel k s ch)) (List.seq 0 (n_out k)).
(** l.925-942; l.1303-1311 (QRM-RF); l.1395-1406 (QRC) [_determine_input_channel_map_parameters] *)
Definition input_map (k : kind) (s : aset) : list (string * string) :=
  match k with
  | QRM => map (fun ch => (if Nat.eqb ch 0 then "connect_acq_I" else "connect_acq_Q", if negb (Nat.eqb (List.length (ins s)) 0) && zmem (Z.of_nat ch) (ins s) then "in" ++ dec_n ch else "off")) (List.seq 0 (n_in QRM))
  | QRM_RF => [("connect_acq", if zlist_eqb (ins s) [0; 1]%Z then "in0" else "off")]
  | QRC => [("connect_acq", if zlist_eqb (ins s) [0; 1]%Z then "in0" else if zlist_eqb (ins s) [2; 3]%Z then "in1" else "off")]
  | _ => []
  end.
(** l.526-533, l.915-923 [_determine_channel_map_parameters] *)
Definition channel_map (k : kind) (s : aset) : list (string * string) := (output_map k s ++ input_map k s)%list.

Definition nco_put (i : nat) (b : bool) (l : list (nat * bool)) : list (nat * bool) := ((i, b) :: filter (fun e => negb (Nat.eqb (fst e) i)) l)%list.
(** l.465-524 [_AnalogModuleComponent._configure_sequencer_settings]; [parameter_value_same_as_cache] raises when the parameter does not exist *)
Definition config_analog (d : driver) (k : kind) (i : nat) (s : aset) : M unit :=
  (if nco_en s
   then (if has d (LSeq i) "nco_freq" then bnd (gets (fun c => same_as_cache (mem c) (LSeq i) "nco_freq" (onum (mod_freq s)))) (fun same => set_nco (nco_put i (negb same))) else raise ValueError) >>
        set_parameter d (LSeq i) "nco_freq" (onum (mod_freq s))
   else set_nco (nco_put i false)) >>
  set_parameter d (LSeq i) "offset_awg_path0" (VNum (offset_I s)) >>
  set_parameter d (LSeq i) "offset_awg_path1" (VNum (offset_Q s)) >>
  set_parameter d (LSeq i) "gain_awg_path0" (VNum (gain_I s)) >>
  set_parameter d (LSeq i) "gain_awg_path1" (VNum (gain_Q s)) >>
  for_each (channel_map k s) (fun '(p, v) => set_parameter d (LSeq i) p (VStr v)) >>
  config_base d i (sync_en s) (sequence s) (triggers s).
(** l.856-913 [_AnalogReadoutComponent._configure_sequencer_settings], after the super call *)
Definition config_readout (d : driver) (i : nat) (s : aset) : M unit :=
  when_some (integration_length s) (fun n => set_parameter d (LSeq i) "integration_length_acq" (vint n)) >>
  when_some (ttl_auto s) (fun b => set_parameter d (LSeq i) "ttl_acq_auto_bin_incr_en" (VBool b)) >>
  when_some (ttl_threshold s) (fun q => set_parameter d (LSeq i) "ttl_acq_threshold" (VNum q)) >>
  when_some (ttl_input s) (fun n => set_parameter d (LSeq i) "ttl_acq_input_select" (vint n)) >>
  when_some (thr_rotation s) (fun q => set_parameter d (LSeq i) "thresholded_acq_rotation" (VNum q)) >>
  when_some (thr_threshold s) (fun q => set_parameter d (LSeq i) "thresholded_acq_threshold" (VNum q)) >>
  when_some (write_address s) (fun n => set_parameter d (LSeq i) "thresholded_acq_trigger_address" (vint n)) >>
  when_some (write_en s) (fun b => set_parameter d (LSeq i) "thresholded_acq_trigger_en" (VBool b) >> set_parameter d (LSeq i) "thresholded_acq_trigger_invert" (VBool (write_invert s))).
(** The method resolution of [_configure_sequencer_settings]: l.654-657 (QCM), l.1054-1058 (QRM), l.1118-1125 (RF mix-in), l.1408-1412 (QRC) *)
Definition mod_en (d : driver) (i : nat) (s : aset) : M unit := set_parameter d (LSeq i) "mod_en_awg" (VBool (nco_en s)).
Definition demod_en (d : driver) (i : nat) (s : aset) : M unit := set_parameter d (LSeq i) "demod_en_acq" (VBool (nco_en s)).
Definition marker_ovr (d : driver) (i : nat) : M unit := set_parameter d (LSeq i) "marker_ovr_en" (VBool false).
Definition config_seq (d : driver) (k : kind) (i : nat) (s : aset) : M unit :=
  match k with
  | QCM => mod_en d i s >> config_analog d k i s
  | QCM_RF => (mod_en d i s >> config_analog d k i s) >> marker_ovr d i
  | QRM => mod_en d i s >> demod_en d i s >> (config_analog d k i s >> config_readout d i s)
  | QRM_RF => (mod_en d i s >> demod_en d i s >> (config_analog d k i s >> config_readout d i s)) >> marker_ovr d i
  | QRC => if negb (nco_en s) then raise ValueError else (config_analog d k i s >> config_readout d i s) >> marker_ovr d i
  | QTM => ret tt
  end.

Definition nco_flag (i : nat) (l : list (nat * bool)) : option bool := option_map snd (find (fun e => Nat.eqb (fst e) i) l).
(** self._nco_frequency_changed[seq_idx] *)
Definition get_nco (i : nat) : M bool := bnd (gets (fun c => nco_flag i (nco_changed c))) (fun o => match o with Some b => ret b | None => raise KeyError end).
(** l.556-577 [_configure_nco_mixer_calibration] *)
Definition config_mixer (d : driver) (i : nat) (s : aset) : M unit :=
  bnd (match auto_sb s with SbOnIf => get_nco i | SbOff => ret false end) (fun cal =>
  if (cal : bool) then calibrate (SidebandCal i) (sideband_cal d i)
  else when_some (mixer_phase s) (fun q => set_parameter d (LSeq i) "mixer_corr_phase_offset_degree" (VNum q)) >>
       when_some (mixer_gain s) (fun q => set_parameter d (LSeq i) "mixer_corr_gain_ratio" (VNum q))).

(** ** Module settings *)
Definition set_mod (d : driver) (p : string) (v : value) : M unit := set_parameter d LMod p v.
Definition set_onum (d : driver) (p : string) (o : option Q) : M unit := when_some o (fun q => set_mod d p (VNum q)).
Definition set_oint (d : driver) (p : string) (o : option Z) : M unit := when_some o (fun q => set_mod d p (vint q)).
Fixpoint enum_from {A} (n : nat) (l : list A) : list (nat * A) := match l with [] => [] | x :: r => (n, x) :: enum_from (S n) r end.
Definition nofilt : filt := {| coeffs := None; fconfig := "bypassed"; fmarker := "bypassed" |}.
Definition coeff (l : list Q) (n : nat) : M Q := match nth_error l n with Some q => ret q | None => raise IndexError end.
Definition out_ (o : nat) (rest : string) : string := "out" ++ dec_n o ++ rest.
Definition marker_ (o : nat) (rest : string) : string := "marker" ++ dec_n o ++ rest.
(** l.680-716, the loop over the distortion corrections of a QCM *)
Definition config_dist_qcm (d : driver) (st : mset) : M unit :=
  for_each (enum_from 0 (firstn (n_out QCM) (dists st))) (fun '(o, dc) =>
    for_each (List.seq 0 4) (fun i =>
      let e := nth i (exps dc) nofilt in
      when_some (coeffs e) (fun cs =>
        bnd (coeff cs 0) (fun q => set_mod d (out_ o ("_exp" ++ dec_n i ++ "_time_constant")) (VNum q)) >>
        bnd (coeff cs 1) (fun q => set_mod d (out_ o ("_exp" ++ dec_n i ++ "_amplitude")) (VNum q))) >>
      set_mod d (out_ o ("_exp" ++ dec_n i ++ "_config")) (VStr (fconfig e)) >>
      set_mod d (marker_ o ("_exp" ++ dec_n i ++ "_config")) (VStr (fmarker e))) >>
    when_some (coeffs (fir dc)) (fun cs => set_mod d (out_ o "_fir_coeffs") (VList cs)) >>
    set_mod d (out_ o "_fir_config") (VStr (fconfig (fir dc))) >>
    set_mod d (marker_ o "_fir_config") (VStr (fmarker (fir dc)))).
(** l.842-854, the same of a QRM: only the configurations *)
Definition config_dist_qrm (d : driver) (st : mset) : M unit :=
  for_each (enum_from 0 (firstn (n_out QRM) (dists st))) (fun '(o, dc) =>
    for_each (List.seq 0 4) (fun i => set_mod d (out_ o ("_exp" ++ dec_n i ++ "_config")) (VStr (fconfig (nth i (exps dc) nofilt)))) >>
    set_mod d (out_ o "_fir_config") (VStr (fconfig (fir dc)))).
Definition out_att (st : mset) (i : nat) : option Z := nth i (out_atts st) None.
Definition lo_freq (st : mset) (i : nat) : option Q := nth i (lo_freqs st) None.
(** [_configure_global_settings]: l.658-716 (QCM), l.822-854 (QRM), l.1179-1203 (QCM-RF), l.1255-1275 (QRM-RF), l.1363-1377 (QRC: the walrus binds [True], not the attenuation), l.1508-1518 (QTM) *)
Definition config_global (d : driver) (k : kind) (st : mset) : M unit :=
  match k with
  | QCM => set_onum d "out0_offset" (off0I st) >> set_onum d "out1_offset" (off0Q st) >> set_onum d "out2_offset" (off1I st) >> set_onum d "out3_offset" (off1Q st) >> config_dist_qcm d st
  | QRM => set_onum d "out0_offset" (off0I st) >> set_onum d "out1_offset" (off0Q st) >> set_oint d "in0_gain" (in0_gain st) >> set_oint d "in1_gain" (in1_gain st) >> config_dist_qrm d st
  | QCM_RF => set_onum d "out0_offset_path0" (off0I st) >> set_onum d "out0_offset_path1" (off0Q st) >> set_onum d "out1_offset_path0" (off1I st) >> set_onum d "out1_offset_path1" (off1Q st) >>
              set_oint d "out0_att" (out_att st 0) >> set_oint d "out1_att" (out_att st 1)
  | QRM_RF => set_onum d "out0_offset_path0" (off0I st) >> set_onum d "out0_offset_path1" (off0Q st) >> set_oint d "out0_att" (out_att st 0) >> set_oint d "in0_att" (in0_att st)
  | QRC => for_each (List.seq 0 6) (fun i => when_some (out_att st i) (fun _ => set_mod d (out_ i "_att") (VBool true)))
  | QTM => ret tt
  end.

(** l.1205-1246 and l.1277-1301: one LO with its calibration; [changed] is computed from the cache before the set *)
Definition set_lo (d : driver) (p : string) (o : option Q) : M bool :=
  match o with
  | None => ret false
  | Some q => if has d LMod p then bnd (gets (fun c => negb (same_as_cache (mem c) LMod p (VNum q)))) (fun ch => set_mod d p (VNum q) >> ret ch) else raise ValueError
  end.
Fixpoint any_nco (l : list nat) : M bool := match l with [] => ret false | i :: r => bnd (get_nco i) (fun b => if (b : bool) then ret true else any_nco r) end.
Definition lo_calibrate (d : driver) (name : string) (mode : lo_mode) (lo_changed nco_ch : bool) : M unit :=
  if match mode with LoOff => false | LoOnLo => lo_changed | LoOnLoIf => lo_changed || nco_ch end then calibrate (LoCal name) (lo_cal d name) else ret tt.
(** l.1149-1163 [_get_connected_lo_idx_for_sequencer] and l.1086-1107: the sequencers connected to an LO *)
Definition connected (k : kind) (seqs : list (string * aset)) (lo : nat) : list nat :=
  flat_map (fun '(name, s) => match seq_index k name with Some i => if String.eqb (output_channel k s lo) "IQ" then [i] else [] | None => [] end) seqs.
(** l.1205-1246, l.1277-1301, l.1379-1393 [_configure_lo_settings] *)
Definition config_lo (d : driver) (k : kind) (st : mset) (seqs : list (string * aset)) : M unit :=
  match k with
  | QCM_RF =>
      bnd (set_lo d "out0_lo_freq" (lo_freq st 0)) (fun lo0 =>
      bnd (set_lo d "out1_lo_freq" (lo_freq st 1)) (fun lo1 =>
      bnd (any_nco (connected k seqs 0)) (fun n0 =>
      bnd (any_nco (connected k seqs 1)) (fun n1 =>
      lo_calibrate d "out0_lo_cal" (lo0_cal st) lo0 n0 >> lo_calibrate d "out1_lo_cal" (lo1_cal st) lo1 n1))))
  | QRM_RF =>
      bnd (set_lo d "out0_in0_lo_freq" (lo_freq st 0)) (fun lo0 =>
      bnd (any_nco (connected k seqs 0)) (fun n0 =>
      lo_calibrate d "out0_in0_lo_cal" (lo0_cal st) lo0 n0))
  | QRC =>
      for_each (List.seq 0 2) (fun i => set_onum d (out_ i ("_in" ++ dec_n i ++ "_lo_freq")) (lo_freq st i)) >>
      for_each (List.seq 2 4) (fun i => set_onum d (out_ i "_lo_freq") (lo_freq st i))
  | _ => ret tt
  end.

(** ** [prepare] *)

(** l.349-357 [_ModuleComponentBase.prepare] *)
Definition prepare_base {S} (p : program S) : M unit := set_names (map fst (p_seqs p)) >> set_nco (fun _ => []).
(** l.359-363 [disable_sync], also inlined in every [prepare] (l.635-636, l.774-775, l.1473-1474) *)
Definition disable_sync (d : driver) (k : kind) : M unit := for_each (List.seq 0 (n_seq k)) (fun i => set_parameter d (LSeq i) "sync_en" (VBool false)).
(** l.638-649 and everywhere: the sequencer a name of the program refers to *)
Definition seq_of (k : kind) (name : string) : M nat := match seq_index k name with Some i => ret i | None => raise KeyError end.
Definition each_seq {S} (k : kind) (p : program S) (f : nat -> string -> S -> M unit) : M unit := for_each (p_seqs p) (fun '(name, s) => bnd (seq_of k name) (fun i => f i name s)).

(** l.944-988 [_determine_scope_mode_acquisition_sequencer_and_qblox_acq_index] *)
Definition scope_seq (k : kind) (data : channels_data) (hwm : hw_mapping) : result (option (nat * Z)) :=
  foldM (fun acc '(ch, is_trace) =>
    if negb (is_trace : bool) then Ok acc else
    foldM (fun acc '(sname, chans) =>
      match seq_index k sname with
      | None => Err KeyError
      | Some i => foldM (fun (acc : option (nat * Z)) '(hch, idx) =>
          if String.eqb ch hch then
            match idx with
            | None => Err AssertionErr
            | Some n => match acc with Some (j, _) => if Nat.eqb i j then Ok (Some (i, n)) else Err ValueError | None => Ok (Some (i, n)) end
            end
          else Ok acc) chans acc
      end) hwm acc) data None.
Definition lift {A} (r : result A) : M A := fun c => (c, r).

(** l.604-652 [_QCMComponent.prepare] *)
Definition prepare_qcm (d : driver) (k : kind) (p : program aset) : M unit :=
  prepare_base p >>
  when_some (p_settings p) (config_global d k) >>
  disable_sync d k >>
  each_seq k p (fun i _ s => config_seq d k i s >> config_mixer d i s).
(** l.748-820 [_AnalogReadoutComponent.prepare] *)
Definition prepare_readout (d : driver) (k : kind) (data : channels_data) (p : program aset) : M unit :=
  prepare_base p >>
  disable_sync d k >>
  each_seq k p (fun i _ s => config_seq d k i s) >>
  match p_mapping p with
  | Some hwm => bnd (lift (scope_seq k data hwm)) (fun sc => set_mgr (Some {| m_scope := sc; m_durations := map (fun '(n, s) => (n, integration_length s)) (p_seqs p); m_mapping := hwm |}))
  | None => set_mgr None
  end >>
  when_some (p_settings p) (config_global d k) >>
  for_each (List.seq 0 (n_scope k)) (fun path =>
    set_mod d ("scope_acq_trigger_mode_path" ++ dec_n path) (VStr "sequencer") >>
    set_mod d ("scope_acq_avg_mode_en_path" ++ dec_n path) (VBool true)).
(** l.1041-1052, l.1344-1361: the scope sequencer *)
Definition select_scope (d : driver) (k : kind) (data : channels_data) (p : program aset) : M unit :=
  when_some (p_mapping p) (fun hwm => bnd (lift (scope_seq k data hwm)) (fun sc => when_some sc (fun '(i, _) => set_mod d "scope_acq_sequencer_select" (vint (Z.of_nat i))))).
(** l.1001-1052 [_QRMComponent.prepare] *)
Definition prepare_qrm (d : driver) (k : kind) (data : channels_data) (p : program aset) : M unit :=
  prepare_readout d k data p >> each_seq k p (fun i _ s => config_mixer d i s) >> select_scope d k data p.
(** l.1064-1115 [_RFComponent.prepare], after the super call *)
Definition prepare_rf (d : driver) (k : kind) (p : program aset) : M unit :=
  each_seq k p (fun _ _ _ => ret tt) >> when_some (p_settings p) (fun st => config_lo d k st (p_seqs p)).
(** [prepare] of the analog modules by method resolution; QRC: l.1319-1361 *)
Definition prepare (d : driver) (k : kind) (data : channels_data) (p : program aset) : M unit :=
  match k with
  | QCM => prepare_qcm d k p
  | QCM_RF => prepare_qcm d k p >> prepare_rf d k p
  | QRM => prepare_qrm d k data p
  | QRM_RF => prepare_qrm d k data p >> prepare_rf d k p
  | QRC => prepare_readout d k data p >> prepare_rf d k p >> select_scope d k data p
  | QTM => raise AssertionErr
  end.

(** l.1520-1636 [_configure_io_channel_settings] *)
Definition time_ref_value (s : tset) (r : string) : string :=
  if String.eqb r "timestamp" then "sequencer" else if String.eqb r "port" then "first" ++ match time_ref_channel s with Some n => dec_Z n | None => "None" end else r.
Definition config_io (d : driver) (i : nat) (s : tset) : M unit :=
  for_each (tt_ins s) (fun ch => set_parameter d (LIo ch) "mode" (VStr "input")) >>
  for_each (tt_outs s) (fun ch => set_parameter d (LIo ch) "mode" (VStr "output")) >>
  when_some (analog_threshold s) (fun q => set_parameter d (LIo i) "analog_threshold" (VNum q)) >>
  set_parameter d (LIo i) "forward_trigger_en" (VBool false) >>
  set_parameter d (LIo i) "binned_acq_on_invalid_time_delta" (VStr "record_0") >>
  when_some (trace_type s) (fun t =>
    if String.eqb t "scope" then set_parameter d (LIo i) "scope_trigger_mode" (VStr "sequencer") >> set_parameter d (LIo i) "scope_mode" (VStr "scope")
    else if String.eqb t "timetag" then set_parameter d (LIo i) "scope_trigger_mode" (VStr "sequencer") >> set_parameter d (LIo i) "scope_mode" (VStr "timetags-windowed")
    else ret tt) >>
  when_some (time_source s) (fun t => set_parameter d (LIo i) "binned_acq_time_source" (VStr t)) >>
  when_some (time_ref s) (fun r => set_parameter d (LIo i) "binned_acq_time_ref" (VStr (time_ref_value s r))) >>
  set_parameter d (LIo i) "thresholded_acq_trigger_address_high" (vint (addr_high s)) >>
  set_parameter d (LIo i) "thresholded_acq_trigger_address_mid" (vint (addr_mid s)) >>
  set_parameter d (LIo i) "thresholded_acq_trigger_address_low" (vint (addr_low s)) >>
  set_parameter d (LIo i) "thresholded_acq_trigger_address_invalid" (vint (addr_invalid s)) >>
  when_some (tt_write_en s) (fun b => set_parameter d (LIo i) "thresholded_acq_trigger_en" (VBool b)).
(** l.1446-1506 [_QTMComponent.prepare] *)
Definition prepare_qtm (d : driver) (p : program tset) : M unit :=
  prepare_base p >>
  disable_sync d QTM >>
  each_seq QTM p (fun i _ s => config_base d i (tt_sync_en s) (tt_sequence s) (tt_triggers s) >> config_io d i s) >>
  match p_mapping p with
  | Some hwm => set_mgr (Some {| m_scope := None; m_durations := map (fun '(n, s) => (n, trace_duration s)) (p_seqs p); m_mapping := hwm |})
  | None => set_mgr None
  end >>
  when_some (p_settings p) (config_global d QTM).
