(** Model of backends/qblox/analog.py l.700-815, l.903-950, l.1204-1260: the settings of an analog module that come from the hardware options of its port-clocks (input gains, mixer offsets, attenuations), and the check that one sequencer at most uses scope acquisition. *)
From Verif Require Import Base CircModel PathModel.
From Coq Require Import Ascii.
Local Open Scope string_scope.
Local Open Scope list_scope.
Local Open Scope Z_scope.

(** types/qblox.py l.1346-1387 [RealInputGain], [ComplexInputGain] *)
Inductive gain := GReal (v : Z) | GComplex (i q : Z).

(** [int(s[-1])] *)
Fixpoint last_char (s : string) : option ascii := match s with EmptyString => None | String c EmptyString => Some c | String _ r => last_char r end.
Definition last_int (s : string) : result Z :=
  match last_char s with None => Err IndexError | Some c => match digit c with Some d => Ok d | None => Err ValueError end end.

(** qblox_backend.py l.1429-1451 [_validate_input_gain_mode] *)
Definition gain_mode_ok (ch : string) (g : gain) : bool :=
  match g with GComplex _ _ => negb (contains "real" ch) | GReal _ => negb (contains "complex" ch) end.
Definition validate_input_gain_mode (gains : option (dict gain)) (pcs : dict path) : result unit :=
  match gains with
  | None => Ok tt
  | Some l => do _ <- mapM (fun e : string * gain => let '(pc, g) := e in
                do p <- index pcs pc; if gain_mode_ok (p_ch p) g then Ok tt else Err ValueError) l; Ok tt
  end.

(** l.701-758 [_configure_input_gains]. The local variables in0_gain, in1_gain, init_in0_gain, init_in1_gain, init_portclock, and the settings. *)
Record gstate := { g_0 : option Z; g_1 : option Z; g_i0 : option Z; g_i1 : option Z; g_pc : option string; g_set : option Z * option Z }.
Definition gstart : gstate := {| g_0 := None; g_1 := None; g_i0 := None; g_i1 := None; g_pc := None; g_set := (None, None) |}.
(** [a is not None and b is not None and a != b] *)
Definition clash (a b : option Z) : bool := match a, b with Some x, Some y => negb (Z.eqb x y) | _, _ => false end.
(** truth value of an optional string *)
Definition truthy (s : option string) : bool := match s with None | Some EmptyString => false | Some _ => true end.
Definition gain_step (gains : option (dict gain)) (st : gstate) (e : string * path) : result gstate :=
  let '(pc, p) := e in
  match gains with
  | None => Ok st
  | Some l =>
      match get l pc with
      | None => Ok {| g_0 := g_0 st; g_1 := g_1 st; g_i0 := g_i0 st; g_i1 := g_i1 st; g_pc := g_pc st; g_set := (g_0 st, g_1 st) |}
      | Some g =>
          do n <- match g with
                  | GComplex i q => Ok (Some i, Some q)
                  | GReal v => do d <- last_int (p_ch p);
                               if Z.eqb d 0 then Ok (Some v, g_1 st) else if Z.eqb d 1 then Ok (g_0 st, Some v) else Ok (g_0 st, g_1 st)
                  end;
          let '(a, b) := n in
          if truthy (g_pc st) && (clash a (g_i0 st) || clash b (g_i1 st)) then Err ValueError
          else Ok {| g_0 := a; g_1 := b; g_i0 := a; g_i1 := b; g_pc := Some pc; g_set := (a, b) |}
      end
  end.
Definition configure_input_gains (gains : option (dict gain)) (pcs : dict path) : result (option Z * option Z) :=
  do st <- foldM (gain_step gains) pcs gstart; Ok (g_set st).

(** types/qblox.py l.1426-1470 [QbloxMixerCorrections], without the parts for the waveforms; m_cal: auto_lo_cal *)
Record mixer := { m_i : option Q; m_q : option Q; m_cal : Z }.
(** types/common.py [BoundedParameter] *)
Record bounded := { b_min : Q; b_max : Q; b_units : string }.
(** helpers.py l.986-1040 [calc_from_units_volt] *)
Definition calc_from_units_volt (r : bounded) (off : option Q) : result (option Q) :=
  match off with
  | None => Ok None
  | Some o =>
      do f <- (if String.eqb (b_units r) "mV" then Ok (1000 # 1) else if String.eqb (b_units r) "V" then Ok (1 # 1) else Err RuntimeError);
      let c := (o * f)%Q in
      if Qlt_bool c (b_min r) || Qlt_bool (b_max r) c then Err ValueError else Ok (Some c)
  end.
(** the settings of one output pair: offset_ch{n}_path_I, offset_ch{n}_path_Q, out{n}_lo_freq_cal_type_default *)
Record chset := { o_i : option Q; o_q : option Q; o_cal : Z }.
Definition nochset : chset := {| o_i := None; o_q := None; o_cal := 0 |}.
(** l.759-815 [_configure_mixer_offsets], the body for one output label *)
Definition offset_step (r : bounded) (mix : option (dict mixer)) (label : string) (s : chset) (e : string * path) : result chset :=
  let '(pc, p) := e in
  if String.eqb label (p_ch p) then
    match mix with
    | None => Ok s
    | Some l => match get l pc with
                | None => Ok s
                | Some m => do i <- calc_from_units_volt r (m_i m); do q <- calc_from_units_volt r (m_q m); Ok {| o_i := i; o_q := q; o_cal := m_cal m |}
                end
    end
  else Ok s.
Definition configure_mixer_offsets (r : bounded) (mix : option (dict mixer)) (pcs : dict path) : result (chset * chset) :=
  do a <- foldM (offset_step r mix "complex_output_0") pcs nochset;
  do b <- foldM (offset_step r mix "complex_output_1") pcs nochset; Ok (a, b).
(** the ranges of the modules, instrument_compilers.py l.178, 288, 307, 334, 359 *)
Definition offset_range (k : kind) : bounded :=
  match k with
  | QCM => {| b_min := -5 # 2; b_max := 5 # 2; b_units := "V" |}
  | QRM => {| b_min := -1 # 2; b_max := 1 # 2; b_units := "V" |}
  | _ => {| b_min := -50 # 1; b_max := 50 # 1; b_units := "mV" |}
  end.

(** l.1204-1260 [RFModuleCompiler.assign_attenuation]. [math.isclose(value % 1, 0)] has no absolute tolerance: it holds for integers only. *)
Definition convert_to_int (v : option Q) : result (option Z) :=
  match v with None => Ok None | Some x => if Qeq_bool (x - inject_Z (Qfloor x)) 0 then Ok (Some (Qfloor x)) else Err ValueError end.
(** [cfg.get(portclock)] *)
Definition att_of (cfg : option (dict Q)) (pc : string) : option Q := match cfg with None => None | Some l => get l pc end.
Definition in_step (cfg : option (dict Q)) (v : option Q) (e : string * path) : option Q :=
  let '(pc, p) := e in if String.eqb (p_ch p) "complex_input_0" then match cfg with Some _ => att_of cfg pc | None => v end else v.
Record atts := { a_in0 : option Q; a_out0 : option Q; a_out1 : option Q }.
Definition att_step (ic oc : option (dict Q)) (s : atts) (e : string * path) : result atts :=
  let '(pc, p) := e in
  do s1 <- (if String.eqb (p_ch p) "complex_output_0" then
              do i <- match att_of ic pc with
                      | None => Ok (a_in0 s)
                      | Some v => match a_in0 s with Some _ => Err ValueError | None => Ok (Some v) end
                      end;
              Ok {| a_in0 := i; a_out0 := match oc with Some _ => att_of oc pc | None => a_out0 s end; a_out1 := a_out1 s |}
            else Ok s);
  Ok (if String.eqb (p_ch p) "complex_output_1" then {| a_in0 := a_in0 s1; a_out0 := a_out0 s1; a_out1 := match oc with Some _ => att_of oc pc | None => a_out1 s1 end |} else s1).
(** in0_att, out0_att, out1_att *)
Definition assign_attenuation (ic oc : option (dict Q)) (pcs : dict path) : result (option Z * option Z * option Z) :=
  let i := fold_left (in_step ic) pcs None in
  do s <- foldM (att_step ic oc) pcs {| a_in0 := i; a_out0 := None; a_out1 := None |};
  do x <- convert_to_int (a_in0 s); do y <- convert_to_int (a_out0 s); do z <- convert_to_int (a_out1 s); Ok (x, y, z).

(** l.903-950 [_ensure_single_scope_mode_acquisition_sequencer]: sequencers by index, with the protocols of their acquisitions *)
Definition scope_step (s : option Z) (e : Z * list string) : result (option Z) :=
  let '(i, protocols) := e in
  if existsb (String.eqb "Trace") protocols then match s with Some _ => Err ValueError | None => Ok (Some i) end else Ok s.
Definition ensure_single_scope (seqs : list (Z * list string)) : result unit := do _ <- foldM scope_step seqs None; Ok tt.
