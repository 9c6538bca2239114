(** Model of the settings a sequencer of an analog module starts with, and of what is written to them until the program is complete: AnalogSequencerSettings (backends/types/qblox.py l.80-127, l.765-863), SequencerOptions and QbloxMixerCorrections (types/qblox.py l.1426-1470, l.1512-1575), AnalogSequencerCompiler (backends/qblox/analog.py l.97-204), the frequencies of a sequencer (analog.py l.653-694, l.961-1022, l.1072-1203), and its acquisitions (analog.py l.227-415, AcqSetModel).
    Floats are rationals; NaN, which the code treats as "not given", is [None]. *)
From Verif Require Import Base CircModel PathModel JsonModel QbModel FreqModel AcqSetModel.
From Coq Require Import Ascii.
Local Open Scope string_scope.
Local Open Scope list_scope.

(** ** Options of a port-clock *)
(** types/qblox.py l.1512-1575: the fields of SequencerOptions as given (absent: the default); qasm_hook_func has no part in the settings *)
Record raw_options := { g_off_I : option Q; g_off_Q : option Q; g_gain_I : option Q; g_gain_Q : option Q; g_ttl : option Q }.
(** [Field(default=.., ge=.., le=..)]: a ValidationError is a ValueError *)
Definition field (default lo hi : Q) (v : option Q) : result Q :=
  match v with None => Ok default | Some q => if Qle_bool lo q && Qle_bool q hi then Ok q else Err ValueError end.
(** types/qblox.py l.1426-1470 with constants.py l.60-75: what the sequencer takes from QbloxMixerCorrections (the offsets are settings of the module) *)
Record raw_mixer := { g_ratio : option Q; g_phase : option Q; g_sideband : sb_mode }.
(** The channel description (types/qblox.py l.986-1047); a description that is not given is a default one, chosen by the name of the channel (qblox_backend.py l.1331-1348), so its class always is that of the name. *)
Record desc := { d_downconverter : option Q; d_mix_lo : bool }.
(** [_SequencerCompilationConfig] (qblox_backend.py l.1719-1745), of its fields those that are read here *)
Record cfg := { c_channel : string; c_measure : option (list string); c_desc : option desc; c_options : option raw_options; c_interm : option Q; c_mixer : option raw_mixer }.
Inductive chclass := CComplex | CReal | CDigital.
(** qblox_backend.py l.1342-1348: by [startswith] *)
Definition class_of (ch : string) : result chclass :=
  if String.prefix "real" ch then Ok CReal else if String.prefix "complex" ch then Ok CComplex else if String.prefix "digital" ch then Ok CDigital else Err ValueError.

(** ** Channels *)
(** types/qblox.py l.95-98 *)
Definition io_indices (mode idx : string) : result (list Z) := do i <- py_int idx; Ok (if String.eqb mode "complex" then [2 * i; 2 * i + 1]%Z else [i]).
(** l.100-103 *)
Definition output_indices (ch : string) : result (list Z) :=
  match split_on "_" ch with [mode; io; idx] => if contains "output" io then io_indices mode idx else Ok [] | _ => Err ValueError end.
(** l.105-124 *)
Definition input_indices (ch : string) (meas : option (list string)) : result (list Z) :=
  match split_on "_" ch with
  | [mode; io; idx] =>
      if contains "input" io then match meas with None => io_indices mode idx | Some _ => Ok [] end
      else match meas with
           | None => Ok []
           | Some [m] => match split_on "_" m with [mode'; _; idx'] => io_indices mode' idx' | _ => Err ValueError end
           | Some _ => Ok [0; 1]%Z
           end
  | _ => Err ValueError
  end.
(** instrument_compilers.py l.297-345: default_markers of the RF modules; None: there is no table *)
Definition default_markers (k : kind) : option (dict Z) :=
  match k with
  | QCM_RF => Some [("complex_output_0", 1); ("complex_output_1", 2); ("digital_output_1", 3); ("digital_output_0", 3)]%Z
  | QRM_RF => Some [("complex_input_0", 2); ("complex_output_0", 2); ("digital_output_0", 2); ("digital_output_1", 2)]%Z
  | _ => None
  end.
(** instrument_compilers.py l.363 *)
Definition default_nco_en (k : kind) : bool := match k with QRC => true | _ => false end.

(** ** AnalogSequencerCompiler.__init__: analog.py l.97-145 with types/qblox.py l.765-863; the settings and the default marker *)
Definition is_zero (o : option Q) : bool := match o with Some q => Qeq_bool q 0 | None => false end.
Definition init (k : kind) (c : cfg) : result (aset * Z) :=
  do cl <- class_of (c_channel c);
  let o := match c_options c with Some o => o | None => {| g_off_I := None; g_off_Q := None; g_gain_I := None; g_gain_Q := None; g_ttl := None |} end in
  do oi <- field 0 (-1) 1 (g_off_I o); do oq <- field 0 (-1) 1 (g_off_Q o);
  do gi <- field 1 (-1) 1 (g_gain_I o); do gq <- field 1 (-1) 1 (g_gain_Q o);
  do mx <- (match c_mixer c with
            | None => Ok (None, None, SbOff)
            | Some m => do r <- field 1 (1 # 2) 2 (g_ratio m); do p <- field 0 (-45) 45 (g_phase m); Ok (Some p, Some r, g_sideband m)
            end);
  do outs <- output_indices (c_channel c);
  do ins <- input_indices (c_channel c) (c_measure c);
  let nco := default_nco_en k || negb (is_zero (c_interm c) || match cl with CDigital => true | _ => false end || Nat.eqb (List.length outs) 0) in
  do marker <- (match default_markers k with None => Ok 0%Z | Some t => index t (c_channel c) end);
  let '(p, r, sb) := mx in
  Ok ({| sync_en := true; channel_name := c_channel c; outs := outs; ins := ins; sequence := None; triggers := [];
         QbModel.write_en := None; QbModel.write_address := None; write_invert := false;
         nco_en := nco; offset_I := oi; offset_Q := oq; gain_I := gi; gain_Q := gq; mod_freq := c_interm c; mixer_phase := p; mixer_gain := r; auto_sb := sb;
         QbModel.integration_length := None; thr_threshold := None; thr_rotation := None; QbModel.ttl_input := None; ttl_threshold := g_ttl o; QbModel.ttl_auto := None |}, marker).

(** ** Frequencies *)
Definition with_freq (s : aset) (f : option Q) : aset :=
  {| sync_en := sync_en s; channel_name := channel_name s; outs := outs s; ins := ins s; sequence := sequence s; triggers := triggers s;
     QbModel.write_en := QbModel.write_en s; QbModel.write_address := QbModel.write_address s; write_invert := write_invert s;
     nco_en := nco_en s; offset_I := offset_I s; offset_Q := offset_Q s; gain_I := gain_I s; gain_Q := gain_Q s; mod_freq := f; mixer_phase := mixer_phase s; mixer_gain := mixer_gain s; auto_sb := auto_sb s;
     QbModel.integration_length := QbModel.integration_length s; thr_threshold := thr_threshold s; thr_rotation := thr_rotation s; QbModel.ttl_input := QbModel.ttl_input s; ttl_threshold := ttl_threshold s; QbModel.ttl_auto := QbModel.ttl_auto s |}.
(** The oscillators: [ext]: that of the sequencer ([None]: it has none), with its frequency if it has one; [int]: those of an RF module *)
Record los := { ext : option (option Q); int : nat -> option Q }.
(** analog.py l.1126-1137 *)
Definition lo_indices (outs : list Z) : list nat := map (fun z => Z.to_nat (z / 2)) (filter Z.even outs).
(** l.1139-1152 *)
Definition has_lo (k : kind) (i : nat) : bool := match k with QRM_RF => Nat.ltb i 1 | QCM_RF => Nat.ltb i 2 | QRC => Nat.ltb i 6 | _ => false end.
(** l.672-689; l.961-1022 (baseband) and l.1072-1124 (RF, by FreqModel; Simplified: an index without oscillator is refused before any frequency is computed). [clock]: the frequency of the clock, if it is a resource of the schedule.
    [c_desc]: mix_lo of ComplexChannelDescription and RealChannelDescription is True by default, downconverter_freq None; real channels have no downconverter (l.127-131). *)
Definition downconverter (c : cfg) : option Q := match class_of (c_channel c), c_desc c with Ok CComplex, Some d => d_downconverter d | _, _ => None end.
Definition mixes (c : cfg) : bool := match c_desc c with Some d => d_mix_lo d | None => true end.
Definition assign (k : kind) (c : cfg) (clock : option Q) (l : los) (s : aset) : result (los * aset) :=
  match clock with
  | None => Ok (l, s)
  | Some f =>
      if contains "digital" (channel_name s) then Ok (l, s)
      else let q := {| s_clock := f; s_if := mod_freq s; s_down := downconverter c; s_mix := mixes c |} in
      if is_rf k then
        (if forallb (has_lo k) (lo_indices (outs s)) then
           do r <- assign_rf (lo_indices (outs s)) (int l) q; let '(i, q') := r in Ok ({| ext := ext l; int := i |}, with_freq s (s_if q'))
         else Err IndexError)
      else match ext l with
           | None => if nco_en s then do v <- set_if (mod_freq s) f; Ok (l, with_freq s v) else Ok (l, s)
           | Some o => do r <- assign_baseband o q; let '(o', q') := r in Ok ({| ext := Some o'; int := int l |}, with_freq s (s_if q'))
           end
  end.

(** ** The complete settings: the acquisitions (analog.py l.227-415), then the assembled sequence and the triggers it listens to *)
Definition finish (s : aset) (acqs : list acq) (sq : string) (trg : list (Z * trigger)) : result aset :=
  do a <- qrm (map Z.to_nat (ins s)) acqs;
  Ok {| sync_en := sync_en s; channel_name := channel_name s; outs := outs s; ins := ins s; sequence := Some sq; triggers := trg;
     QbModel.write_en := AcqSetModel.write_en a; QbModel.write_address := AcqSetModel.write_address a; write_invert := write_invert s;
     nco_en := nco_en s; offset_I := offset_I s; offset_Q := offset_Q s; gain_I := gain_I s; gain_Q := gain_Q s; mod_freq := mod_freq s; mixer_phase := mixer_phase s; mixer_gain := mixer_gain s; auto_sb := auto_sb s;
     QbModel.integration_length := AcqSetModel.integration_length a; thr_threshold := AcqSetModel.acq_threshold a; thr_rotation := acq_rotation a;
     QbModel.ttl_input := option_map Z.of_nat (AcqSetModel.ttl_input a); ttl_threshold := ttl_threshold s; QbModel.ttl_auto := AcqSetModel.ttl_auto a |}.
Definition settings (k : kind) (c : cfg) (clock : option Q) (l : los) (acqs : list acq) (sq : string) (trg : list (Z * trigger)) : result (los * aset) :=
  do r <- init k c; do p <- assign k c clock l (fst r); do s <- finish (snd p) acqs sq trg; Ok (fst p, s).
