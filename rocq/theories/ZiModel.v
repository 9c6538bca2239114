(** Model of the Zurich Instruments backend: backends/zhinst_backend.py, backends/zhinst/seqc_il_generator.py, and the parts of backends/types/zhinst.py and backends/zhinst/settings.py it uses.
    Times are exact rationals in seconds (the code: floats). The flattening of subschedules is in ZiFlat. *)
From Verif Require Import Base NumericModel PathModel JsonModel.
From Coq Require Import Ascii.
Open Scope Q_scope.

(* ------------------------------------------------------------------ *)
(** * The input: schedule and hardware configuration *)

Inductive protocol := SSBIntegrationComplex | Trace | OtherProtocol (name : string).
Inductive bin_mode := Average | Append | OtherBinMode.
(** One entry of an operation's [pulse_info] or [acquisition_info]. [i_wave] stands for the keys that describe the waveform (wf_func and its arguments; for an acquisition the list [waveforms]); [i_weights]: len(waveforms) of an acquisition; [i_is_acq]: "acq_channel" or "bin_mode" is a key. *)
Record info := { i_port : option string; i_clock : option string; i_t0 : Q; i_duration : Q; i_is_acq : bool; i_reference_magnitude : bool;
                 i_wave : Z; i_weights : nat; i_acq_channel : nat; i_protocol : protocol; i_bin_mode : bin_mode }.
(** [o_str]: str(operation); [o_unsupported]: it is a ControlFlowOperation or a SetClockFrequency *)
Record operation := { o_str : string; o_pulses : list info; o_acqs : list info; o_unsupported : bool }.
(** schedule.operations (hash, operation) in dict order; schedule.schedulables: (operation_id, abs_time) in order *)
Record schedule := { s_operations : list (Z * operation); s_schedulables : list (Z * option Q); s_repetitions : Z }.

Inductive marker := MarkerName (s : string) | MarkerNumber (z : Z).
(** types/zhinst.py l.118-150 [Output]; [out_modulate]: modulation type "modulate"; [out_real]: mode "real"; [out_settings]: modulation, mixer corrections and gains *)
Record output := { out_port : string; out_clock : string; out_trigger : option Z; out_markers : list marker; out_modulate : bool; out_real : bool; out_settings : Z }.
Inductive device_kind := HDAWG8 | HDAWG4 | UHFQA | OtherDevice.
(** one entry of hardware_cfg["devices"]; [d_channels]: the keys channel_<n> with their values, in dict order *)
Record device := { d_name : string; d_kind : device_kind; d_clock_select : Z; d_grouping : Z; d_channels : list (nat * output) }.

(* ------------------------------------------------------------------ *)
(** * Timing table *)

(** A row of the timing table; [label]: the pandas index label. *)
Record row := { r_operation : string; r_wf_op_id : string; r_port : option string; r_clock : option string; r_time : Q; r_duration : Q; r_is_acq : bool; r_wf_idx : nat; r_label : nat }.
Definition retime (r : row) (t : Q) : row :=
  {| r_operation := r_operation r; r_wf_op_id := r_wf_op_id r; r_port := r_port r; r_clock := r_clock r; r_time := t; r_duration := r_duration r; r_is_acq := r_is_acq r; r_wf_idx := r_wf_idx r; r_label := r_label r |}.
Definition relabel (r : row) (n : nat) : row :=
  {| r_operation := r_operation r; r_wf_op_id := r_wf_op_id r; r_port := r_port r; r_clock := r_clock r; r_time := r_time r; r_duration := r_duration r; r_is_acq := r_is_acq r; r_wf_idx := r_wf_idx r; r_label := n |}.
Fixpoint zget {A} (d : list (Z * A)) (k : Z) : option A := match d with [] => None | (k', v) :: r => if Z.eqb k k' then Some v else zget r k end.
(** schedules/schedule.py l.493-511: the rows of one operation; pulses and acquisitions are numbered separately *)
Definition operation_rows (o : operation) (t : Q) : list row :=
  let mk := fun '(n, i) => {| r_operation := o_str o; r_wf_op_id := (o_str o ++ "_acq_" ++ dec_Z (Z.of_nat n))%string; r_port := i_port i; r_clock := i_clock i; r_time := t + i_t0 i; r_duration := i_duration i; r_is_acq := i_is_acq i; r_wf_idx := n; r_label := 0%nat |} in
  map mk (combine (seq 0 (List.length (o_pulses o))) (o_pulses o)) ++ map mk (combine (seq 0 (List.length (o_acqs o))) (o_acqs o)).
(** schedule.py l.459-511 for a schedule without control flow and without subschedules (zhinst_backend.py l.547-548 rejects the former, ZiFlat removes the latter) *)
Definition schedule_rows (s : schedule) : result (list row) :=
  do ls <- mapM (fun '(h, a) => match a with None => Err ValueError | Some t => match zget (s_operations s) h with None => Err KeyError | Some o => Ok (operation_rows o t) end end) (s_schedulables s);
  Ok (List.concat ls).
(** schedule.py l.606-612 [timing_table]: pd.concat numbers the rows (and raises on an empty list), then sort_values keeps these labels. [srt] is what [sort_values("abs_time")] does; it does not promise an order among equal times. *)
Definition timing_table (srt : list row -> list row) (s : schedule) : result (list row) :=
  do rows <- schedule_rows s;
  match rows with [] => Err ValueError | _ => Ok (srt (map (fun '(n, r) => relabel r n) (combine (seq 0 (List.length rows)) rows))) end.

(** zhinst_backend.py l.522-548 [_validate_schedule] *)
Definition validate_schedule (s : schedule) : result unit :=
  match s_schedulables s with
  | [] => Err ValueError
  | _ => if negb (forallb (fun '(_, a) => match a with Some _ => true | None => false end) (s_schedulables s)) then Err ValueError
         else do _ <- mapM (fun '(_, o) => if existsb i_reference_magnitude (o_pulses o) then Err NotImplementedErr else if o_unsupported o then Err NotImplementedErr else Ok tt) (s_operations s); Ok tt
  end.

(* ------------------------------------------------------------------ *)
(** * Hardware channels *)

(** The hardware channel "<device>.awg<n>", kept as a pair (the name of a QCoDeS instrument has no dot). *)
Definition chan := (string * nat)%type.
(** l.163-184 [_extract_port_clock_channelmapping]: later entries overwrite earlier ones *)
Definition port_clock_map (devs : list device) : list (string * chan) :=
  flat_map (fun d => map (fun '(n, o) => ((out_port o ++ "-" ++ out_clock o)%string, (d_name d, n))) (d_channels d)) devs.
Fixpoint last_get {A} (d : list (string * A)) (k : string) : option A :=
  match d with [] => None | (k', v) :: r => match last_get r k with Some v' => Some v' | None => if String.eqb k k' then Some v else None end end.
(** l.267-287 [_add_channel_information] *)
Definition channel_of (m : list (string * chan)) (r : row) : result (option chan) :=
  match r_port r, r_clock r with
  | Some p, Some c => match last_get m (p ++ "-" ++ c) with Some ch => Ok (Some ch) | None => Err KeyError end
  | _, _ => Ok None
  end.

(** Python's [s.split("-")], unpacked in two: l.300 *)
Fixpoint split_dash (s : string) : list string :=
  match s with
  | EmptyString => [EmptyString]
  | String a r => let l := split_dash r in if Ascii.eqb a "-"%char then EmptyString :: l else match l with [] => [String a EmptyString] | x :: l' => String a x :: l' end
  end.
(** l.290-306 [_apply_latency_corrections]; [lat]: what corrections.py l.32-98 returns *)
Definition apply_latency (lat : list (string * Q)) (rows : list row) : result (list row) :=
  foldM (fun rows '(k, dt) => match split_dash k with
    | [p; c] => Ok (map (fun r => match r_port r, r_clock r with Some p', Some c' => if String.eqb p' p && String.eqb c' c then retime r (r_time r + dt) else r | _, _ => r end) rows)
    | _ => Err ValueError end) lat rows.

(** l.110-113 [DEVICE_SAMPLING_RATES] for clock_select 0, chosen by the name in the channel: l.199-220 *)
Definition name_rate (device_name : string) : result Z :=
  if contains "uhfqa" device_name then Ok 1800000000%Z else if contains "hdawg" device_name then Ok 2400000000%Z else Err NotImplementedErr.
(** numpy's [round(x, decimals=3)] *)
Definition round3 (x : Q) : Q := inject_Z (py_round (x * 1000)) / 1000.
(** np.isclose(a, b, atol=0.0001), rtol = 1e-05 *)
Definition isclose (a b : Q) : bool := Qle_bool (Qabs (a - b)) ((1 # 10000) + (1 # 100000) * Qabs b).
(** l.187-242 [_determine_clock_sample_start] *)
Definition clock_sample (ch : chan) (t : Q) : result (Z * Q) :=
  do fs <- name_rate (fst ch);
  let fc := inject_Z fs / 8 in
  let c := Qfloor (round3 (t * fc)) in
  let s := (t - inject_Z c / fc) * inject_Z fs in
  if isclose s (inject_Z (py_round s)) then Ok (c, s) else Err ValueError.

(** A row with its hardware channel and, if it has one, its clock cycle and sample. *)
Record entry := { e_row : row; e_channel : option chan; e_start : option (Z * Q); e_id : string }.
(** l.245-264, l.409-431 [_add_clock_sample_starts] *)
Definition add_starts (l : list (row * option chan)) : result (list entry) :=
  mapM (fun '(r, ch) => match ch with None => Ok {| e_row := r; e_channel := None; e_start := None; e_id := "" |}
                                    | Some c => do cs <- clock_sample c (r_time r); Ok {| e_row := r; e_channel := ch; e_start := Some cs; e_id := "" |} end) l.

(* ------------------------------------------------------------------ *)
(** * Measurement fix-point correction *)

(** l.309-357 [_determine_measurement_fixpoint_correction]; the result is the correction in UHFQA samples (the time shift is that divided by 1.8e9) *)
Definition fixpoint_correction (start : Z) (common : Q) : result Z :=
  let k := 1800000000 / common in
  if negb (Qeq_bool k (inject_Z (Qfloor k))) then Err ValueError
  else match find (fun i => Z.eqb ((Z.of_nat i * Qfloor k) mod 8) ((- start) mod 8)) (seq 0 10) with
       | Some i => Ok (Z.of_nat i * Qfloor k)%Z
       | None => Err ValueError
       end.
(** numpy's [l[n:] += x] *)
Fixpoint add_from (n : nat) (x : Z) (l : list Z) : list Z :=
  match l with [] => [] | y :: r => match n with O => (y + x)%Z :: add_from O x r | S n' => y :: add_from n' x r end end.
(** l.378-401: the loop over the acquisitions (index label, sample start); [round(nan)] raises *)
Fixpoint correction_loop (common : Q) (acqs : list (nat * option Q)) (prev : nat) (cumulative : Z) (corr : list Z) : result (list Z) :=
  match acqs with
  | [] => Ok corr
  | (label, s) :: rest =>
      match s with
      | None => Err ValueError
      | Some s => do c <- fixpoint_correction (py_round (s + inject_Z cumulative)) common;
                  correction_loop common rest (S label) (cumulative + c) (add_from prev c corr)
      end
  end.
(** l.360-406 [_apply_measurement_fixpoint_correction] *)
Definition apply_fixpoint (common : Q) (l : list entry) : result (list entry) :=
  do corr <- correction_loop common (map (fun e => (r_label (e_row e), option_map snd (e_start e))) (filter (fun e => r_is_acq (e_row e)) l)) 0 0 (map (fun _ => 0%Z) l);
  add_starts (map (fun '(e, c) => (retime (e_row e) (r_time (e_row e) + inject_Z c / 1800000000), e_channel e)) (combine l corr)).

(* ------------------------------------------------------------------ *)
(** * Waveform ids *)

(** [cut pat s]: what precedes and what follows the first occurrence of [pat] *)
Fixpoint cut (pat s : string) : option (string * string) :=
  if String.prefix pat s then Some (EmptyString, substring (String.length pat) (String.length s - String.length pat) s)
  else match s with EmptyString => None | String a r => match cut pat r with Some (x, y) => Some (String a x, y) | None => None end end.
(** what follows the last occurrence of the character [c] *)
Fixpoint after_last (c : ascii) (s : string) : option string :=
  match s with EmptyString => None | String a r => match after_last c r with Some x => Some x | None => if Ascii.eqb a c then Some r else None end end.
(** Python's [re.sub(pat + ".*" + c, by, s)] for a literal [pat] and a text without line breaks: the first occurrence of [pat] and everything up to the last [c] after it *)
Definition sub_greedy (pat : string) (c : ascii) (by_ s : string) : string :=
  match cut pat s with
  | Some (x, y) => match after_last c y with Some z => (x ++ by_ ++ z)%string | None => s end
  | None => s
  end.
(** l.446-448 *)
Definition strip_acq_index (s : string) : string :=
  sub_greedy "acq_index=" ")"%char "acq_index=*," (sub_greedy "acq_index=" ","%char "acq_index=*," (sub_greedy "acq_index=(" ")"%char "acq_index=(*)" s)).
(** Python's [f"{x:.1f}"] for x >= 0 (ties to even on the exact value), l.453 *)
Definition fixed1 (x : Q) : string := let z := py_round (x * 10) in (dec_Z (z / 10) ++ "." ++ dec_Z (z mod 10))%string.
(** l.443-454 [_determine_waveform_id]; a missing sample is printed nan *)
Definition waveform_id (wf_op_id : string) (sample : option Q) : string :=
  (strip_acq_index wf_op_id ++ "_sample:" ++ match sample with Some s => fixed1 (Qabs s) | None => "nan" end ++ "_phase:0.0")%string.
(** l.434-462 [_add_waveform_ids] *)
Definition add_ids (l : list entry) : list entry :=
  map (fun e => {| e_row := e_row e; e_channel := e_channel e; e_start := e_start e; e_id := waveform_id (r_wf_op_id (e_row e)) (option_map snd (e_start e)) |}) l.

(** l.123-160 [ensure_no_operations_overlap]: per channel, over the rows whose is_acquisition is not False, a row against the one before it *)
Definition chan_eqb (a b : chan) : bool := String.eqb (fst a) (fst b) && Nat.eqb (snd a) (snd b).
Definition on_channel (ch : chan) (e : entry) : bool := match e_channel e with Some c => chan_eqb c ch | None => false end.
Fixpoint neighbours_overlap (l : list row) : bool :=
  match l with a :: ((b :: _) as r) => Qlt_bool (r_time b) (r_time a + r_duration a) || neighbours_overlap r | _ => false end.
Definition ensure_no_overlap (l : list entry) : result unit :=
  if existsb (fun e => match e_channel e with None => false | Some ch => neighbours_overlap (map e_row (filter (fun e' => on_channel ch e' && r_is_acq (e_row e')) l)) end) l then Err ValueError else Ok tt.

(* ------------------------------------------------------------------ *)
(** * Devices *)

(** l.500-519 [_parse_devices] and types/zhinst.py l.226-243: channel_0 is required, absent channels are skipped; clock_select must be below 14 *)
Definition find_channel (d : device) (n : nat) : option output := match find (fun c => Nat.eqb (fst c) n) (d_channels d) with Some (_, o) => Some o | None => None end.
Definition channel_list (d : device) : list output := flat_map (fun n => match find_channel d n with Some o => [o] | None => [] end) [0; 1; 2; 3]%nat.
Definition base_rate (k : device_kind) : Z := match k with UHFQA => 1800000000 | _ => 2400000000 end.
(** zhinst/helpers.py l.405-426 [get_sampling_rates] *)
Definition sample_rate (d : device) : Z := (base_rate (d_kind d) / 2 ^ d_clock_select d)%Z.
Definition parse_device (d : device) : result unit :=
  if match find_channel d 0 with None => true | Some _ => false end then Err ValueError
  else match d_kind d with OtherDevice => Err NotImplementedErr | _ => if (0 <=? d_clock_select d)%Z && (d_clock_select d <? 14)%Z then Ok tt else Err ValueError end.

(* ------------------------------------------------------------------ *)
(** * Waveform table *)

(** The numerical waveform, by everything it is computed from: the info, the duration of the row, the sampling rate, the output (modulation and mixer corrections), and whether it is a pulse or an integration weight (l.552-618; the start passed is always 0, so that the sample at which the row starts has no effect). *)
Record wave := { w_info : info; w_duration : Q; w_rate : Z; w_output : output; w_is_pulse : bool }.
(** length after helpers/waveforms.py l.80-108 with granularity 16, of np.arange(0, duration, 1/rate) *)
Definition wave_length (w : wave) : Z := let n := Z.max 0 (Qceiling (i_duration (w_info w) * inject_Z (w_rate w))) in if (n =? 0)%Z then 16%Z else (16 * ((n + 15) / 16))%Z.
Fixpoint find_device (devs : list device) (name : string) : option device :=
  match devs with [] => None | d :: r => match find_device r name with Some d' => Some d' | None => if String.eqb (d_name d) name then Some d else None end end.
(** l.1271-1285 [_get_operations_by_repr] *)
Definition str_in (x : string) (l : list string) : bool := existsb (String.eqb x) l.
Fixpoint distinct (l : list string) : bool := match l with [] => true | x :: r => negb (str_in x r) && distinct r end.
Definition operations_by_str (s : schedule) : result (list (string * operation)) :=
  let l := map (fun '(_, o) => (o_str o, o)) (s_operations s) in if distinct (map fst l) then Ok l else Err ValueError.
Fixpoint sget {A} (d : list (string * A)) (k : string) : option A := match d with [] => None | (k', v) :: r => if String.eqb k k' then Some v else sget r k end.
Definition entry_info (ops : list (string * operation)) (r : row) : result info :=
  match sget ops (r_operation r) with
  | None => Err KeyError
  | Some o => match nth_error (if r_is_acq r then o_acqs o else o_pulses o) (r_wf_idx r) with Some i => Ok i | None => Err IndexError end
  end.
(** drop_duplicates(subset="waveform_id"): the first of each id is kept *)
Fixpoint drop_duplicates (seen : list string) (l : list entry) : list entry :=
  match l with [] => [] | e :: r => if str_in (e_id e) seen then drop_duplicates seen r else e :: drop_duplicates (e_id e :: seen) r end.
(** l.2274-2381 [construct_waveform_table]: duplicates are dropped before the rows without port (l.2299); channels[ch_idx] is taken from the list of the channels that are present (l.2319) *)
Definition wave_of (ops : list (string * operation)) (devs : list device) (e : entry) : result (option wave) :=
  match e_channel e with
  | None => Err OtherErr
  | Some (name, n) =>
      match find_device devs name with
      | None => Err KeyError
      | Some d => match nth_error (channel_list d) n with
        | None => Err IndexError
        | Some o => do i <- entry_info ops (e_row e);
            if r_is_acq (e_row e) && negb (Nat.eqb (i_weights i) 2) then Ok None
            else if out_modulate o then Err NotImplementedErr
            else let w := {| w_info := i; w_duration := r_duration (e_row e); w_rate := sample_rate d; w_output := o; w_is_pulse := negb (r_is_acq (e_row e)) |} in
                 if r_is_acq (e_row e) && (4096 <? wave_length w)%Z then Err ValueError else Ok (Some w)
        end
      end
  end.
Definition waveform_table (l : list entry) (ops : list (string * operation)) (devs : list device) : result (list (string * wave)) :=
  do ws <- mapM (fun e => do w <- wave_of ops devs e; Ok (match w with Some w => [(e_id e, w)] | None => [] end))
                (filter (fun e => match r_port (e_row e) with Some _ => true | None => false end) (drop_duplicates [] l));
  Ok (List.concat ws).

(* ------------------------------------------------------------------ *)
(** * Sequencer programs *)

Inductive trigger_value := TriggerNumber (z : Z) | TriggerNames (l : list string).
(** the statements the backend emits; seqc_il_generator.py *)
Inductive stmt := SetTrigger (v : trigger_value) | WaitDigTrigger (index : Z) | Wait (n : Z) | ExecuteTableEntry (index : nat) | PlayWave (wave_var : nat) | StartQA.
(** [p_placeholders]: [wave w<n> = placeholder(len); assignWaveIndex(w<n>, w<n>, n)]; [p_csv]: [wave w<n> = "<device>_awg0_wave<n>"]; then [p_before], and [p_body] p_repetitions times *)
Record program := { p_placeholders : list (nat * Z); p_csv : list (nat * (string * nat)); p_before : list stmt; p_repetitions : Z; p_body : list stmt }.
Inductive instruction := Acquisition (id : string) (clock : Z) | Wave (id : string) (clock : Z).
(** l.621-650 [_get_instruction_list] *)
Definition instruction_of (e : entry) : list instruction :=
  match e_start e with Some (c, _) => [if r_is_acq (e_row e) then Acquisition (e_id e) c else Wave (e_id e) c] | None => [] end.
(** l.1733-1738, l.1997-2002: ids numbered in the order of the rows *)
Definition id_mapping (l : list entry) : list (string * nat) := let ids := map e_id (drop_duplicates [] l) in combine ids (seq 0 (List.length ids)).

(** seqc_il_generator.py l.521-578 [add_wait]: the statement and the clocks counted for it *)
Definition add_wait_hdawg (delay : Z) : result (stmt * Z) := if (delay <? 0)%Z then Err AssertionErr else if (delay - 3 <? 0)%Z then Err ValueError else Ok (Wait (delay - 3), delay).
Definition add_wait_uhfqa (delay : Z) : result (stmt * Z) := if (delay <? 0)%Z then Err AssertionErr else Ok (Wait delay, delay).
(** seqc_il_generator.py l.697-737 [add_set_trigger] on the HDAWG; [" + ".join] raises on a number *)
Definition marker_names (l : list marker) : result (list string) := mapM (fun m => match m with MarkerName s => Ok s | MarkerNumber _ => Err TypeError end) l.
Definition set_trigger_clocks (v : trigger_value) : Z := match v with TriggerNumber _ => 1 | TriggerNames l => 1 + Z.min (Z.of_nat (List.length l) - 1) 2 end.
(** int(x) *)
Definition py_int (x : Q) : Z := if Qle_bool 0 x then Qfloor x else Qceiling x.

(** l.1854-1893: the waits and table entries *)
Fixpoint hdawg_instructions (ids : list (string * nat)) (is_ : list instruction) (clock : Z) : result (list stmt * Z) :=
  match is_ with
  | [] => Ok ([], clock)
  | Acquisition _ _ :: _ => Err AssertionErr
  | Wave id c :: r =>
      if (c - clock <? 0)%Z then Err ValueError
      else do w <- add_wait_hdawg (c - clock);
           match sget ids id with
           | None => Err KeyError
           | Some n => do rest <- hdawg_instructions ids r (clock + snd w); Ok (fst w :: ExecuteTableEntry n :: fst rest, snd rest)
           end
  end.
(** the command table: entry number, waveform index, length *)
Definition command_table := list (nat * (nat * Z)).
(** l.1791-1915 [_assemble_hdawg_sequence] *)
Definition assemble_hdawg (is_ : list instruction) (ids : list (string * nat)) (wf : list (string * wave)) (repetitions : Z) (duration : Q) (markers : list marker) (trigger : option Z) : result (program * command_table) :=
  do lens <- mapM (fun '(id, n) => match last_get wf id with None => Err KeyError | Some w => Ok (n, wave_length w) end) ids;
  do start <- match markers, trigger with
              | _ :: _, _ => do names <- marker_names markers; Ok (SetTrigger (TriggerNames names), set_trigger_clocks (TriggerNames names))
              | [], Some t => if (t =? 1)%Z || (t =? 2)%Z then Ok (WaitDigTrigger t, 0%Z) else Err AssertionErr
              | [], None => let v := TriggerNames ["AWG_MARKER1"; "AWG_MARKER2"]%string in Ok (SetTrigger v, set_trigger_clocks v)
              end;
  do body <- hdawg_instructions ids is_ (snd start);
  let clock := (snd body + set_trigger_clocks (TriggerNumber 0))%Z in
  let total := py_int (duration * 300000000) in
  do tail <- match trigger with None => do w <- add_wait_hdawg (total - clock); Ok [fst w] | Some _ => Ok [] end;
  Ok ({| p_placeholders := lens; p_csv := []; p_before := [SetTrigger (TriggerNumber 0)]; p_repetitions := repetitions;
         p_body := fst start :: fst body ++ SetTrigger (TriggerNumber 0) :: tail |},
      combine (seq 0 (List.length lens)) lens).

(** l.2238-2266 *)
Fixpoint uhfqa_instructions (ids : list (string * nat)) (is_ : list instruction) (clock : Z) : result (list stmt) :=
  match is_ with
  | [] => Ok []
  | i :: r =>
      let c := match i with Acquisition _ c | Wave _ c => c end in
      if (c - clock <? 0)%Z then Err ValueError
      else do w <- add_wait_uhfqa (c - clock);
           match i with
           | Acquisition _ _ => do rest <- uhfqa_instructions ids r (clock + snd w + 7); Ok (fst w :: StartQA :: rest)
           | Wave id _ => match sget ids id with None => Err KeyError | Some n => do rest <- uhfqa_instructions ids r (clock + snd w); Ok (fst w :: PlayWave n :: rest) end
           end
  end.
(** l.2190-2271 [_assemble_uhfqa_sequence]; comparing a missing trigger raises TypeError *)
Definition assemble_uhfqa (is_ : list instruction) (ids : list (string * nat)) (repetitions : Z) (device_name : string) (trigger : option Z) : result program :=
  match trigger with
  | None => Err TypeError
  | Some t => if negb ((t <? 5)%Z && (0 <? t)%Z) then Err AssertionErr
      else do body <- uhfqa_instructions ids is_ 0;
           Ok {| p_placeholders := []; p_csv := map (fun '(_, n) => (n, (device_name, n))) ids; p_before := []; p_repetitions := repetitions; p_body := WaitDigTrigger t :: body |}
  end.

(** what is uploaded to one AWG: l.1637-1656 [_add_wave_nodes] skips ids without a numerical waveform *)
Record awg := { a_index : nat; a_program : program; a_table : command_table; a_waves : list (nat * wave) }.
Definition wave_nodes (ids : list (string * nat)) (wf : list (string * wave)) : list (nat * wave) :=
  flat_map (fun '(id, n) => match last_get wf id with Some w => [(n, w)] | None => [] end) ids.

(** l.97-108, l.1691-1704: the AWGs that get a program *)
Definition n_awgs (d : device) : nat := match d_kind d with HDAWG8 => 4 | HDAWG4 => 2 | _ => 0 end.
Definition sequencer_step (d : device) : result nat :=
  match d_kind d, d_grouping d with
  | HDAWG8, 0%Z | HDAWG4, 0%Z => Ok 1%nat | HDAWG8, 1%Z | HDAWG4, 1%Z => Ok 2%nat | HDAWG8, 2%Z => Ok 4%nat
  | _, _ => Err KeyError
  end.
Definition enabled_awgs (d : device) (step : nat) : list nat :=
  let stop := Nat.min (List.length (channel_list d)) (n_awgs d / step) in filter (fun n => Nat.ltb n stop && Nat.eqb (n mod step) 0) (seq 0 (n_awgs d)).
(** max over the whole table, l.1680 *)
Definition schedule_duration (l : list entry) : Q :=
  match map (fun e => r_time (e_row e) + r_duration (e_row e)) l with [] => 0 | x :: r => fold_left (fun a b => if Qlt_bool a b then b else a) r x end.
(** l.1659-1788 [_compile_for_hdawg] (the settings other than programs, command tables and waveforms are not modelled) *)
Definition compile_hdawg (d : device) (l : list entry) (wf : list (string * wave)) (repetitions : Z) : result (list awg) :=
  do step <- sequencer_step d;
  mapM (fun n =>
    let mine := filter (on_channel (d_name d, n)) l in
    match nth_error (channel_list d) n with
    | None => Err IndexError
    | Some o => do pt <- assemble_hdawg (flat_map instruction_of mine) (id_mapping mine) wf repetitions (schedule_duration l) (out_markers o) (out_trigger o);
                Ok {| a_index := n; a_program := fst pt; a_table := snd pt; a_waves := wave_nodes (id_mapping mine) wf |}
    end) (enabled_awgs d step).

(* ------------------------------------------------------------------ *)
(** * UHFQA *)

(** Where a weight vector comes from: all zeros, all ones, or the real/imaginary part (possibly negated) of a waveform, followed by zeros up to 4096 samples. *)
Inductive weights := Zeros | Ones | RealPart (w : wave) | ImagPart (w : wave) | MinusRealPart (w : wave).
Record node := { n_real : weights; n_imag : weights }.
Inductive resolver := MonitorWaves | ResultWaves (first second : nat).
(** [q_weights]: qas/0/integration/weights/<n>/{real,imag}, n < 10; [q_length], [q_averages]: qas/0/result/{length,averages}; [q_integration]: qas/0/integration/length; [q_n_acquisitions], [q_resolvers]: ZIAcquisitionConfig *)
Record qa := { q_weights : list node; q_length : option Z; q_averages : option Z; q_integration : option Z; q_n_acquisitions : nat; q_resolvers : list (nat * resolver); q_bin_mode : bin_mode }.
Fixpoint set_nth {A} (n : nat) (x : A) (l : list A) : list A := match l, n with [], _ => [] | _ :: r, O => x :: r | y :: r, S n' => y :: set_nth n' x r end.
(** dict assignment *)
Fixpoint nput {A} (k : nat) (v : A) (d : list (nat * A)) : list (nat * A) := match d with [] => [(k, v)] | (k', v') :: r => if Nat.eqb k k' then (k, v) :: r else (k', v') :: nput k v r end.
Record acq_state := { as_duration : option Q; as_channels : list nat; as_weights : list node; as_resolvers : list (nat * resolver) }.
(** l.2070-2152: one unique acquisition *)
Definition acq_step (ops : list (string * operation)) (wf : list (string * wave)) (st : acq_state) (e : entry) : result acq_state :=
  do i <- match sget ops (r_operation (e_row e)) with None => Err KeyError | Some o => match nth_error (o_acqs o) (r_wf_idx (e_row e)) with Some i => Ok i | None => Err IndexError end end;
  let dur := match as_duration st with Some d => d | None => i_duration i end in
  if negb (Qeq_bool dur (i_duration i)) then Err ValueError
  else match i_protocol i with
  | OtherProtocol _ => Err ValueError
  | p =>
      let c := i_acq_channel i in
      if existsb (Nat.eqb c) (as_channels st) then Err ValueError
      else match p with
      | Trace => Ok {| as_duration := Some dur; as_channels := as_channels st ++ [c]; as_weights := map (fun _ => {| n_real := Ones; n_imag := Ones |}) (as_weights st); as_resolvers := nput c MonitorWaves (as_resolvers st) |}
      | _ => match last_get wf (e_id e) with
             | None => Err KeyError
             | Some w => if Nat.leb 10 (2 * c + 1) then Err ValueError
                 else Ok {| as_duration := Some dur; as_channels := as_channels st ++ [c];
                            as_weights := set_nth (2 * c + 1) {| n_real := ImagPart w; n_imag := MinusRealPart w |} (set_nth (2 * c) {| n_real := RealPart w; n_imag := ImagPart w |} (as_weights st));
                            as_resolvers := nput c (ResultWaves (2 * c) (2 * c + 1)) (as_resolvers st) |}
             end
      end
  end.
(** l.1918-2187 [_compile_for_uhfqa]: only the awg 0; [bin_mode] comes from zhinst/helpers.py l.429-552 *)
Definition compile_uhfqa (d : device) (l : list entry) (wf : list (string * wave)) (repetitions : Z) (ops : list (string * operation)) (bm : bin_mode) : result (awg * qa) :=
  match filter out_real (channel_list d), channel_list d with
  | [], _ | _, [] => Err IndexError
  | _ :: _, o :: _ =>
      let mine := filter (on_channel (d_name d, 0%nat)) l in
      let ids := id_mapping mine in
      do p <- assemble_uhfqa (flat_map instruction_of mine) ids repetitions (d_name d) (out_trigger o);
      let acqs := filter (fun e => r_is_acq (e_row e)) mine in
      let uniq := drop_duplicates [] acqs in
      let n := List.length acqs in
      do la <- match bm with Average => Ok (Z.of_nat n, repetitions) | Append => Ok ((Z.of_nat n * repetitions)%Z, 1%Z) | OtherBinMode => Err NotImplementedErr end;
      do st <- foldM (acq_step ops wf) uniq {| as_duration := None; as_channels := []; as_weights := repeat {| n_real := Zeros; n_imag := Zeros |} 10; as_resolvers := [] |};
      let has := match uniq with [] => false | _ => true end in
      Ok ({| a_index := 0; a_program := p; a_table := []; a_waves := wave_nodes ids wf |},
          {| q_weights := as_weights st; q_length := if has then Some (fst la) else None; q_averages := if has then Some (snd la) else None;
             q_integration := match as_duration st with Some du => if has then Some (py_round (du * inject_Z (sample_rate d))) else None | None => None end;
             q_n_acquisitions := n; q_resolvers := as_resolvers st; q_bin_mode := bm |})
  end.
(** zhinst/helpers.py l.429-552: all acquisitions of the schedule's operations have one protocol and one bin mode; acquisition_protocols[0] raises on an empty list.
    The acquisitions are taken in the order of the schedulables (helpers/schedule.py l.80-93). *)
Definition protocol_eqb (a b : protocol) : bool := match a, b with SSBIntegrationComplex, SSBIntegrationComplex | Trace, Trace => true | OtherProtocol x, OtherProtocol y => String.eqb x y | _, _ => false end.
Definition bin_mode_eqb (a b : bin_mode) : bool := match a, b with Average, Average | Append, Append | OtherBinMode, OtherBinMode => true | _, _ => false end.
Definition acquisition_bin_mode (s : schedule) : result bin_mode :=
  let infos := flat_map (fun '(h, _) => match zget (s_operations s) h with Some o => o_acqs o | None => [] end) (s_schedulables s) in
  match infos with
  | [] => Err IndexError
  | i :: _ => if forallb (fun j => protocol_eqb (i_protocol j) (i_protocol i) && bin_mode_eqb (i_bin_mode j) (i_bin_mode i)) infos then Ok (i_bin_mode i) else Err RuntimeError
  end.

(* ------------------------------------------------------------------ *)
(** * The backend *)

Inductive device_config := HdawgConfig (awgs : list awg) | UhfqaConfig (a : awg) (q : qa).
(** l.1364-1396: the timing table after all corrections *)
Definition corrected_table (srt : list row -> list row) (s : schedule) (devs : list device) (lat : list (string * Q)) : result (list entry) :=
  do t0 <- timing_table srt s;
  do chans <- mapM (channel_of (port_clock_map devs)) t0;
  do t1 <- apply_latency lat t0;
  let t2 := srt t1 in
  do t2c <- mapM (fun r => do ch <- channel_of (port_clock_map devs) r; Ok (r, ch)) t2;
  do e0 <- add_starts t2c;
  do e1 <- apply_fixpoint 600000000 e0;
  Ok (add_ids e1).
(** l.1288-1490 [compile_backend], from hardware_cfg on; distortion corrections (l.1355-1358), local oscillators (l.1465-1474) and deprecated arguments are not modelled *)
Definition compile (srt : list row -> list row) (s : schedule) (devs : list device) (lat : list (string * Q)) : result (list (string * device_config)) :=
  do _ <- validate_schedule s;
  do l <- corrected_table srt s devs lat;
  do _ <- ensure_no_overlap l;
  do _ <- mapM parse_device devs;
  do ops <- operations_by_str s;
  do wf <- waveform_table l ops devs;
  mapM (fun d => match d_kind d with
    | HDAWG8 | HDAWG4 => do awgs <- compile_hdawg d l wf (s_repetitions s); Ok (d_name d, HdawgConfig awgs)
    | UHFQA => do bm <- acquisition_bin_mode s; do r <- compile_uhfqa d l wf (s_repetitions s) ops bm; Ok (d_name d, UhfqaConfig (fst r) (snd r))
    | OtherDevice => Err NotImplementedErr
    end) devs.
