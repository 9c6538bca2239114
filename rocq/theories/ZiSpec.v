(** Vocabulary for C46-C49: what the instruments do with what the Zurich Instruments backend uploads. *)
From Verif Require Import Base ZiModel.
From Coq Require Import Permutation.
Open Scope Z_scope.

Inductive instrument := Hdawg | Uhfqa.
(** Sequencer clock cycles a statement takes (the table of seqc_il_generator.py l.29-44: documentation of the instruments). A wait for a trigger takes 0: clock 0 is the arrival of the trigger. *)
Definition clocks (i : instrument) (s : stmt) : Z :=
  match s, i with
  | SetTrigger (TriggerNumber _), _ => 1
  | SetTrigger (TriggerNames l), _ => Z.max 1 (Z.min (Z.of_nat (List.length l)) 3)
  | WaitDigTrigger _, _ => 0
  | Wait n, Hdawg => n + 3
  | Wait n, Uhfqa => n
  | ExecuteTableEntry _, _ => 0
  | PlayWave _, Hdawg => 3
  | PlayWave _, Uhfqa => 0
  | StartQA, _ => 7
  end.

(** What one statement makes the outputs and inputs do. *)
Inductive event := Plays (w : wave) | Acquires | Undefined.
Definition look {A} (d : list (nat * A)) (n : nat) : option A := match find (fun p => Nat.eqb (fst p) n) d with Some (_, v) => Some v | None => None end.
(** executeTableEntry(n): the command-table entry with index n names a waveform index, the wave node of that index holds the samples; playWave(w<n>): the variable w<n> names the file of a wave node of this device. *)
Definition effect (device_name : string) (a : awg) (s : stmt) : list event :=
  match s with
  | ExecuteTableEntry n => [match look (a_table a) n with Some (k, len) => match look (a_waves a) k, look (p_placeholders (a_program a)) k with Some w, Some len' => if (len =? wave_length w) && (len' =? wave_length w) then Plays w else Undefined | _, _ => Undefined end | None => Undefined end]
  | PlayWave n => [match look (p_csv (a_program a)) n with Some (name, k) => if String.eqb name device_name then match look (a_waves a) k with Some w => Plays w | None => Undefined end else Undefined | None => Undefined end]
  | StartQA => [Acquires]
  | _ => []
  end.
(** A sequence of statements, started at clock [t]: the events with the clock at which they happen, and the clock at the end. *)
Fixpoint run (i : instrument) (eff : stmt -> list event) (t : Z) (l : list stmt) : list (Z * event) * Z :=
  match l with
  | [] => ([], t)
  | s :: r => let (evs, e) := run i eff (t + clocks i s) r in (map (fun v => (t, v)) (eff s) ++ evs, e)
  end.
(** The statements an instrument accepts: a wait has a non-negative argument. *)
Definition well_formed (l : list stmt) : Prop := forall n, In (Wait n) l -> 0 <= n.
(** [n] repetitions of a body, back to back, from clock [t]. *)
Fixpoint run_repeat (i : instrument) (eff : stmt -> list event) (n : nat) (t : Z) (body : list stmt) : list (Z * event) * Z :=
  match n with
  | O => ([], t)
  | S n' => let (evs, e) := run i eff t body in let (evs', e') := run_repeat i eff n' e body in (evs ++ evs', e')
  end.

(** [srt] sorts by absolute time; ties in any order. *)
Definition sorts (srt : list row -> list row) : Prop :=
  forall l, Permutation l (srt l) /\ forall i j a b, (i < j)%nat -> nth_error (srt l) i = Some a -> nth_error (srt l) j = Some b -> (r_time a <= r_time b)%Q.

(** * What is scheduled *)

(** One pulse or acquisition of one operation of the schedule, with the time at which it is scheduled (in seconds). *)
Record occurrence := { oc_operation : operation; oc_index : nat; oc_info : info; oc_time : Q }.
Definition occurrences_of (o : operation) (t : Q) : list occurrence :=
  let mk := fun '(n, i) => {| oc_operation := o; oc_index := n; oc_info := i; oc_time := (t + i_t0 i)%Q |} in
  map mk (combine (seq 0 (List.length (o_pulses o))) (o_pulses o)) ++ map mk (combine (seq 0 (List.length (o_acqs o))) (o_acqs o)).
Definition occurrences (s : schedule) : list occurrence :=
  flat_map (fun '(h, a) => match a, zget (s_operations s) h with Some t, Some o => occurrences_of o t | _, _ => [] end) (s_schedulables s).
(** The latency correction configured for a port and clock. *)
Definition latency (lat : list (string * Q)) (i : info) : Q :=
  match i_port i, i_clock i with
  | Some p, Some c => fold_right (fun '(k, dt) x => if String.eqb k (p ++ "-" ++ c) then (dt + x)%Q else x) 0%Q lat
  | _, _ => 0%Q
  end.
(** The channel to which the hardware configuration connects a port and clock: the last device and channel that names them. *)
Definition connected (devs : list device) (p c : string) (ch : chan) : Prop :=
  exists devs1 d devs2 cs1 o cs2, devs = devs1 ++ d :: devs2 /\ d_channels d = cs1 ++ (snd ch, o) :: cs2 /\ d_name d = fst ch /\ (out_port o ++ "-" ++ out_clock o)%string = (p ++ "-" ++ c)%string
    /\ (forall d' n o', In d' devs2 -> In (n, o') (d_channels d') -> (out_port o' ++ "-" ++ out_clock o')%string <> (p ++ "-" ++ c)%string)
    /\ (forall n o', In (n, o') cs2 -> (out_port o' ++ "-" ++ out_clock o')%string <> (p ++ "-" ++ c)%string).
(** The entry [e] of the corrected timing table stands for the occurrence [oc], shifted by [n] samples of 1/1.8 GHz. *)
Definition stands_for (devs : list device) (lat : list (string * Q)) (oc : occurrence) (n : Z) (e : entry) : Prop :=
  r_operation (e_row e) = o_str (oc_operation oc) /\ r_wf_idx (e_row e) = oc_index oc /\ r_is_acq (e_row e) = i_is_acq (oc_info oc) /\ r_port (e_row e) = i_port (oc_info oc) /\ r_clock (e_row e) = i_clock (oc_info oc) /\ r_duration (e_row e) = i_duration (oc_info oc) /\
  (r_time (e_row e) == oc_time oc + latency lat (oc_info oc) + inject_Z n / 1800000000)%Q /\
  match i_port (oc_info oc), i_clock (oc_info oc) with
  | Some p, Some c => exists ch k s, connected devs p c ch /\ e_channel e = Some ch /\ e_start e = Some (k, s) /\ clock_sample ch (r_time (e_row e)) = Ok (k, s)
  | _, _ => e_channel e = None /\ e_start e = None
  end.

(** * The corrected table *)

(** The time at which an occurrence should start: scheduled time plus latency correction. *)
Definition wanted (lat : list (string * Q)) (oc : occurrence) : Q := (oc_time oc + latency lat (oc_info oc))%Q.
(** [l] lists every occurrence of the schedule once (numbered as in the schedule, [los]), in the order of the wanted times, each shifted by its [shift] samples of 1/1.8 GHz. *)
Definition corrected_by (devs : list device) (lat : list (string * Q)) (s : schedule) (los : list (nat * occurrence)) (shift : list Z) (l : list entry) : Prop :=
  Permutation (combine (seq 0 (List.length (occurrences s))) (occurrences s)) los
  /\ List.length shift = List.length los
  /\ Forall2 (fun x e => stands_for devs lat (snd (fst x)) (snd x) e) (combine los shift) l
  /\ forall i j a b, (i < j)%nat -> nth_error los i = Some a -> nth_error los j = Some b -> (wanted lat (snd a) <= wanted lat (snd b))%Q.
(** The schedule lists its acquisitions in the order of their times: what precedes one in the schedule starts before it, what follows starts after it. *)
Definition in_order (lat : list (string * Q)) (occs : list occurrence) : Prop :=
  forall i j a b, (i < j)%nat -> nth_error occs i = Some a -> nth_error occs j = Some b -> i_is_acq (oc_info a) = true \/ i_is_acq (oc_info b) = true -> (wanted lat a < wanted lat b)%Q.
Definition n_acquisitions (l : list (nat * occurrence)) : Z := Z.of_nat (List.length (filter (fun x => i_is_acq (oc_info (snd x))) l)).
(** the occurrences at the positions i, ..., j - 1 of the table *)
Definition slice {A} (i j : nat) (l : list A) : list A := firstn (j - i) (skipn i l).
(** An occurrence the instruments can place: its port and clock are connected to a channel whose device name tells its sampling rate, and it is wanted exactly at a sample. Without port or clock it must not be an acquisition. *)
Definition placeable (devs : list device) (lat : list (string * Q)) (oc : occurrence) : Prop :=
  match i_port (oc_info oc), i_clock (oc_info oc) with
  | Some p, Some c => exists ch fs m, connected devs p c ch /\ name_rate (fst ch) = Ok fs /\ (wanted lat oc * inject_Z fs == inject_Z m)%Q
  | _, _ => i_is_acq (oc_info oc) = false
  end.

(** * Programs *)

(** The rows of one channel, in the order of the table, and the clock cycle at which a row starts. *)
Definition rows_on (ch : chan) (l : list entry) : list entry := filter (fun e => match e_channel e with Some c => String.eqb (fst c) (fst ch) && Nat.eqb (snd c) (snd ch) | None => false end) l.
Definition start_clock (e : entry) : Z := match e_start e with Some (k, _) => k | None => 0 end.
(** Consecutive clock cycles at least 3 apart, the first one at least 3 after [t]; [ends t l]: the last of them, or [t]. *)
Fixpoint three_apart (t : Z) (l : list Z) : Prop := match l with [] => True | k :: r => t + 3 <= k /\ three_apart k r end.
Fixpoint ends (t : Z) (l : list Z) : Z := match l with [] => t | k :: r => ends k r end.
(** Clock cycles the trigger outputs take at the start of a repetition. *)
Definition trigger_clocks (o : output) : Z := match out_markers o, out_trigger o with _ :: _, _ => Z.min (Z.of_nat (List.length (out_markers o))) 3 | [], Some _ => 0 | [], None => 2 end.
(** [later d evs]: the same events, [d] clock cycles later. *)
Definition later (d : Z) (evs : list (Z * event)) : list (Z * event) := map (fun '(t, v) => (t + d, v)) evs.
(** The end of the last row, in seconds. *)
Definition is_end (l : list entry) (t : Q) : Prop := (exists e, In e l /\ (t == r_time (e_row e) + r_duration (e_row e))%Q) /\ forall e, In e l -> (r_time (e_row e) + r_duration (e_row e) <= t)%Q.
(** The waveform an occurrence asks for, on a channel: its own description, at the sampling rate of the device and with the settings of the channel's output. *)
Definition own_wave (devs : list device) (oc : occurrence) (ch : chan) (w : wave) : Prop :=
  exists d o, In d devs /\ d_name d = fst ch /\ In (snd ch, o) (d_channels d) /\
    w = {| w_info := oc_info oc; w_duration := i_duration (oc_info oc); w_rate := sample_rate d; w_output := o; w_is_pulse := negb (i_is_acq (oc_info oc)) |}.
(** [c] is what is uploaded to the device [d]. *)
Definition configured (cfg : list (string * device_config)) (devs : list device) (d : device) (c : device_config) : Prop := exists i, nth_error devs i = Some d /\ nth_error cfg i = Some (d_name d, c).
(** back-to-back acquisitions: nothing within 7 clock cycles after the start of one *)
Fixpoint qa_ready (t : Z) (l : list (bool * Z)) : Prop := match l with [] => True | (acq, k) :: r => t <= k /\ qa_ready (if acq then k + 7 else k) r end.

(** * Waveforms *)

(** The keys of an operation are the usual ones: only its acquisitions have acq_channel or bin_mode. *)
Definition tidy (s : schedule) : Prop := forall h o, In (h, o) (s_operations s) -> Forall (fun i => i_is_acq i = false) (o_pulses o) /\ Forall (fun i => i_is_acq i = true) (o_acqs o).
(** Devices have different names, and the channels of each are channel_0, channel_1, ... without a gap, at most four. *)
Definition numbered (devs : list device) : Prop := NoDup (map d_name devs) /\ forall d n o, In d devs -> In (n, o) (d_channels d) -> (n < 4)%nat /\ forall m, (m <= n)%nat -> exists o', In (m, o') (d_channels d).
(** Nothing else in the schedule can be taken for the occurrence [oc]: the text of its operation has no acquisition index in it, and no pulse and acquisition of the operation share its number. *)
Definition unmistakable (oc : occurrence) : Prop :=
  ~ (exists x y, o_str (oc_operation oc) = x ++ "acq_index=" ++ y)%string /\ (nth_error (o_pulses (oc_operation oc)) (oc_index oc) = None \/ nth_error (o_acqs (oc_operation oc)) (oc_index oc) = None).
(** Whatever of the schedule has the same name as [oc] - the text of the operation, where everything from acq_index= to the last comma or parenthesis is replaced, and the number - is described in the same way. *)
Definition same_named (s : schedule) (oc : occurrence) : Prop :=
  forall od, In od (occurrences s) -> strip_acq_index (o_str (oc_operation od) ++ "_acq_" ++ JsonModel.dec_Z (Z.of_nat (oc_index od))) = strip_acq_index (o_str (oc_operation oc) ++ "_acq_" ++ JsonModel.dec_Z (Z.of_nat (oc_index oc))) -> oc_info od = oc_info oc.
