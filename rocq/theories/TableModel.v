(** Model of the timing table and the schedule duration of schedules/schedule.py, with the durations of operations/operation.py and operations/control_flow_library.py. *)
From Verif Require Import Base QSort.
From Coq Require Import List.
Open Scope Q_scope.

(** The waveform of an entry of [pulse_info]: a square pulse (wf_func "quantify_scheduler.waveforms.square") with its amplitude; any other waveform, by the mean of its samples at the sampling rate in use; a voltage offset (offset_path_I/Q); no waveform. Amplitudes are real. *)
Inductive shape := Square (amp : Q) | Sampled (mean : Q) | VoltageOffset | NoWaveform.
(** The keys port, clock and those that describe the waveform; [tag] stands for the remaining keys. *)
Record details := { port : option string; clock : string; wave : shape; tag : Z }.
(** one entry of [pulse_info] or [acquisition_info] *)
Record info := { t0 : Q; dur : Q; what : details; is_acq : bool }.
(** What a schedule contains. The fields [loop_t0], [cond_t0] (control_flow_library.py l.73, l.168) are kept although the table does not use them.
    A schedule holds its schedulables in order: abs_time, operation id and the operation filed under that id; [cached]: schedule["duration"]. *)
Inductive op :=
  | Leaf (pulses acqs : list info)
  | Loop (body : op) (repetitions : Z) (loop_t0 : Q)
  | Cond (body : op) (cond_t0 buffer : Q)
  | Sub (items : list (option Q * Z * op)) (repetitions : Z) (cached : option Q).

(** operation.py l.131-141: [max(..., default=0)] *)
Definition leaf_duration (l : list info) : Q := match map (fun i => t0 i + dur i) l with [] => 0 | x :: r => fold_left (fun a b => if Qlt_bool a b then b else a) r x end.
(** operation.py l.148-156, control_flow_library.py l.101-104, l.192-198, schedule.py l.649-656: [op.duration]; arithmetic on None raises TypeError. The cached _duration of an operation is taken to be up to date. *)
Fixpoint duration (o : op) : result Q :=
  match o with
  | Leaf ps qs => Ok (leaf_duration (ps ++ qs))
  | Loop b n _ => do d <- duration b; Ok (inject_Z n * d)
  | Cond b _ buf => do d <- duration b; Ok (d + buf)
  | Sub _ _ c => match c with Some d => Ok d | None => Err TypeError end
  end.
(** schedule.py l.623-647 [get_schedule_duration]; a missing abs_time raises KeyError *)
Definition get_schedule_duration (items : list (option Q * Z * op)) (reps : Z) : result Q :=
  do m <- foldM (fun m '(a, _, o) => match a with None => Err KeyError | Some t => do d <- duration o; Ok (if Qlt_bool (t + d) m then m else t + d) end) items 0;
  Ok (m * inject_Z reps).

(** a row of the table: columns abs_time, duration, is_acquisition, wf_idx, operation_hash, and [what] for the others *)
Record row := { abs_time : Q; r_duration : Q; r_is_acq : bool; wf_idx : nat; operation_hash : option Z; r_what : details }.
(** schedule.py l.493-511 *)
Definition leaf_rows (l : list info) (time_offset : Q) (id : option Z) : list row :=
  map (fun '(i, x) => {| abs_time := time_offset + t0 x; r_duration := dur x; r_is_acq := is_acq x; wf_idx := i; operation_hash := id; r_what := what x |}) (combine (seq 0 (length l)) l).
(** schedule.py l.459-511 [_generate_timing_table_list] *)
Fixpoint generate (o : op) (time_offset : Q) (id : option Z) : result (list row) :=
  match o with
  | Sub items _ _ =>
      (fix go (l : list (option Q * Z * op)) : result (list row) :=
         match l with
         | [] => Ok []
         | (a, h, x) :: r => match a with None => Err ValueError | Some t => do rs <- generate x (time_offset + t) (Some h); do rest <- go r; Ok (rs ++ rest) end
         end) items
  | Loop b n _ => do ls <- mapM (fun i => do d <- duration b; generate b (time_offset + inject_Z (Z.of_nat i) * d) id) (seq 0 (Z.to_nat n)); Ok (List.concat ls)
  | Cond b _ _ => generate b time_offset id
  | Leaf ps qs => Ok (leaf_rows ps time_offset id ++ leaf_rows qs time_offset id)
  end.
(** schedule.py l.606-621 [timing_table]: pd.concat raises ValueError on an empty list; sort_values does not promise an order among equal times, the one chosen here is not used by any theorem *)
Definition timing_table (o : op) : result (list row) :=
  do rows <- generate o 0 None;
  match rows with [] => Err ValueError | _ => Ok (sortq abs_time rows) end.
