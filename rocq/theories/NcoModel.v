(** Model of SetClockFrequency, ShiftClockPhase and ResetClockPhase of the Qblox backend: from the schedule to the NCO instructions of each sequencer.
    Times are in ns (the code multiplies seconds by 1e9); floats are rationals; NaN is [None]. *)
From Verif Require Import Base QSort NumericModel DevModel.
Local Open Scope string_scope.

(** What an entry of pulse_info asks of the NCO: operations/pulse_library.py l.127-172 (SetClockFrequency: "clock_freq_new" and "clock_freq_old"), ShiftClockPhase ("phase_shift"),
    ResetClockPhase ("reset_clock_phase"); backends/qblox/operation_handling/factory_analog.py l.113-121 picks the strategy by these keys if the port is None *)
Inductive kind := KFreq (new old : option Q) | KPhase (deg : Q) | KReset | KOther (port : option string).
(** An entry of pulse_info.  [addr]: the identity of this dictionary (the compiler writes "interm_freq_old" into it) *)
Record pulse := { addr : nat; clock : string; t0 : Q; what : kind }.
Definition port (p : pulse) : option string := match what p with KOther o => o | _ => None end.
(** A schedule with its clock resources (None: NaN) and its schedulables with their absolute times, a control flow operation, or an operation with its name.
    The entries of operations are pulses only: acquisitions do not concern the NCO. *)
Inductive item :=
  | Op (name : string) (ps : list pulse)
  | Flow (body : item)
  | Sched (resources : list (string * option Q)) (l : list (Q * item)).

(** backends/qblox_backend.py l.1965-1986 [_add_clock_freqs_to_set_clock_frequency] *)
Definition set_old (rs : list (string * option Q)) (p : pulse) : pulse :=
  match what p with
  | KFreq new _ => {| addr := addr p; clock := clock p; t0 := t0 p; what := KFreq new (match lookup (clock p) rs with Some (Some f) => Some f | _ => None end) |}
  | _ => p
  end.
Fixpoint add_old (rs : list (string * option Q)) (i : item) : item :=
  match i with
  | Op n ps => Op n (map (set_old rs) ps)
  | Flow b => Flow (add_old rs b)
  | Sched rs' l => Sched rs' (map (fun x => (fst x, add_old rs' (snd x))) l)
  end.

(** backends/qblox/helpers.py l.724-773 [_get_list_of_operations_for_op_info_creation]; the begin and the end of control flow are not kept: they do not concern the NCO *)
Fixpoint flatten (i : item) (t : Q) : result (list (Z * (string * list pulse))) :=
  match i with
  | Op n ps => do z <- to_grid_time t 1; Ok [(z, (n, ps))]
  | Flow b => flatten b t
  | Sched _ l => (fix go (l : list (Q * item)) : result (list (Z * (string * list pulse))) :=
                    match l with [] => Ok [] | (d, b) :: r => do x <- flatten b (t + d); do y <- go r; Ok (x ++ y)%list end) l
  end.

(** OpInfo (backends/types/qblox.py l.152-170): [data] is the dictionary itself, not a copy *)
Record info := { i_name : string; i_time : Q; i_pulse : pulse }.
(** A sequencer with data, after [assign_frequencies] (C27), in the order in which they are prepared *)
Record sq := { q_port : string; q_clock : string; q_freq : option Q }.
(** Which sequencers an entry goes to (helpers.py l.799-832, instrument_compilers.py l.687-699, compiler_abc.py l.1557-1580) *)
Definition goes (p : pulse) (s : sq) : bool := (clock p =? q_clock s) && match port p with None => true | Some n => n =? q_port s end.

(** helpers.py l.775-832 [_assign_pulse_info_to_devices].  Simplified: the name "LatchReset" (which goes to all sequencers) is not modelled. *)
Definition assign_pulse (ss : list sq) (name : string) (t : Z) (p : pulse) : result info :=
  let time := inject_Z t + t0 p in
  do _ <- to_grid_time time 1;
  match port p with
  | Some _ => if existsb (goes p) ss then Ok {| i_name := name; i_time := time; i_pulse := p |} else Err KeyError
  | None => Ok {| i_name := name; i_time := time; i_pulse := p |}
  end.
Definition assign_op (ss : list sq) (x : Z * (string * list pulse)) : result (list info) := mapM (assign_pulse ss (fst (snd x)) (fst x)) (snd (snd x)).
(** helpers.py l.907-985 [assign_pulse_and_acq_info_to_devices] *)
Definition assign (i : item) (ss : list sq) : result (list info) :=
  do ops <- flatten i 0;
  do xs <- mapM (assign_op ss) (sortq (fun x => inject_Z (fst x)) ops);
  Ok (List.concat xs).
Definition ops_of (infos : list info) (s : sq) : list info := filter (fun o => goes (i_pulse o) s) infos.
(** compiler_abc.py l.752-757 [_get_ordered_operations]: to_grid_time does not raise, see [assign_pulse] *)
Definition ordered (infos : list info) (s : sq) : list info := sortq (fun o => inject_Z (py_round (i_time o))) (ops_of infos s).

(** ** prepare, sequencer by sequencer *)
(** "interm_freq_old" of the dictionaries *)
Definition heap := nat -> option Q.
Definition write (h : heap) (a : nat) (v : option Q) : heap := fun b => if Nat.eqb b a then v else h b.
(** backends/qblox/analog.py l.428-435 [_update_set_clock_frequency_operations] *)
Definition update_ops (s : sq) (os : list info) (h : heap) : heap :=
  fold_left (fun h o => if i_name o =? "SetClockFrequency" then write h (addr (i_pulse o)) (q_freq s) else h) os h.
(** analog.py l.437-462 [_assert_enough_time_between_freq_phase_updates]; NcoOperationTimingError is a ValueError *)
Definition is_freq (o : info) : bool := match what (i_pulse o) with KFreq _ _ => true | _ => false end.
Definition is_phase (o : info) : bool := match what (i_pulse o) with KPhase _ | KReset => true | _ => false end.
Definition check_timing (o : info) (last : option Z) : result (option Z) :=
  let t := py_round (i_time o) in
  match last with Some l => if (t - l <? 4)%Z then Err ValueError else Ok (Some t) | None => Ok (Some t) end.
Definition check_op (last : option Z * option Z) (o : info) : result (option Z * option Z) :=
  do f <- (if is_freq o then check_timing o (fst last) else Ok (fst last));
  do p <- (if is_phase o then check_timing o (snd last) else Ok (snd last));
  Ok (f, p).
Definition prepare (infos : list info) (h : heap) (s : sq) : result heap :=
  do _ <- foldM check_op (ordered infos s) (None, None);
  Ok (update_ops s (ops_of infos s) h).

(** ** compile *)
Inductive instr := SetFreq (steps : Z) | PhDelta (steps : Z) | ResetPh.
(** backends/qblox/operation_handling/virtual.py l.60-160: NcoPhaseShiftStrategy, NcoResetClockPhaseStrategy, NcoSetClockFrequencyStrategy *)
Definition emit (h : heap) (o : info) : result (list (Z * instr)) :=
  let t := py_round (i_time o) in
  match what (i_pulse o) with
  | KFreq new old =>
      match old, h (addr (i_pulse o)) with
      | None, _ => Err RuntimeError
      | _, None => Err RuntimeError
      | Some f, Some i => do z <- nco_freq (match new with Some n => i + n - f | None => i end); Ok [(t, SetFreq z)]
      end
  | KPhase deg => Ok (if Qeq_bool deg 0 then [] else [(t, PhDelta (nco_phase deg))])
  | KReset => Ok [(t, ResetPh)]
  | KOther _ => Ok []
  end.
Definition program (infos : list info) (h : heap) (s : sq) : result (list (Z * instr)) := do l <- mapM (emit h) (ordered infos s); Ok (List.concat l).
(** qblox_backend.py l.736-780: the old frequencies, the assignment, all sequencers are prepared, then all are compiled *)
Definition compile (i : item) (ss : list sq) : result (list (list (Z * instr))) :=
  do infos <- assign (add_old [] i) ss;
  do h <- foldM (prepare infos) ss (fun _ => None);
  mapM (program infos h) ss.
