(** Model of pulse_compensation.py together with the timing pass that follows it (compilation.py). *)
From Verif Require Import Base TimingModel TableModel.
From Coq Require Import List.
Open Scope string_scope.
Open Scope list_scope.
Open Scope Q_scope.

(** resources.py l.133 *)
Definition baseband : string := "cl0.baseband".

(** ** Operations before compilation *)
(** [PLeaf]: an Operation with its pulse_info, acquisition_info and data.get("next_operation_delay"). [PSched duration delay reps items]: a Schedule, with its data.get("next_operation_delay"); an item is a schedulable: its key, timing constraints, abs_time and operation.
    [PComp body max grid]: operations/pulse_compensation_library.py l.45-100 with max_compensation_amp and time_grid set (device level); the sampling rate is part of the [Sampled] means and taken to be positive.
    The dictionary [operations] is unfolded into the tree: its entries are keyed by a hash of the contents, equal keys are taken to mean equal operations (see C08 for what happens otherwise). *)
Inductive sop :=
  | PLeaf (ps qs : list info) (delay : option Q)
  | PLoop (n : Z) (b : sop)
  | PCond (buffer : Q) (b : sop)
  | PSched (duration : option Q) (delay : option Q) (reps : Z) (items : list (string * list tconstr * option Q * sop))
  | PComp (b : sop) (max_compensation_amp : list (string * Q)) (time_grid : Q).

(** the operation as schedule.py reads it for the timing table and for durations *)
Fixpoint table (o : sop) : TableModel.op :=
  match o with
  | PLeaf ps qs _ => Leaf ps qs
  | PLoop n b => Loop (table b) n 0
  | PCond u b => Cond (table b) 0 u
  | PSched d _ n items => Sub (map (fun '(_, _, a, x) => (a, 0%Z, table x)) items) n d
  | PComp _ _ _ => Leaf [] []
  end.

(** ** The timing pass, carrying the contents of the operations along *)
Definition delay_of (o : sop) : option Q := match o with PLeaf _ _ d | PSched _ d _ _ => d | _ => None end.
(** compilation.py l.124-156: an operation that is neither a pulse nor an acquisition (a gate, a PulseCompensation) is rejected *)
Definition valid (o : sop) : bool := match o with PLeaf [] [] _ | PComp _ _ _ => false | _ => true end.
(** what the timing of one schedule uses of each schedulable; [assert duration is not None] *)
Definition item_sch (i : string * list tconstr * option Q * sop) : result sch :=
  let '(n, t, a, o) := i in
  match duration (table o) with
  | Ok d => Ok {| s_name := n; s_dur := d; s_delay := delay_of o; s_tcs := t; s_abs := a |}
  | Err _ => Err AssertionErr
  end.
Definition write_times (i : string * list tconstr * option Q * sop) (s : sch) : string * list tconstr * option Q * sop :=
  let '(n, _, _, o) := i in (n, s_tcs s, s_abs s, o).
Fixpoint write_all (l : list (string * list tconstr * option Q * sop)) (ss : list sch) : list (string * list tconstr * option Q * sop) :=
  match l, ss with i :: l, s :: ss => write_times i s :: write_all l ss | _, _ => [] end.
(** compilation.py l.98-189 [_determine_absolute_timing]: as TimingModel.determine (see [timing_erase] in PulseCompProps.v), on trees that also carry the pulses *)
Fixpoint timing (st : strategy) (o : sop) : result sop :=
  match o with
  | PLeaf _ _ _ | PComp _ _ _ => Ok o
  | PLoop n b => do b' <- timing st b; Ok (PLoop n b')
  | PCond u b => do b' <- timing st b; Ok (PCond u b')
  | PSched _ delay reps items =>
      do items' <- (fix go (l : list (string * list tconstr * option Q * sop)) : result (list (string * list tconstr * option Q * sop)) :=
         match l with
         | [] => Ok []
         | (n, t, a, x) :: r =>
             do x' <- match x with
                      | PSched (Some _) _ _ _ => Ok x
                      | PSched None _ _ _ | PLoop _ _ | PCond _ _ => timing st x
                      | _ => if valid x then Ok x else Err RuntimeError
                      end;
             do r' <- go r; Ok ((n, t, a, x') :: r')
         end) items;
      do ss <- mapM item_sch items';
      do out <- determine_level st reps ss;
      Ok (PSched (Some (snd out)) delay reps (write_all items' (fst out)))
  end.

(** ** Sums and ends *)
(** a dictionary from port to (sum, end): pulse_compensation.py l.34-46 *)
Definition sums := list (string * (Q * Q)).
Fixpoint lookup {A} (m : list (string * A)) (p : string) : option A := match m with [] => None | (k, v) :: r => if String.eqb k p then Some v else lookup r p end.
(** l.41-46 *)
Definition merge (x y : Q * Q) : Q * Q := (fst x + fst y, if Qlt_bool (snd x) (snd y) then snd y else snd x).
(** l.49-62; the ports are visited in an unspecified order (a set), here those of the first dictionary come first *)
Definition merge_sum_and_end (m1 m2 : sums) : sums :=
  map (fun '(k, v) => match lookup m2 k with Some w => (k, merge v w) | None => (k, v) end) m1 ++
  filter (fun '(k, _) => match lookup m1 k with Some _ => false | None => true end) m2.
Definition mem (p : string) (ports : list string) : bool := existsb (String.eqb p) ports.
Definition port_in (i : info) (ports : list string) : bool := match port (what i) with Some p => mem p ports | None => false end.
(** helpers/waveforms.py l.546-552 [area_pulse]; get_waveform cannot be evaluated without a waveform function *)
Definition area_pulse (i : info) : result Q :=
  match wave (what i) with Square a => Ok (a * dur i) | Sampled m => Ok (m * dur i) | _ => Err TypeError end.
(** operations/operation.py l.353-358 *)
Definition has_voltage_offset (ps : list info) : bool := existsb (fun i => match wave (what i) with VoltageOffset => true | _ => false end) ps.
(** l.65-165 [_determine_sum_and_end_of_all_pulses] *)
Fixpoint sum_end (o : TableModel.op) (time_offset : Q) (ports : list string) (is_conditional : bool) : result sums :=
  match o with
  | Sub items _ _ =>
      (fix go (l : list (option Q * Z * TableModel.op)) (m : sums) : result sums :=
         match l with
         | [] => Ok m
         | (a, _, x) :: r => match a with
                             | None => Err KeyError
                             | Some u => do new <- sum_end x (time_offset + u) ports is_conditional; go r (merge_sum_and_end m new)
                             end
         end) items []
  | Loop b n _ =>
      do body <- sum_end b time_offset ports is_conditional;
      if (n =? 0)%Z then Err AssertionErr
      else mapM (fun '(p, (s, e)) => do d <- duration b; Ok (p, (inject_Z n * s, inject_Z (n - 1) * d + e))) body
  | Cond b _ _ => sum_end b time_offset ports true
  | Leaf ps qs =>
      if has_voltage_offset ps && existsb (fun i => port_in i ports) (ps ++ qs) then Err ValueError
      else foldM (fun m i =>
             match port (what i) with
             | Some p => if mem p ports && String.eqb (clock (what i)) baseband
                         then if is_conditional then Err ValueError
                              else do s <- area_pulse i; Ok (merge_sum_and_end m [(p, (s, time_offset + t0 i + dur i))])
                         else Ok m
             | None => Ok m
             end) ps []
  end.

(** ** Compensation pulses *)
(** l.168-174 *)
Record params := { start : Q; p_duration : Q; p_amp : Q }.
(** l.225-237; division by a zero grid, maximum or duration raises ZeroDivisionError *)
Definition pulse_for (max : list (string * Q)) (grid : Q) (x : string * (Q * Q)) : result (list (string * params)) :=
  let '(p, (s, e)) := x in
  match lookup max p with
  | Some M => if Qeq_bool s 0 then Ok []
              else if Qeq_bool grid 0 || Qeq_bool M 0 then Err OtherErr
              else let d := inject_Z (Qceiling (Qabs s / grid / M)) * grid in
                   if Qeq_bool d 0 then Err OtherErr else Ok [(p, {| start := e; p_duration := d; p_amp := - s / d |})]
  | None => Ok []
  end.
(** l.177-237 [_determine_compensation_pulse]: only a body that is itself a Schedule is timed (with the default strategy ASAP) *)
Definition determine_compensation_pulse (o : sop) (max : list (string * Q)) (grid : Q) : result (list (string * params)) :=
  do timed <- match o with PSched _ _ _ _ => timing ASAP o | _ => Ok o end;
  do m <- sum_end (table timed) 0 (map fst max) false;
  do l <- mapM (pulse_for max grid) m;
  Ok (List.concat l).
(** operations/pulse_library.py l.486-503 [SquarePulse] as called at l.310-315 *)
Definition square_pulse (p : string) (q : params) : sop :=
  PLeaf [{| t0 := 0; dur := p_duration q; what := {| port := Some p; clock := baseband; wave := Square (p_amp q); tag := 0 |}; is_acq := false |}] [] None.
(** l.302-322; the keys of the schedulables are uuids, here "body" and one per port *)
Definition body_key : string := "body".
Definition pulse_key (p : string) : string := "compensation " ++ p.
Definition body_item (b : sop) : string * list tconstr * option Q * sop := (body_key, [{| tc_ref := None; tc_pt := None; tc_ptnew := None; tc_rel := 0 |}], None, b).
Definition pulse_item (x : string * params) : string * list tconstr * option Q * sop :=
  (pulse_key (fst x), [{| tc_ref := Some body_key; tc_pt := Some PtStart; tc_ptnew := Some PtStart; tc_rel := start (snd x) |}], None, square_pulse (fst x) (snd x)).
(** l.250-323 [process_compensation_pulses] *)
Fixpoint process (o : sop) : result sop :=
  match o with
  | PLeaf _ _ _ => Ok o
  | PLoop n b => do b' <- process b; Ok (PLoop n b')
  | PCond u b => do b' <- process b; Ok (PCond u b')
  | PSched d dl n items =>
      do items' <- (fix go (l : list (string * list tconstr * option Q * sop)) : result (list (string * list tconstr * option Q * sop)) :=
         match l with [] => Ok [] | (k, t, a, x) :: r => do x' <- process x; do r' <- go r; Ok ((k, t, a, x') :: r') end) items;
      Ok (PSched d dl n items')
  | PComp b max grid =>
      do b' <- process b;
      do pulses <- determine_compensation_pulse b' max grid;
      Ok (PSched None None 1 (body_item b' :: map pulse_item pulses))
  end.
(** backends/graph_compilation.py l.205-215: the two passes in the order in which the compiler runs them *)
Definition compile (st : strategy) (o : sop) : result sop := do o' <- process o; timing st o'.
