(** Model of the compilation of conditional playback: backends/qblox_backend.py l.241-268 and l.299-681. *)
From Verif Require Import Base CircModel NumericModel QSort.
From Coq Require Import List.
Open Scope string_scope.
Open Scope list_scope.
Open Scope Q_scope.

(** a port and a clock *)
Definition portclock := (string * string)%type.
Definition pc_eqb (a b : portclock) : bool := String.eqb (fst a) (fst b) && String.eqb (snd a) (snd b).
(** enums.py l.85-94 [DualThresholdedTriggerCountLabels], in the order of iteration *)
Inductive kind := Low | Mid | High | Invalid.
Definition kinds : list kind := [Low; Mid; High; Invalid].
Definition kind_eqb (a b : kind) : bool := match a, b with Low, Low | Mid, Mid | High, High | Invalid, Invalid => true | _, _ => false end.
(** The protocol of an entry of acquisition_info (operations/acquisition_library.py l.490-505, l.871, l.1366-1385, l.1500-1525) with what the pass reads of it.
    The labels are feedback_trigger_label, for [PDual] feedback_trigger_labels. [cond] of [PTrigger] is thresholded_trigger_count.condition: [Some true] is LESS_THAN, [Some false] is GREATER_THAN_EQUAL_TO, [None] is anything else. *)
Inductive proto :=
  | PThresholded (label : option string)
  | PWeighted (label : option string)
  | PTrigger (label : option string) (cond : option bool) (threshold : Z)
  | PDual (low mid high invalid : option string)
  | PPlain.
(** an entry of acquisition_info: protocol, t0, port and clock, and what the pass writes: feedback_trigger_address, feedback_trigger_addresses *)
Record acq := { a_proto : proto; a_t0 : Q; a_pc : portclock; a_addr : option Z; a_addrs : list (kind * Z) }.
(** Operations and schedules with their abs_times.
    [KLeaf acqs pcs dur]: an Operation with its acquisition_info, get_used_port_clocks() and duration (the RuntimeError of get_used_port_clocks for an operation without any pulse or acquisition is not modelled); [KLatch]: a LatchReset (backends/qblox/operations/pulse_library.py l.18-45).
    [KCond label address invert count buffer body]: a ConditionalOperation with the feedback_trigger_* entries of its control_flow_info ([None]: None or absent) and hardware_buffer_time.
    [KSched duration ops items]: a Schedule: the cached duration, the dictionary [operations] and the schedulables (abs_time, operation_id). Two schedulables with one operation_id share the operation; sharing of an object by two schedules is not modelled. *)
Inductive cop :=
  | KLeaf (acqs : list acq) (pcs : list portclock) (dur : Q)
  | KLatch (pc : portclock)
  | KLoop (n : Z) (body : cop)
  | KCond (label : string) (addr : option Z) (invert : option bool) (count : option Z) (buffer : Q) (body : cop)
  | KSched (dur : Q) (ops : list (string * cop)) (items : list (Q * string)).
(** constants.py l.103-106 MAX_FEEDBACK_TRIGGER_ADDRESS and MAX_MIN_INSTRUCTION_WAIT (4 ns, in seconds) *)
Definition max_address : Z := 15.
Definition four_ns : Q := 4 # 1000000000.

(** feedback_trigger_labels.get(kind) *)
Definition dual_label (low mid high invalid : option string) (k : kind) : option string := match k with Low => low | Mid => mid | High => high | Invalid => invalid end.
(** operations/operation.py l.326-337 [is_conditional_acquisition] (and [valid_acquisition], l.313-323) *)
Definition conditional_acquisition (l : list acq) : bool :=
  match l with
  | a :: _ => match a_proto a with PThresholded (Some _) | PWeighted (Some _) | PTrigger (Some _) _ _ | PDual _ _ _ _ => true | _ => false end
  | [] => false
  end.
(** operations/operation.py l.269-291, control_flow_library.py l.49-60, schedules/schedule.py l.189-203 [get_used_port_clocks]; a set, as a list *)
Fixpoint used_pcs (o : cop) : list portclock :=
  match o with
  | KLeaf _ pcs _ => pcs
  | KLatch pc => [pc]
  | KLoop _ b | KCond _ _ _ _ _ b => used_pcs b
  | KSched _ ops _ => flat_map (fun '(_, o) => used_pcs o) ops
  end.
(** [duration] of operations: operation.py, control_flow_library.py l.104-107 and l.199-205, schedule.py l.650-656; the LatchReset lasts 4 ns *)
Fixpoint dur_of (o : cop) : Q :=
  match o with
  | KLeaf _ _ d => d
  | KLatch _ => four_ns
  | KLoop n b => dur_of b * inject_Z n
  | KCond _ _ _ _ buf b => dur_of b + buf
  | KSched d _ _ => d
  end.

(** l.299-354 [ConditionalInfo] *)
Record cinfo := { ci_pcs : list portclock; ci_addr : Z; ci_invert : option bool; ci_count : option Z }.
(** l.608-611: the defaultdict from labels to [ConditionalInfo], in insertion order; the label None can be a key *)
Definition cmap := list (option string * cinfo).
Definition label_eqb (a b : option string) : bool := match a, b with Some x, Some y => String.eqb x y | None, None => true | _, _ => false end.
Fixpoint entry (m : cmap) (l : option string) : option cinfo := match m with [] => None | (l', c) :: r => if label_eqb l' l then Some c else entry r l end.
Fixpoint store (m : cmap) (l : option string) (c : cinfo) : cmap := match m with [] => [(l, c)] | (l', c') :: r => if label_eqb l' l then (l', c) :: r else (l', c') :: store r l c end.
(** [conditional_info_map[label]]: a new entry gets the next address (l.607-611) *)
Definition touch (m : cmap) (l : option string) : cmap * cinfo :=
  match entry m l with
  | Some c => (m, c)
  | None => let c := {| ci_pcs := []; ci_addr := Z.of_nat (List.length m) + 1; ci_invert := None; ci_count := None |} in (m ++ [(l, c)], c)
  end.
(** l.322-332 and l.344-354: the setters of trigger_invert and trigger_count *)
Definition set_invert (c : cinfo) (v : bool) : result cinfo :=
  match ci_invert c with
  | Some w => if Bool.eqb w v then Ok c else Err ValueError
  | None => Ok {| ci_pcs := ci_pcs c; ci_addr := ci_addr c; ci_invert := Some v; ci_count := ci_count c |}
  end.
Definition set_count (c : cinfo) (v : Z) : result cinfo :=
  match ci_count c with
  | Some w => if Z.eqb w v then Ok c else Err ValueError
  | None => Ok {| ci_pcs := ci_pcs c; ci_addr := ci_addr c; ci_invert := ci_invert c; ci_count := Some v |}
  end.
Definition settings (m : cmap) (l : option string) (invert : bool) (count : Z) : result cmap :=
  let '(m, c) := touch m l in do c <- set_invert c invert; do c <- set_count c count; Ok (store m l c).
(** the types of module the pass distinguishes *)
Inductive module_type := QRM | QTM | OtherModule.
Definition with_addr (a : acq) (x : Z) : acq := {| a_proto := a_proto a; a_t0 := a_t0 a; a_pc := a_pc a; a_addr := Some x; a_addrs := a_addrs a |}.
Definition with_addrs (a : acq) (x : list (kind * Z)) : acq := {| a_proto := a_proto a; a_t0 := a_t0 a; a_pc := a_pc a; a_addr := a_addr a; a_addrs := x |}.
(** [d[kind] = x] *)
Fixpoint put_kind (d : list (kind * Z)) (k : kind) (x : Z) : list (kind * Z) := match d with [] => [(k, x)] | (k', y) :: r => if kind_eqb k' k then (k', x) :: r else (k', y) :: put_kind r k x end.

Section Pass.
(** l.357-378 [_get_module_type]: what the hardware configuration says about a port-clock *)
Variable mt : portclock -> result module_type.
(** the hash of LatchReset(portclock), its key in [operations] (schedule.py l.824-825) *)
Variable latch_id : portclock -> string.

(** l.418-437: one kind of a DualThresholdedTriggerCount *)
Definition proc_kind (low mid high invalid : option string) (st : acq * cmap) (k : kind) : result (acq * cmap) :=
  let '(a, m) := st in
  match dual_label low mid high invalid k with
  | None => Ok (a, m)
  | Some l =>
      do ty <- mt (a_pc a);
      match ty with
      | QTM => let '(m, c) := touch m (Some l) in let a := with_addrs a (put_kind (a_addrs a) k (ci_addr c)) in do m <- settings m (Some l) false 1; Ok (a, m)
      | _ => Err RuntimeError
      end
  end.
(** l.381-438 [_update_conditional_info_from_acquisition] after the filter of l.485-489, which leaves the weighted protocol out *)
Definition proc_acq (m : cmap) (a : acq) : result (acq * cmap) :=
  match a_proto a with
  | PThresholded l => let '(m, c) := touch m l in Ok (with_addr a (ci_addr c), m)
  | PTrigger l cond threshold =>
      match cond with
      | None => Err ValueError
      | Some less =>
          let '(m, c) := touch m l in let a := with_addr a (ci_addr c) in
          do ty <- mt (a_pc a);
          match ty with
          | QRM => do m <- settings m l less threshold; Ok (a, m)
          | QTM => do m <- settings m l false 1; Ok (a, m)
          | OtherModule => Ok (a, m)
          end
      end
  | PDual low mid high invalid => foldM (proc_kind low mid high invalid) kinds (a, m)
  | PWeighted _ | PPlain => Ok (a, m)
  end.
Fixpoint proc_acqs (m : cmap) (l : list acq) : result (list acq * cmap) :=
  match l with
  | [] => Ok ([], m)
  | a :: r => do x <- proc_acq m a; let '(a, m) := x in do y <- proc_acqs m r; let '(r, m) := y in Ok (a :: r, m)
  end.
(** l.441-494 [_set_conditional_info_map]; the bodies of conditionals are not visited *)
Fixpoint set_map (o : cop) (m : cmap) : result (cop * cmap) :=
  match o with
  | KSched d ops items =>
      let fix go (ops : list (string * cop)) (m : cmap) : result (list (string * cop) * cmap) :=
        match ops with
        | [] => Ok ([], m)
        | (k, o) :: r => do x <- set_map o m; let '(o, m) := x in do y <- go r m; let '(r, m) := y in Ok ((k, o) :: r, m)
        end in
      do x <- go ops m; Ok (KSched d (fst x) items, snd x)
  | KCond l _ _ _ buf b =>
      let '(m, c) := touch m (Some l) in
      Ok (KCond l (Some (ci_addr c)) (ci_invert c) (ci_count c) buf b, store m (Some l) {| ci_pcs := ci_pcs c ++ used_pcs b; ci_addr := ci_addr c; ci_invert := ci_invert c; ci_count := ci_count c |})
  | KLoop n b => do x <- set_map b m; Ok (KLoop n (fst x), snd x)
  | KLeaf l pcs d => if conditional_acquisition l then do x <- proc_acqs m l; Ok (KLeaf (fst x) pcs d, snd x) else Ok (o, m)
  | KLatch _ => Ok (o, m)
  end.

(** [conditional_info_map[label].portclocks]; the label is in the map because [set_map] visited the acquisition *)
Definition pcs_of (m : cmap) (l : option string) : list portclock := match entry m l with Some c => ci_pcs c | None => [] end.
Definition nodup_pcs (l : list portclock) : list portclock := fold_right (fun p acc => if existsb (pc_eqb p) acc then acc else p :: acc) [] l.
(** [round(x * 1e9) * 1e-9] *)
Definition to_ns (x : Q) : Q := inject_Z (py_round (x * 1000000000)) / 1000000000.
(** l.524-557: the LatchResets of one entry of acquisition_info for an operation at [t]: (abs_time, port-clock). Sets are lists without duplicates; their order is arbitrary in the code *)
Definition resets_of (m : cmap) (t : Q) (a : acq) : list (Q * portclock) :=
  match a_proto a with
  | PThresholded (Some l) | PTrigger (Some l) _ _ => map (fun p => (t + a_t0 a + four_ns, p)) (nodup_pcs (pcs_of m (Some l)))
  | PDual low mid high invalid => map (fun p => (to_ns (t + a_t0 a + four_ns), p)) (nodup_pcs (flat_map (fun k => match dual_label low mid high invalid k with Some l => pcs_of m (Some l) | None => [] end) kinds))
  | _ => []
  end.
(** [schedule.add(LatchReset(portclock))] and its abs_time *)
Definition add_resets (ops : list (string * cop)) (items : list (Q * string)) (rs : list (Q * portclock)) : list (string * cop) * list (Q * string) :=
  fold_left (fun '(ops, items) '(at_, p) => (put ops (latch_id p) (KLatch p), items ++ [(at_, latch_id p)])) rs (ops, items).
(** l.497-557 [_insert_latch_reset]: the operation after the pass, and the LatchResets that are added to the schedule it is in. [t] is abs_time_relative_to_schedule. *)
Fixpoint insert_resets (m : cmap) (fuel : nat) (o : cop) (t : Q) : result (cop * list (Q * portclock)) :=
  match fuel with
  | O => Err OtherErr
  | S fuel =>
      match o with
      | KSched d ops items =>
          (* the loop of l.505-514; [ops] and [its] are the dictionaries as they are modified *)
          do x <- foldM (fun '(ops, its) '(a, id) =>
            do o <- index ops id;
            do y <- insert_resets m fuel o a; let '(o, rs) := y in
            Ok (add_resets (put ops id o) its rs)) items (ops, items);
          Ok (KSched d (fst x) (snd x), [])
      | KLoop n b => do x <- insert_resets m fuel b t; Ok (KLoop n (fst x), snd x)
      | KLeaf l _ _ => Ok (o, if conditional_acquisition l then flat_map (resets_of m t) l else [])
      | KLatch _ | KCond _ _ _ _ _ _ => Ok (o, [])
      end
  end.

(** what the check of l.632-679 distinguishes *)
Inductive event := EvCond (label : string) | EvAcq (labels : list string) | EvLatch.
Definition opt_list {A} (o : option A) : list A := match o with Some x => [x] | None => [] end.
(** l.653-666: the labels of a conditional acquisition; only the first entry of acquisition_info is read *)
Definition labels_of (l : list acq) : list string :=
  match l with
  | [] => []
  | a :: _ =>
      match a_proto a with
      | PDual low mid high invalid => nodup string_dec (opt_list low ++ opt_list mid ++ opt_list high ++ opt_list invalid)
      | PThresholded l | PWeighted l | PTrigger l _ _ => opt_list l
      | PPlain => []
      end
  end.
(** l.241-267 [_all_conditional_acqs_and_control_flows_and_latch_reset] *)
Fixpoint events (o : cop) (t : Q) : result (list (Q * event)) :=
  match o with
  | KSched _ ops items => let evs := map (fun '(k, o) => (k, events o)) ops in do x <- mapM (fun '(a, id) => do f <- index evs id; f (t + a)) items; Ok (List.concat x)
  | KLoop n b => do x <- mapM (fun i => events b (t + inject_Z (Z.of_nat i) * dur_of b)) (seq 0 (Z.to_nat n)); Ok (List.concat x)
  | KCond l _ _ _ _ _ => Ok [(t, EvCond l)]
  | KLatch _ => Ok [(t, EvLatch)]
  | KLeaf l _ _ => Ok (if conditional_acquisition l then [(t, EvAcq (labels_of l))] else [])
  end.
(** l.627-679: one step of the check; the state is currently_active_trigger_labels *)
Definition check_step (active : list string) (e : event) : result (list string) :=
  match e with
  | EvCond l => if existsb (String.eqb l) active then Ok (filter (fun x => negb (String.eqb l x)) active) else Err RuntimeError
  | EvAcq [] | EvLatch => Ok active
  | EvAcq ls => match active with [] => Ok ls | _ => Err RuntimeError end
  end.
Definition check (l : list (Q * event)) : result (list string) := foldM check_step (map snd (sortq fst l)) [].

Fixpoint depth (o : cop) : nat :=
  match o with
  | KLeaf _ _ _ | KLatch _ => 1
  | KLoop _ b | KCond _ _ _ _ _ b => S (depth b)
  | KSched _ ops _ => S (fold_right (fun '(_, o) n => Nat.max (depth o) n) 1%nat ops)
  end.
(** l.560-681 [compile_conditional_playback] *)
Definition conditional_playback (o : cop) : result cop :=
  do x <- set_map o []; let '(o, m) := x in
  do y <- insert_resets m (depth o) o 0; let '(o, _) := y in
  if existsb (fun '(_, c) => Z.ltb max_address (ci_addr c)) m then Err ValueError else
  do es <- events o 0;
  do _ <- check es; Ok o.
End Pass.
