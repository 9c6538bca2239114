(** Model of absolute-timing determination.
    Source: /repo/quantify_scheduler/compilation.py lines 50-406 and
    /repo/quantify_scheduler/schedules/schedule.py lines 623-648. *)
From Verif Require Import Base.
Open Scope Q_scope.

(** compilation.py l.363-371, 383-390: the literals "start", "center", "end";
    [PtOther] is any other string (NotImplementedError). *)
Inductive refpt := PtStart | PtCenter | PtEnd | PtOther.

(** schedules/schedule.py l.966-978 [TimingConstraint].
    [rel_time] is never [None] here (the API default is 0). *)
Record tconstr := {
  tc_ref : option string;
  tc_pt : option refpt;
  tc_ptnew : option refpt;
  tc_rel : Q
}.

(** schedules/schedule.py l.854-890 [Schedulable], together with the two facts of its
    operation the timing pass uses: [operation.duration] and
    [operation.data.get("next_operation_delay")].  The dictionary [schedule.schedulables]
    is an insertion-ordered list of these records (key = name, see Schedule._add l.815-835). *)
Record sch := {
  s_name : string;
  s_dur : Q;
  s_delay : option Q;
  s_tcs : list tconstr;
  s_abs : option Q
}.

(** enums: SchedulingStrategy (structure/types.py / enums.py). *)
Inductive strategy := ASAP | ALAP.

Definition set_tcs (s : sch) (l : list tconstr) : sch :=
  {| s_name := s_name s; s_dur := s_dur s; s_delay := s_delay s; s_tcs := l; s_abs := s_abs s |}.
Definition set_abs (s : sch) (a : option Q) : sch :=
  {| s_name := s_name s; s_dur := s_dur s; s_delay := s_delay s; s_tcs := s_tcs s; s_abs := a |}.

(** [schedule.schedulables[name]] *)
Definition get_sch (l : list sch) (n : string) : option sch :=
  find (fun s => String.eqb (s_name s) n) l.

(** in-place mutation of the schedulable stored under [n] *)
Definition put_sch (l : list sch) (s' : sch) : list sch :=
  map (fun s => if String.eqb (s_name s) (s_name s') then s' else s) l.

(** compilation.py l.296-315 *)
Definition default_pt (st : strategy) : refpt := match st with ASAP => PtEnd | ALAP => PtStart end.
Definition default_ptnew (st : strategy) : refpt := match st with ASAP => PtStart | ALAP => PtEnd end.

(** compilation.py l.318-335 [_determine_default_ref_schedulables_by_schedulable] *)
Definition default_refs (st : strategy) (names : list string) : list (option string) :=
  match st with
  | ASAP => None :: map Some (removelast names)
  | ALAP => map Some (tl names) ++ [None]
  end.

Definition or_else {A} (o : option A) (d : option A) : option A :=
  match o with Some _ => o | None => d end.

(** compilation.py l.268-293 [_make_timing_constraints_explicit_for_schedulable]:
    only the first constraint receives defaults. *)
Definition explicit_one (st : strategy) (dref : option string) (s : sch) : result sch :=
  match st, s_tcs s with
  | ALAP, [] => Err NotImplementedErr
  | ALAP, _ :: _ :: _ => Err NotImplementedErr
  | ASAP, [] => Err IndexError
  | _, c :: rest =>
      Ok (set_tcs s ({| tc_ref := or_else (tc_ref c) dref;
                        tc_pt := or_else (tc_pt c) (Some (default_pt st));
                        tc_ptnew := or_else (tc_ptnew c) (Some (default_ptnew st));
                        tc_rel := tc_rel c |} :: rest))
  end.

(** compilation.py l.248-265 [_make_timing_constraints_explicit] (the [zip]). *)
Fixpoint explicit_all (st : strategy) (l : list (sch * option string)) : result (list sch) :=
  match l with
  | [] => Ok []
  | (s, d) :: r => do s' <- explicit_one st d s; do r' <- explicit_all st r; Ok (s' :: r')
  end.

Definition make_explicit (st : strategy) (l : list sch) : result (list sch) :=
  explicit_all st (combine l (default_refs st (map s_name l))).

(** references of a schedulable: the graph edges (ref, name) of
    compilation.py l.227-245 [_populate_references_graph]. *)
Definition refs_of (s : sch) : list string :=
  flat_map (fun c => match tc_ref c with Some r => [r] | None => [] end) (s_tcs s).

Definition mem_str (x : string) (l : list string) : bool := existsb (String.eqb x) l.

(** compilation.py l.199-203: unknown node -> ValueError *)
Definition refs_known (l : list sch) : bool :=
  forallb (fun s => forallb (fun r => mem_str r (map s_name l)) (refs_of s)) l.

(** First element satisfying [p], with the list without it. *)
Fixpoint pick {A} (p : A -> bool) (l : list A) : option (A * list A) :=
  match l with
  | [] => None
  | x :: r => if p x then Some (x, r)
              else match pick p r with Some (y, r') => Some (y, x :: r') | None => None end
  end.

(** [nx.topological_sort] / [nx.is_directed_acyclic_graph] (compilation.py l.162, 205):
    Kahn's algorithm.  networkx may visit ready nodes in another order; theorem
    [timing_order_independent] (TimingProps.v) shows that this cannot be observed. *)
Fixpoint kahn (fuel : nat) (placed : list string) (rest : list sch) : option (list string) :=
  match rest with
  | [] => Some []
  | _ =>
    match fuel with
    | O => None
    | S f =>
      match pick (fun s => forallb (fun r => mem_str r placed) (refs_of s)) rest with
      | None => None
      | Some (s, rest') =>
          match kahn f (placed ++ [s_name s]) rest' with
          | Some o => Some (s_name s :: o)
          | None => None
          end
      end
    end
  end.

Definition topo_sort (l : list sch) : option (list string) := kahn (List.length l) [] l.

Fixpoint lookup_delay (d : list (string * Q)) (n : string) : option Q :=
  match d with
  | [] => None
  | (m, q) :: r => if String.eqb m n then Some q else lookup_delay r n
  end.

(** compilation.py l.212-224 [_apply_operation_delays], the body for one schedulable. *)
Definition apply_delays (delays : list (string * Q)) (tcs : list tconstr) : list tconstr :=
  map (fun c =>
         match tc_ref c with
         | Some r => match lookup_delay delays r with
                     | Some d => {| tc_ref := tc_ref c; tc_pt := tc_pt c; tc_ptnew := tc_ptnew c;
                                    tc_rel := tc_rel c + d |}
                     | None => c
                     end
         | None => c
         end) tcs.

(** compilation.py l.338-391 [_get_start_time], time_unit = "physical". *)
Definition get_start_time (l : list sch) (c : tconstr) (dur_new : Q) : result Q :=
  match tc_ref c with
  | None => Err AssertionErr
  | Some r =>
    match get_sch l r with
    | None => Err KeyError
    | Some ref =>
      match s_abs ref with
      | None => Err KeyError
      | Some a =>
        do t0 <- match or_else (tc_pt c) (Some PtEnd) with
                 | Some PtStart => Ok a
                 | Some PtCenter => Ok (a + s_dur ref / 2)
                 | Some PtEnd => Ok (a + s_dur ref)
                 | _ => Err NotImplementedErr
                 end;
        match or_else (tc_ptnew c) (Some PtStart) with
        | Some PtStart => Ok (t0 + tc_rel c)
        | Some PtCenter => Ok (t0 + tc_rel c - dur_new / 2)
        | Some PtEnd => Ok (t0 + tc_rel c - dur_new)
        | _ => Err NotImplementedErr
        end
      end
    end
  end.

(** compilation.py l.175-178: the running maximum kept in the schedulable itself
    (including a stale value from an earlier run). *)
Definition max_step (l : list sch) (dur_new : Q) (cur : option Q) (c : tconstr) : result (option Q) :=
  do t <- get_start_time l c dur_new;
  Ok (match cur with
      | None => Some t
      | Some old => if Qlt_bool old t then Some t else Some old
      end).

(** compilation.py l.162-182: body of the loop over the topological order; the generator
    [_apply_operation_delays] runs interleaved with it. *)
Definition resolve_step (st : strategy) (first : bool) (state : list sch * list (string * Q)) (n : string)
  : result (list sch * list (string * Q)) :=
  let '(l, delays) := state in
  match get_sch l n with
  | None => Err KeyError
  | Some s =>
    let delays' := match s_delay s with Some d => (n, d) :: delays | None => delays end in
    let tcs' := apply_delays delays' (s_tcs s) in
    do a <- (if first then Ok (Some 0)
             else match st with
                  | ASAP => foldM (max_step l (s_dur s)) tcs' (s_abs s)
                  | ALAP => match tcs' with
                            | [] => Err IndexError
                            | c :: _ => do t <- get_start_time l c (s_dur s); Ok (Some t)
                            end
                  end);
    Ok (put_sch l (set_abs (set_tcs s tcs') a), delays')
  end.

Definition resolve (st : strategy) (order : list string) (l : list sch) : result (list sch) :=
  match order with
  | [] => Ok l
  | n :: rest =>
    do s1 <- resolve_step st true (l, []) n;
    do s2 <- foldM (resolve_step st false) rest s1;
    Ok (fst s2)
  end.

(** The value of [abs_time] (0 stands for a missing entry, which cannot happen after [resolve]). *)
Definition abs_of (s : sch) : Q := match s_abs s with Some a => a | None => 0 end.

Fixpoint min_list (d : Q) (l : list Q) : Q :=
  match l with [] => d | x :: r => min_list (if Qlt_bool x d then x else d) r end.

(** compilation.py l.394-406 [_normalize_absolute_timing]. *)
Definition normalize (l : list sch) : list sch :=
  match l with
  | [] => []
  | s :: r =>
    let m := min_list (abs_of s) (map abs_of r) in
    if Qlt_bool m 0 then map (fun s => set_abs s (Some (abs_of s - m))) l else l
  end.

(** schedules/schedule.py l.623-648 [get_schedule_duration]. *)
Definition schedule_duration (reps : Z) (l : list sch) : Q :=
  fold_left (fun acc s => let t := abs_of s + s_dur s in if Qlt_bool acc t then t else acc) l 0
  * inject_Z reps.

(** compilation.py l.121-122, 158-189 after the recursion over [schedule.operations]. *)
Definition determine_level (st : strategy) (reps : Z) (l : list sch) : result (list sch * Q) :=
  match l with
  | [] => Err ValueError
  | _ =>
    do l1 <- make_explicit st l;
    if negb (refs_known l1) then Err ValueError
    else match topo_sort l1 with
         | None => Err TypeError
         | Some order =>
             do l2 <- resolve st order l1;
             let l3 := normalize l2 in
             Ok (l3, schedule_duration reps l3)
         end
  end.

(** ** The recursion over the schedule tree *)

(** Operations as the timing pass sees them (operations/operation.py l.150-163 [duration],
    control_flow_library.py l.105 [LoopOperation.duration], l.198 [ConditionalOperation.duration],
    schedule.py [Schedule]).  [OLeaf valid dur delay]: an [Operation]; [valid] is
    "valid_pulse or valid_acquisition or InlineQ1ASM".  [OSched duration delay reps items]:
    sub-schedule with its cached duration and its data.get("next_operation_delay")
    (set by measurement_factories.py l.147-151 and circuit_to_device.py l.546-557).  The dictionary [operations] is unfolded
    into the tree (one copy per use; each sub-operation is timed once per dictionary entry and the
    result is a function of the operation, so copies agree). *)
Inductive op :=
  | OLeaf (valid : bool) (dur : Q) (delay : option Q)
  | OSched (duration : option Q) (delay : option Q) (reps : Z) (items : list item)
  | OLoop (n : Z) (body : op)
  | OCond (buffer : Q) (body : op)
with item :=
  | Item (name : string) (tcs : list tconstr) (abs : option Q) (o : op).

Definition it_name (i : item) := let 'Item n _ _ _ := i in n.
Definition it_tcs (i : item) := let 'Item _ t _ _ := i in t.
Definition it_abs (i : item) := let 'Item _ _ a _ := i in a.
Definition it_op (i : item) := let 'Item _ _ _ o := i in o.

(** [operation.duration] *)
Fixpoint op_dur (o : op) : option Q :=
  match o with
  | OLeaf _ d _ => Some d
  | OSched d _ _ _ => d
  | OLoop n b => match op_dur b with Some d => Some (inject_Z n * d) | None => None end
  | OCond buf b => match op_dur b with Some d => Some (d + buf) | None => None end
  end.

Definition op_delay (o : op) : option Q := match o with OLeaf _ _ d | OSched _ d _ _ => d | _ => None end.

Definition item_sch (i : item) : result sch :=
  match op_dur (it_op i) with
  | Some d => Ok {| s_name := it_name i; s_dur := d; s_delay := op_delay (it_op i);
                    s_tcs := it_tcs i; s_abs := it_abs i |}
  | None => Err AssertionErr
  end.

Definition write_back (i : item) (s : sch) : item :=
  Item (it_name i) (s_tcs s) (s_abs s) (it_op i).

Fixpoint write_all (is : list item) (ss : list sch) : list item :=
  match is, ss with
  | i :: ir, s :: sr => write_back i s :: write_all ir sr
  | _, _ => []
  end.

(** compilation.py l.98-113 [_determine_absolute_timing] and l.116-189. *)
Fixpoint determine (st : strategy) (o : op) : result op :=
  match o with
  | OLeaf _ _ _ => Ok o
  | OLoop n b => do b' <- determine st b; Ok (OLoop n b')
  | OCond buf b => do b' <- determine st b; Ok (OCond buf b')
  | OSched _ delay reps items =>
    do items1 <-
       (fix go (l : list item) : result (list item) :=
          match l with
          | [] => Ok []
          | Item n t a o' :: r =>
            (* l.124-156: sub-schedules only when their duration is unknown, control flow always *)
            do o'' <- match o' with
                      | OSched (Some _) _ _ _ => Ok o'
                      | OSched None _ _ _ => determine st o'
                      | OLoop _ _ | OCond _ _ => determine st o'
                      | OLeaf valid _ _ => if valid then Ok o' else Err RuntimeError
                      end;
            do r' <- go r;
            Ok (Item n t a o'' :: r')
          end) items;
    do ss <- mapM item_sch items1;
    do out <- determine_level st reps ss;
    Ok (OSched (Some (snd out)) delay reps (write_all items1 (fst out)))
  end.
