(** Model of the building API of schedules/schedule.py (Schedule.add, add_resource, repetitions) and of helpers/collections.py (make_hash). *)
From Verif Require Import Base.
Open Scope Z_scope.

(** Python insertion-ordered dict: [d[k] = v] keeps the position of an existing key *)
Fixpoint dict_set {K V} (eqb : K -> K -> bool) (d : list (K * V)) (k : K) (v : V) : list (K * V) :=
  match d with [] => [(k, v)] | (k', v') :: r => if eqb k k' then (k', v) :: r else (k', v') :: dict_set eqb r k v end.
Fixpoint dict_get {K V} (eqb : K -> K -> bool) (d : list (K * V)) (k : K) : option V :=
  match d with [] => None | (k', v) :: r => if eqb k k' then Some v else dict_get eqb r k end.
Definition dict_mem {K V} (eqb : K -> K -> bool) (d : list (K * V)) (k : K) : bool := match dict_get eqb d k with Some _ => true | None => false end.

Inductive point := PtStart | PtCenter | PtEnd.
(** schedule.py l.964-978 [TimingConstraint] *)
Record constr := { rel_time : Q; ref_op : option string; ref_pt : option point; ref_pt_new : option point }.
(** schedule.py l.854-891 [Schedulable] *)
Record schedulable := { s_name : string; s_label : string; s_operation_id : Z; s_constraints : list constr }.
(** schedule.py l.710-738: the data of a Schedule. Operations are Python objects: the dictionary holds references (numbers) into the heap of the user's program. *)
Record sched := { operation_dict : list (Z * nat); schedulables : list (string * schedulable); resource_dict : list (string * Z); repetitions : Z }.
(** the argument [ref_op] *)
Inductive ref_arg := RefNone | RefLabel (s : string) | RefSchedulable (s : schedulable).
(** l.927-930, l.952-953: [str(ref_schedulable)] *)
Definition ref_str (r : ref_arg) : option string := match r with RefNone => None | RefLabel s => Some s | RefSchedulable s => Some (s_name s) end.

(** What a user's program does with one schedule. [C]: contents of operations and sub-schedules.
    [Add None ...]: the object is neither an Operation nor a Schedule. [uuid]: what uuid4 yields if no label is given (nothing is assumed about it).
    [Mutate]: the user modifies an operation or sub-schedule object, e.g. Operation.add_pulse or sub.add(...). *)
Inductive call (C : Type) :=
  | Add (op : option nat) (rt : Q) (rf : ref_arg) (pt ptn : option point) (label : option string) (uuid : string)
  | Mutate (o : nat) (c : C)
  | AddResource (name : string) (is_resource : bool) (v : Z)
  | SetRepetitions (n : Z).
Arguments Add {C}. Arguments Mutate {C}. Arguments AddResource {C}. Arguments SetRepetitions {C}.

Definition world (C : Type) : Type := (nat -> C) * sched.
Definition heap_set {C} (h : nat -> C) (o : nat) (c : C) : nat -> C := fun x => if Nat.eqb x o then c else h x.

(** l.755-813 [add], l.815-835 [_add], l.837-852 [_validate_add_arguments]; [hash]: Operation.hash / Schedule.hash, which raises TypeError on unhashable contents *)
Definition add {C} (hash : C -> result Z) (w : world C) (op : option nat) (rt : Q) (rf : ref_arg) (pt ptn : option point) (label : option string) (uuid : string) : result (world C) :=
  let '(heap, s) := w in
  let label := match label with Some l => l | None => uuid end in
  match op with
  | None => Err ValueError
  | Some o =>
      if dict_mem String.eqb (schedulables s) label then Err ValueError else
      do id <- hash (heap o);
      let ops := dict_set Z.eqb (operation_dict s) id o in
      let element := {| s_name := label; s_label := label; s_operation_id := id; s_constraints := [] |} in
      let c := {| rel_time := rt; ref_op := ref_str rf; ref_pt := pt; ref_pt_new := ptn |} in
      let element := {| s_name := s_name element; s_label := s_label element; s_operation_id := s_operation_id element; s_constraints := s_constraints element ++ [c] |} in
      Ok (heap, {| operation_dict := ops; schedulables := dict_set String.eqb (schedulables s) label element; resource_dict := resource_dict s; repetitions := repetitions s |})
  end.
(** l.744-753 [add_resource] *)
Definition add_resource {C} (w : world C) (name : string) (is_resource : bool) (v : Z) : result (world C) :=
  let '(heap, s) := w in
  if negb is_resource then Err ValueError
  else if dict_mem String.eqb (resource_dict s) name then Err ValueError
  else Ok (heap, {| operation_dict := operation_dict s; schedulables := schedulables s; resource_dict := dict_set String.eqb (resource_dict s) name v; repetitions := repetitions s |}).
(** l.108-115 [repetitions] setter *)
Definition set_repetitions {C} (w : world C) (n : Z) : result (world C) :=
  let '(heap, s) := w in
  if n <=? 0 then Err ValueError else Ok (heap, {| operation_dict := operation_dict s; schedulables := schedulables s; resource_dict := resource_dict s; repetitions := n |}).

(** one call; an exception is caught by the user *)
Definition step {C} (hash : C -> result Z) (w : world C) (c : call C) : result (world C) :=
  match c with
  | Add op rt rf pt ptn l u => add hash w op rt rf pt ptn l u
  | Mutate o v => Ok (heap_set (fst w) o v, snd w)
  | AddResource n b v => add_resource w n b v
  | SetRepetitions n => set_repetitions w n
  end.
Fixpoint run {C} (hash : C -> result Z) (w : world C) (h : list (call C)) : world C :=
  match h with [] => w | c :: r => run hash (match step hash w c with Ok w' => w' | Err _ => w end) r end.
(** l.710-738 [Schedule.__init__]: the two standard clocks, no validation of the repetitions *)
Definition new_schedule (reps : Z) : sched :=
  {| operation_dict := []; schedulables := []; resource_dict := [("cl0.baseband", 0); ("digital", 0)]%string; repetitions := reps |}.

(** helpers/collections.py l.18-50 [make_hash] on nested Python data *)
Inductive pyval := PNone | PInt (z : Z) | PStr (s : string) | PList (l : list pyval) | PDict (l : list (string * pyval)).
(** CPython's hash of an int (and of a float with that integral value): modulo the Mersenne prime 2^61-1, and -1, reserved for errors, becomes -2 *)
Definition py_hash_int (z : Z) : Z :=
  let m := Z.abs z mod (2 ^ 61 - 1) in
  let s := if z <? 0 then - m else m in
  if s =? -1 then -2 else s.
Fixpoint make_hash (hnone : Z) (hstr : string -> Z) (htuple : list Z -> Z) (hdict : list (string * Z) -> Z) (v : pyval) : Z :=
  match v with
  | PNone => hnone
  | PInt z => py_hash_int z
  | PStr s => hstr s
  | PList l => htuple (map (make_hash hnone hstr htuple hdict) l)
  | PDict l => hdict (map (fun kv => (fst kv, make_hash hnone hstr htuple hdict (snd kv))) l)
  end.
(** operations/pulse_library.py l.73-90 ShiftClockPhase, operations/operation.py l.68-77: the data that is hashed. Phases are restricted to integers here. *)
Definition shift_clock_phase (phase : Z) (clock : string) : pyval :=
  PDict [("name", PStr "ShiftClockPhase"); ("gate_info", PDict []);
         ("pulse_info", PList [PDict [("wf_func", PNone); ("t0", PInt 0); ("phase_shift", PInt phase); ("clock", PStr clock); ("port", PNone); ("duration", PInt 0)]]);
         ("acquisition_info", PList []); ("logic_info", PDict [])]%string.
