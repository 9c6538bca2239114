(** Model of the distribution of a compiled schedule over the sequencers: backends/qblox/helpers.py l.634-975 and compiler_abc.py l.752-757.
    Times are integers (ns); [to_grid_time] is then the identity (see NumericModel.v for the conversion). Every schedulable has its abs_time. InlineQ1ASM operations are not modelled. *)
From Verif Require Import Base Q1Model.
From Coq Require Import List.
Open Scope Z_scope.

(** (port, clock); the code joins the two names with "-", so names are taken to contain no "-" *)
Definition pc : Type := (string * string)%type.
Definition pc_dec (a b : pc) : {a = b} + {a <> b}. Proof. decide equality; apply string_dec. Defined.
(** One element of pulse_info or acquisition_info: port, clock, t0, duration, and what its operation strategy does on the sequencer. *)
Record entry := { e_port : option string; e_clock : option string; e_t0 : Z; e_dur : Z; e_kind : kind }.
(** [latch]: the operation is named "LatchReset"; [window]: it is a WindowOperation.
    [n], [t0], [addr], [buffer]: control_flow_info (control_flow_library.py l.84-95, l.164-185). [cached]: schedule["duration"]. *)
Inductive op :=
  | Leaf (latch window : bool) (pulses acqs : list entry)
  | Loop (n t0 : Z) (body : op)
  | Cond (addr : nat) (t0 buffer : Z) (body : op)
  | Sub (items : list (Z * op)) (cached : option Z).

(** operation.py l.131-141 *)
Definition ends (l : list entry) : list Z := map (fun e => e_t0 e + e_dur e) l.
Definition leaf_duration (l : list entry) : Z := match ends l with [] => 0 | x :: r => fold_left Z.max r x end.
(** operation.py l.148-156, control_flow_library.py l.101-104, l.192-198, schedule.py l.649-656 *)
Fixpoint duration (o : op) : option Z :=
  match o with
  | Leaf _ _ ps qs => Some (leaf_duration (ps ++ qs))
  | Loop n _ b => match duration b with Some d => Some (n * d) | None => None end
  | Cond _ _ buf b => match duration b with Some d => Some (d + buf) | None => None end
  | Sub _ c => c
  end.

(** operation.py l.269-291: entries without port or clock are left out *)
Definition named (e : entry) : list pc := match e_port e, e_clock e with Some p, Some c => [(p, c)] | _, _ => [] end.
(** operation.py l.269-291, control_flow_library.py l.49-60, schedule.py l.189-202 [get_used_port_clocks], as a list with repetitions. The operation_dict of a schedule is taken to hold the operations of its schedulables. *)
Fixpoint used (o : op) : result (list pc) :=
  match o with
  | Leaf _ _ [] [] => Err RuntimeError
  | Leaf _ _ ps qs => Ok (flat_map named (ps ++ qs))
  | Loop _ _ b | Cond _ _ _ b => used b
  | Sub items _ => (fix go l := match l with [] => Ok [] | (_, x) :: r => do a <- used x; do b <- go r; Ok (a ++ b) end) items
  end.

Inductive beginning := BLoop (n : Z) | BCond (addr : nat).
(** What is put in the list: an operation; LoopBegin or ConditionalBegin with t0 and the port-clocks of its pulse_info; _ControlFlowReturn with those port-clocks. *)
Inductive aop := ALeaf (latch window : bool) (pulses acqs : list entry) | ABegin (b : beginning) (t0 : Z) (pcs : list pc) | AEnd (pcs : list pc).

(** helpers.py l.634-668 and l.704-721: one element of pulse_info for each member of the set *)
Definition control_pcs (body : op) : result (list pc) := do l <- used body; Ok (nodup pc_dec l).
(** helpers.py l.724-772 [_get_list_of_operations_for_op_info_creation] *)
Fixpoint collect (o : op) (time_offset : Z) : result (list (Z * aop)) :=
  let control b t0 body :=
    do pcs <- control_pcs body;
    do inner <- collect body time_offset;
    match duration body with
    | None => Err AssertionErr
    | Some d => Ok ((time_offset, ABegin b t0 pcs) :: inner ++ [(time_offset + d, AEnd pcs)])
    end in
  match o with
  | Sub items _ => (fix go l := match l with [] => Ok [] | (t, x) :: r => do a <- collect x (time_offset + t); do b <- go r; Ok (a ++ b) end) items
  | Loop n t0 b => control (BLoop n) t0 b
  | Cond a t0 _ b => control (BCond a) t0 b
  | Leaf lt w ps qs => Ok [(time_offset, ALeaf lt w ps qs)]
  end.

(** Python's stable [sorted] / [list.sort] *)
Fixpoint insertb {A} (le : A -> A -> bool) (x : A) (l : list A) : list A :=
  match l with [] => [x] | y :: r => if le x y then x :: l else y :: insertb le x r end.
Definition isort {A} (le : A -> A -> bool) (l : list A) : list A := fold_right (insertb le) [] l.

Definition has (mapping : list pc) (p : pc) : bool := if in_dec pc_dec p mapping then true else false.
(** helpers.py l.775-832 [_assign_pulse_info_to_devices], one element of pulse_info; [mapping]: the port-clocks of the hardware configuration, whichever device they belong to (l.501-538) *)
Definition assign_pulse (mapping : list pc) (latch : bool) (port clock : option string) (s : sop) : result (list (pc * sop)) :=
  match port with
  | None => Ok (map (fun q => (q, s)) (filter (fun q => latch || match clock with Some c => String.eqb (snd q) c | None => false end) mapping))
  | Some p => match clock with Some c => if has mapping (p, c) then Ok [((p, c), s)] else Err KeyError | None => Err KeyError end
  end.
(** helpers.py l.835-880 [_assign_acq_info_to_devices], one element of acquisition_info *)
Definition assign_acq (mapping : list pc) (port clock : option string) (s : sop) : result (list (pc * sop)) :=
  match port with
  | None => Ok []
  | Some p => match clock with Some c => if has mapping (p, c) then Ok [((p, c), s)] else Err KeyError | None => Err KeyError end
  end.
(** helpers.py l.943-975: one operation of the list, at its start time *)
Definition assign_op (mapping : list pc) (x : Z * aop) : result (list (pc * sop)) :=
  let '(T, a) := x in
  match a with
  | ALeaf _ true _ _ => Ok []
  | ALeaf _ false [] [] => Err RuntimeError
  | ALeaf latch false ps qs =>
      do a <- mapM (fun e => assign_pulse mapping latch (e_port e) (e_clock e) (SOp (T + e_t0 e) (e_kind e))) ps;
      do b <- mapM (fun e => assign_acq mapping (e_port e) (e_clock e) (SOp (T + e_t0 e) (e_kind e))) qs;
      Ok (List.concat a ++ List.concat b)
  | ABegin _ _ [] | AEnd [] => Err RuntimeError
  | ABegin b t0 pcs =>
      do a <- mapM (fun p => assign_pulse mapping false (Some (fst p)) (Some (snd p)) (match b with BLoop n => SLoop (T + t0) n | BCond ad => SCond (T + t0) ad end)) pcs; Ok (List.concat a)
  | AEnd pcs => do a <- mapM (fun p => assign_pulse mapping false (Some (fst p)) (Some (snd p)) (SRet T)) pcs; Ok (List.concat a)
  end.

Definition sop_time (s : sop) : Z := match s with SOp t _ => t | SLoop t _ => t | SCond t _ => t | SRet t => t end.
(** helpers.py l.905-975 [assign_pulse_and_acq_info_to_devices], for the whole hardware: what each port-clock gets, in order *)
Definition assign_all (mapping : list pc) (schedule : op) : result (list (pc * sop)) :=
  do l <- collect schedule 0;
  do infos <- mapM (assign_op mapping) (isort (fun a b => fst a <=? fst b) l);
  Ok (List.concat infos).
(** instrument_compilers.py l.686-700 and compiler_abc.py l.1557-1580 [distribute_data], then compiler_abc.py l.752-757 [_get_ordered_operations]: the operations of the sequencer of port-clock [p] *)
Definition seq_ops (mapping : list pc) (schedule : op) (p : pc) : result (list sop) :=
  do infos <- assign_all mapping schedule;
  Ok (isort (fun a b => sop_time a <=? sop_time b) (map snd (filter (fun x => if pc_dec (fst x) p then true else false) infos))).
(** the Q1ASM program of that sequencer: compiler_abc.py l.526-679, see Q1Model.v *)
Definition seq_program (mapping : list pc) (schedule : op) (p : pc) (mrk : Z) (offs : list Z) (lat reps total : Z) : result (list instr) :=
  do ops <- seq_ops mapping schedule p; generate mrk offs lat reps total ops.
