(** Model of zhinst_backend.py l.1190-1268 [flatten_schedule], the pass before the Zurich Instruments backend, and what it is to preserve (C50). *)
From Verif Require Import Base ZiModel.
From Coq Require Import Permutation.
Open Scope Q_scope.

Section Flatten.
(** operations that are not schedules (any type: they are only moved), the contents of a resource *)
Context {A R : Type}.
(** A schedule or an operation in it; a schedule has operation_dict (key, operation), schedulables (name, (operation_id, abs_time)) and resource_dict (name, resource), each in dict order. *)
Inductive item := Leaf (a : A) | Sub (ops : list (Z * item)) (schs : list (string * (Z * option Q))) (res : list (string * R)).

(** dict assignment and pop *)
Fixpoint zput {B} (d : list (Z * B)) (k : Z) (v : B) : list (Z * B) := match d with [] => [(k, v)] | (k', v') :: r => if Z.eqb k k' then (k, v) :: r else (k', v') :: zput r k v end.
Definition zpop {B} (d : list (Z * B)) (k : Z) : list (Z * B) := filter (fun p => negb (Z.eqb (fst p) k)) d.
Fixpoint sput {B} (d : list (string * B)) (k : string) (v : B) : list (string * B) := match d with [] => [(k, v)] | (k', v') :: r => if String.eqb k k' then (k, v) :: r else (k', v') :: sput r k v end.
Definition spop {B} (d : list (string * B)) (k : string) : list (string * B) := filter (fun p => negb (String.eqb (fst p) k)) d.

(** [hash]: Operation.hash; [uuid n]: the n-th uuid4 drawn *)
Variables (hash : A -> Z) (uuid : nat -> string).

(** the schedule while it is changed: operation_dict, schedulables, uuids drawn so far *)
Definition state := (list (Z * item) * list (string * (Z * option Q)) * nat)%type.
(** l.1212-1222 [_insert_op_at_time]; inserting a schedule does not happen, since the inner schedule has been flattened (l.1233-1236), and would give KeyError later *)
Definition insert_op (st : state) (o : item) (t : Q) : result state :=
  let '(ops, schs, n) := st in
  match o with
  | Leaf a => Ok (zput ops (hash a) o, sput schs (uuid n) (hash a, Some t), S n)
  | Sub _ _ _ => Err OtherErr
  end.
(** l.1247-1252: inner_schedulable["abs_time"] + offset raises when one of them is None *)
Definition insert_inner (iops : list (Z * item)) (offset : option Q) (st : state) (x : string * (Z * option Q)) : result state :=
  match zget iops (fst (snd x)) with
  | None => Err KeyError
  | Some o => match snd (snd x), offset with Some t, Some t0 => insert_op st o (t + t0) | _, _ => Err TypeError end
  end.
(** l.1224-1231 [_move_to_end] *)
Definition move_to_end (schs : list (string * (Z * option Q))) (k : string) : list (string * (Z * option Q)) :=
  match sget schs k with Some v => spop schs k ++ [(k, v)] | None => schs end.
(** l.1242-1258: one schedulable; also collects the keys to remove *)
Definition flatten_one (st : state * (list Z * list string)) (x : string * (Z * option Q)) : result (state * (list Z * list string)) :=
  let '((ops, schs, n), (ok, sk)) := st in
  match zget ops (fst (snd x)) with
  | None => Err KeyError
  | Some (Leaf _) => Ok ((ops, move_to_end schs (fst x), n), (ok, sk))
  | Some (Sub iops ischs _) => do st' <- foldM (insert_inner iops (snd (snd x))) ischs (ops, schs, n); Ok (st', (fst (snd x) :: ok, fst x :: sk))
  end.
(** l.1190-1268 [flatten_schedule]. The second component counts the uuids drawn. In-place changes of the inner schedules are rendered by storing them back in operation_dict. *)
Fixpoint flatten (i : item) (n : nat) {struct i} : result (item * nat) :=
  match i with
  | Leaf _ => Ok (i, n)
  | Sub ops schs res =>
      do f <- (fix go (l : list (Z * item)) (m : nat) : result (list (Z * item) * nat) :=
                 match l with
                 | [] => Ok ([], m)
                 | (k, x) :: r => do y <- flatten x m; do z <- go r (snd y); Ok ((k, fst y) :: fst z, snd z)
                 end) ops n;
      let ops1 := fst f in
      let all_res := fold_left (fun d p => match snd p with Leaf _ => d | Sub _ _ r => fold_left (fun d q => sput d (fst q) (snd q)) r d end) ops1 res in
      do st <- foldM flatten_one schs ((ops1, schs, snd f), ([], []));
      let '((ops2, schs2, n2), (ok, sk)) := st in
      Ok (Sub (fold_left zpop ok ops2) (fold_left spop sk schs2)
              (fold_left (fun d q => match sget d (fst q) with None => d ++ [q] | Some _ => d end) all_res res), n2)
  end.

(** * What is to be preserved *)

(** What a schedule plays: its operations other than schedules, in the order of the schedulables, with the times from its start; an inner schedule plays what it plays, from its own time on. *)
Fixpoint timeline (i : item) : list (A * Q) :=
  match i with
  | Leaf a => [(a, 0)]
  | Sub ops schs _ =>
      let tl := map (fun p => (fst p, timeline (snd p))) ops in
      flat_map (fun x => match snd (snd x), zget tl (fst (snd x)) with Some t, Some l => map (fun p => (fst p, t + snd p)) l | _, _ => [] end) schs
  end.
(** every level has times and finds its operations *)
Fixpoint complete (i : item) : Prop :=
  match i with
  | Leaf _ => True
  | Sub ops schs _ => fold_right (fun p q => complete (snd p) /\ q) True ops /\ forall x, In x schs -> snd (snd x) <> None /\ zget ops (fst (snd x)) <> None
  end.
Definition is_leaf (i : item) : Prop := match i with Leaf _ => True | Sub _ _ _ => False end.
(** the operations, keys of operation_dict, names of schedulables and resources at all levels *)
Fixpoint leaves (i : item) : list A := match i with Leaf a => [a] | Sub ops _ _ => flat_map (fun p => leaves (snd p)) ops end.
Fixpoint dicts (i : item) : list (Z * item) := match i with Leaf _ => [] | Sub ops _ _ => ops ++ flat_map (fun p => dicts (snd p)) ops end.
Fixpoint names (i : item) : list string := match i with Leaf _ => [] | Sub ops schs _ => map fst schs ++ flat_map (fun p => names (snd p)) ops end.
Fixpoint resources (i : item) : list (string * R) := match i with Leaf _ => [] | Sub ops _ res => res ++ flat_map (fun p => resources (snd p)) ops end.
(** Dictionaries have each key once. *)
Fixpoint well_keyed (i : item) : Prop :=
  match i with
  | Leaf _ => True
  | Sub ops schs res => fold_right (fun p q => well_keyed (snd p) /\ q) True ops /\ NoDup (map fst ops) /\ NoDup (map fst schs) /\ NoDup (map fst res)
  end.
(** The hash of an operation of the schedule is the key of that operation only (wherever it is a key at all: keys may be older than the operation). *)
Definition no_clash (i : item) : Prop := forall k x a, In (k, x) (dicts i) -> In a (leaves i) -> hash a = k -> x = Leaf a.
Definition hash_injective (i : item) : Prop := forall a b, In a (leaves i) -> In b (leaves i) -> hash a = hash b -> a = b.
(** uuids are new *)
Definition uuids_fresh (i : item) : Prop := (forall m n, uuid m = uuid n -> m = n) /\ forall n, ~ In (uuid n) (names i).
End Flatten.
Arguments item : clear implicits.
