(** Model of compilation.py l.418-465 [_merge_rz_gates]. *)
From Verif Require Import Base.
From Coq Require Import List.
Open Scope Q_scope.

(** Operations are Python objects, identified by an address. What an object is never changes during the pass except the angle of Rz objects, which lives in the heap [addr -> Q]. *)
Notation addr := nat (only parsing).
Definition heap := addr -> Q.
Definition upd (h : heap) (a : addr) (v : Q) : heap := fun x => if Nat.eqb x a then v else h x.

(** entries of [schedulables]: the key of the operation in [operations], or the key of the IdlePulse(0) created by the pass *)
Inductive item := Key (k : Z) | Noop.
(** A schedule is a tree of sub-schedules and control flow (sharing of whole sub-schedules between two places is not modelled; the sharing of gate objects, and several schedulables with one operation id, are).
    [Ctrl (Some n) b]: LoopOperation; [Ctrl None b]: ConditionalOperation. *)
Inductive node := Leaf (a : addr) | Ctrl (loop : option nat) (body : node) | Sch (ops : list (Z * node)) (items : list item).
Fixpoint get {V} (d : list (Z * V)) (k : Z) : option V := match d with [] => None | (k', v) :: r => if Z.eqb k k' then Some v else get r k end.

(** l.443-462: the loop over the schedulables. [rz a]: the qubit of the Rz object at [a], None if the object is no Rz. *)
Fixpoint merge_items (rz : addr -> option string) (ops : list (Z * node)) (h : heap) (last_op : option node) (items : list item) : result (heap * list item) :=
  match items with
  | [] => Ok (h, [])
  | Noop :: r => do (h, r') <- merge_items rz ops h (Some (Sch [] [])) r; Ok (h, Noop :: r')
  | Key k :: r =>
      match get ops k with
      | None => Err KeyError
      | Some inner_op =>
          let go_on := do (h, r') <- merge_items rz ops h (Some inner_op) r; Ok (h, Key k :: r') in
          match inner_op, last_op with
          | Leaf a, Some (Leaf b) =>
              match rz a, rz b with
              | Some q, Some q' => if String.eqb q q' then do (h, r') <- merge_items rz ops (upd h b (h b + h a)) last_op r; Ok (h, Noop :: r') else go_on
              | _, _ => go_on
              end
          | _, _ => go_on
          end
      end
  end.
(** l.418-465 *)
Fixpoint merge (rz : addr -> option string) (h : heap) (n : node) : result (heap * node) :=
  match n with
  | Leaf a => Ok (h, Leaf a)
  | Ctrl l b => do (h, b') <- merge rz h b; Ok (h, Ctrl l b')
  | Sch ops items =>
      do (h, ops) <- (fix go (h : heap) (l : list (Z * node)) : result (heap * list (Z * node)) :=
                         match l with [] => Ok (h, []) | (k, x) :: r => do (h, x') <- merge rz h x; do (h, r') <- go h r; Ok (h, (k, x') :: r') end) h ops;
      do (h, items) <- merge_items rz ops h None items;
      Ok (h, Sch ops items)
  end.
