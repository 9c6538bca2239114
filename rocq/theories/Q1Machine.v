(** Semantics of the emitted programs: the Q1 sequence processor.
    This is NOT code of the repository: it is the hardware the programs run on, as described in the docstrings of
    qasm_program.py (l.430-447: conditional playback; l.535-552: loops) and q1asm_instructions.py.
    Classical instructions (move, add, loop, labels) take no time on the real-time time line; a real-time instruction
    [IRT o d] takes effect at the current time and lasts [d] ns; parameter instructions and
    [set_cond] take 0 ns.  Registers hold 32-bit unsigned integers; [loop R,@l] subtracts one and
    jumps unless the result is 0.  While a condition is active and not met, a real-time instruction is skipped
    and lasts [else_duration] instead, and parameter instructions are skipped. *)
From Verif Require Import Base Q1Model.
Open Scope Z_scope.

Inductive event :=
  | EParam (p : param)
  | EUpd
  | EPlay (w0 w1 : Z)
  | EAcquire (idx bin : Z)
  | EAcqW (idx bin i0 i1 : Z)
  | ETTL (idx bin en : Z)
  | ETags (idx bin en fine : Z)
  | ELatchRst
  | ESync.

Definition M32 : Z := 2 ^ 32.

Record mst := {
  pc : nat;
  rg : nat -> Z;
  tm : Z;
  (** [None]: unconditional; [Some (b, e)]: condition met ([b]) / else duration [e] *)
  cnd : option (bool * Z);
  (** number of conditional blocks completed so far *)
  kc : nat
}.

Definition upd (f : nat -> Z) (r : nat) (z : Z) : nat -> Z := fun x => if Nat.eqb x r then z else f x.

Definition val (f : nat -> Z) (o : opnd) : Z := match o with Imm z => z | Reg r => f r end.

Definition rt_event (f : nat -> Z) (o : rtop) : list event :=
  match o with
  | RWait => []
  | RWaitSync => [ESync]
  | RUpd => [EUpd]
  | RPlay a b => [EPlay a b]
  | RAcquire i b => [EAcquire i (val f b)]
  | RAcqW i b x y => [EAcqW i (val f b) (val f x) (val f y)]
  | RAcqTTL i b e => [ETTL i (val f b) e]
  | RAcqTags i b e x => [ETags i (val f b) e (val f x)]
  | RLatchRst => [ELatchRst]
  end.

(** there are 15 trigger addresses, 1 to 15; bit [a - 1] of the mask selects the latch of address [a] *)
Definition selected (mask : Z) (latch : nat -> bool) : list bool :=
  map latch (filter (fun a => Z.testbit mask (Z.of_nat a - 1)) (seq 1 15)).

(** truth of a trigger operator applied to the selected latches *)
Definition eval_trig (o : trigop) (l : list bool) : bool :=
  match o with
  | OpOR => existsb id l
  | OpNOR => negb (existsb id l)
  | OpAND => forallb id l
  | OpNAND => negb (forallb id l)
  | OpXOR => fold_right xorb false l
  | OpXNOR => negb (fold_right xorb false l)
  end.

(** truth of a trigger operator applied to a single latch *)
Definition eval_op (o : trigop) (b : bool) : bool :=
  match o with OpOR | OpAND | OpXOR => b | OpNOR | OpNAND | OpXNOR => negb b end.

Fixpoint find_label (l : label) (p : list instr) (k : nat) : option nat :=
  match p with
  | [] => None
  | ILabel l' :: r => if label_eqb l l' then Some k else find_label l r (S k)
  | _ :: r => find_label l r (S k)
  end.

(** [env k a]: whether the latch of trigger address [a] is set during the [k]-th executed conditional block *)
Definition step (env : nat -> nat -> bool) (p : list instr) (s : mst) : option (list (Z * event) * mst) :=
  let next f t c k := {| pc := S (pc s); rg := f; tm := t; cnd := c; kc := k |} in
  match nth_error p (pc s) with
  | None | Some IStop => None
  | Some (IMove z r) => Some ([], next (upd (rg s) r (z mod M32)) (tm s) (cnd s) (kc s))
  | Some (IAdd r z r') => Some ([], next (upd (rg s) r' ((rg s r + z) mod M32)) (tm s) (cnd s) (kc s))
  | Some (ILabel _) | Some INewline => Some ([], next (rg s) (tm s) (cnd s) (kc s))
  | Some (ILoop r l) =>
      let v := (rg s r - 1) mod M32 in
      if v =? 0 then Some ([], next (upd (rg s) r v) (tm s) (cnd s) (kc s))
      else match find_label l p 0 with
           | Some k => Some ([], {| pc := k; rg := upd (rg s) r v; tm := tm s; cnd := cnd s; kc := kc s |})
           | None => None
           end
  | Some (IRT o d) =>
      match cnd s with
      | Some (false, e) => Some ([], next (rg s) (tm s + e) (cnd s) (kc s))
      | _ => Some (map (pair (tm s)) (rt_event (rg s) o), next (rg s) (tm s + d) (cnd s) (kc s))
      end
  | Some (IParam q) =>
      match cnd s with
      | Some (false, _) => Some ([], next (rg s) (tm s) (cnd s) (kc s))
      | _ => Some ([(tm s, EParam q)], next (rg s) (tm s) (cnd s) (kc s))
      end
  | Some (ISetCond m o e) => Some ([], next (rg s) (tm s) (Some (eval_trig o (selected m (env (kc s))), e)) (kc s))
  | Some ISetCondOff => Some ([], next (rg s) (tm s) None (S (kc s)))
  end.

(** finite executions, with the events produced *)
Inductive steps (env : nat -> nat -> bool) (p : list instr) : mst -> list (Z * event) -> mst -> Prop :=
| steps_refl : forall s, steps env p s [] s
| steps_cons : forall s s1 s2 e1 e2,
    step env p s = Some (e1, s1) -> steps env p s1 e2 s2 -> steps env p s (e1 ++ e2) s2.

Definition m0 (t : Z) : mst := {| pc := 0; rg := fun _ => 0; tm := t; cnd := None; kc := 0 |}.

(** The program reaches [stop] at time [t] having produced exactly the events [tr]. *)
Definition Runs (env : nat -> nat -> bool) (p : list instr) (t0 : Z) (tr : list (Z * event)) (t : Z) : Prop :=
  exists s, steps env p (m0 t0) tr s /\ nth_error p (pc s) = Some IStop /\ tm s = t.
