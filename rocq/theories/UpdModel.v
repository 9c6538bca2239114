(** Model of the removal of redundant parameter updates: backends/qblox/compiler_abc.py l.957-1027. *)
From Verif Require Import Base.
Open Scope Z_scope.

Section Upd.
(** values of the latched parameters of a sequencer (offsets, phases, frequencies, markers), all together *)
Context {P : Type}.

(** What the pass distinguishes about an operation (types/qblox.py l.175-222): [PU] is_parameter_update, [RT] is_real_time_io_operation
    (plays or acquires; [id] identifies it), [PI] is_parameter_instruction (changes some parameters), [Other] none of them. *)
Inductive act := PU | RT (id : Z) | PI (f : P -> P) | Other (id : Z).

(** entries of [op_strategies] with their grid time: LoopStrategy, ConditionalStrategy, ControlFlowReturnStrategy or anything else *)
Inductive sop := SOp (t : Z) (a : act) | SLoop (t : Z) (n : nat) | SCond (t : Z) (c : Z) | SRet (t : Z).
Definition time (o : sop) : Z := match o with SOp t _ | SLoop t _ | SCond t _ | SRet t => t end.

(** Python's [sorted] with the time as key: stable *)
Fixpoint insert {A} (key : A -> Z) (x : A) (l : list A) : list A :=
  match l with [] => [x] | y :: r => if key x <=? key y then x :: l else y :: insert key x r end.
Definition sorted_by {A} (key : A -> Z) (l : list A) : list A := fold_right (insert key) [] l.

(** compiler_abc.py l.752-757 *)
Definition ordered (ops : list sop) : list sop := sorted_by time ops.

(** l.968-1016: [last_updated_timing] and the indices to be removed *)
Fixpoint to_remove (is_reversed : bool) (last : option Z) (l : list (nat * sop)) : list nat :=
  match l with
  | [] => []
  | (i, o) :: r =>
      match o with
      | SOp t PU => match last with
                    | Some u => if u =? t then i :: to_remove is_reversed last r else to_remove is_reversed (Some t) r
                    | None => to_remove is_reversed (Some t) r
                    end
      | SOp t (RT _) => to_remove is_reversed (Some t) r
      | SOp t (PI _) => to_remove is_reversed (if is_reversed then last else None) r
      | SOp t (Other _) => to_remove is_reversed last r
      | SCond _ _ => to_remove is_reversed (if is_reversed then None else last) r
      | SLoop _ _ | SRet _ => to_remove is_reversed None r
      end
  end.

(** l.968-1018 [_removal_pass] *)
Definition removal_pass (is_reversed : bool) (ops : list sop) : list sop :=
  let en := combine (seq 0 (List.length ops)) ops in
  let s := sorted_by (fun p => time (snd p)) en in
  let removed := to_remove is_reversed None (if is_reversed then rev s else s) in
  map snd (filter (fun p => negb (existsb (Nat.eqb (fst p)) removed)) en).

(** l.1020-1027 *)
Definition remove_redundant (ops : list sop) : list sop := removal_pass true (removal_pass false ops).

(** ** What a sequencer does with the operations *)
(** The ordered operations of a sequencer form a forest; [te]: time of the end of the control flow. *)
Inductive node := NOp (t : Z) (a : act) | NLoop (t : Z) (n : nat) (body : list node) (te : Z) | NCond (t : Z) (c : Z) (body : list node) (te : Z).
Fixpoint flat (x : node) : list sop :=
  match x with
  | NOp t a => [SOp t a]
  | NLoop t n b te => SLoop t n :: flat_map flat b ++ [SRet te]
  | NCond t c b te => SCond t c :: flat_map flat b ++ [SRet te]
  end.

(** Parameter instructions change the pending values; they take effect (are latched) when an update, play or acquire instruction
    is executed (documentation quoted in types/qblox.py l.199-206).  Execution yields the list of latch events. *)
Record ev := { e_time : Z; e_rt : option Z; e_val : P }.
Record st := { pend : P; lat : P }.

(** [env t c]: outcome of condition [c] at time [t]; iteration [i] of a loop is shifted by [i * (te - t)] *)
Section Exec.
Variable env : Z -> Z -> bool.
Fixpoint iter_exec (body : Z -> st -> list ev * st) (n : nat) (off d : Z) (s : st) : list ev * st :=
  match n with
  | O => ([], s)
  | S n => let '(e1, s1) := body off s in let '(e2, s2) := iter_exec body n (off + d) d s1 in (e1 ++ e2, s2)
  end.
Definition exec_list (ex : node -> Z -> st -> list ev * st) : list node -> Z -> st -> list ev * st :=
  fix go l off s := match l with [] => ([], s) | x :: r => let '(e1, s1) := ex x off s in let '(e2, s2) := go r off s1 in (e1 ++ e2, s2) end.
Fixpoint exec (x : node) (off : Z) (s : st) {struct x} : list ev * st :=
  match x with
  | NOp t PU => ([{| e_time := off + t; e_rt := None; e_val := pend s |}], {| pend := pend s; lat := pend s |})
  | NOp t (RT id) => ([{| e_time := off + t; e_rt := Some id; e_val := pend s |}], {| pend := pend s; lat := pend s |})
  | NOp t (PI f) => ([], {| pend := f (pend s); lat := lat s |})
  | NOp t (Other _) => ([], s)
  | NLoop t n b te => iter_exec (exec_list exec b) n off (te - t) s
  | NCond t c b te => if env (off + t) c then exec_list exec b off s else ([], s)
  end.
Definition run (f : list node) (s : st) : list ev * st := exec_list exec f 0 s.
End Exec.

(** ** Observations *)
(** what is played or acquired, when, and with which parameter values *)
Definition played (es : list ev) : list (Z * Z * P) :=
  flat_map (fun e => match e_rt e with Some id => [(id, e_time e, e_val e)] | None => [] end) es.
(** the parameter values in effect at time T: those latched by the last event up to T *)
Definition value_at (T : Z) (init : P) (es : list ev) : P :=
  fold_left (fun v e => if e_time e <=? T then e_val e else v) es init.

Definition is_update (o : sop) : bool := match o with SOp _ PU => true | _ => false end.
End Upd.
Arguments act : clear implicits.
Arguments sop : clear implicits.
Arguments node : clear implicits.
Arguments ev : clear implicits.
Arguments st : clear implicits.
