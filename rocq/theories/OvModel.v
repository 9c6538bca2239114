(** Model of backends/qblox_backend.py l.1940-1963 and l.1988-2136: the check that pulses with voltage offsets do not overlap other pulses.
    A schedulable holds its operation (in Python it is looked up by its identifier); times are rational numbers. *)
From Verif Require Import Base QSort.
Local Open Scope Q_scope.
Local Open Scope string_scope.

(** An entry of pulse_info. [iwf]: "wf_func" is not None; [ioffI]: "offset_path_I", if present, and not None; [ioffQ]: "offset_path_Q" is present *)
Record info := { iport : option string; iclock : string; it0 : Q; idur : Q; iwf : bool; ioffI : option (option Q); ioffQ : bool }.
(** An operation: pulse_info and its duration *)
Record oper := { oinfos : list info; odur : Q }.
Inductive item := Sched (schedulables : list (Q * item)) | Loop (repetitions : nat) (body : item) | Cond (body : item) | Leaf (o : oper).

(** operations/operation.py l.312-315 and l.351-357 *)
Definition valid_pulse (o : oper) : bool := match oinfos o with [] => false | _ => true end.
Definition has_offset_key (i : info) : bool := match ioffI i with Some _ => true | None => ioffQ i end.
Definition has_voltage_offset (o : oper) : bool := existsb has_offset_key (oinfos o).

(** l.1940-1963 *)
Fixpoint collect (x : item) (t : Q) : list (Q * oper) :=
  match x with
  | Sched l => (fix go l := match l with [] => [] | (s, y) :: r => (collect y (t + s) ++ go r)%list end) l
  | Loop _ b | Cond b => collect b t
  | Leaf o => if valid_pulse o || has_voltage_offset o then [(t, o)] else []
  end.

Fixpoint lookup {A} (k : string) (l : list (string * A)) : option A :=
  match l with [] => None | (k', v) :: r => if k =? k' then Some v else lookup k r end.
Fixpoint insert {A} (k : string) (v : A) (l : list (string * A)) : list (string * A) :=
  match l with [] => [(k, v)] | (k', v') :: r => if k =? k' then (k, v) :: r else (k', v') :: insert k v r end.

(** l.2114-2115 *)
Definition key (i : info) : string := match iport i with Some s => s | None => "None" end ++ "_" ++ iclock i.
(** l.2104-2130; (inf, -inf) is None *)
Definition start_ends (t : Q) (o : oper) : list (string * (Q * Q)) :=
  fold_left (fun d i =>
    if negb (iwf i) && match ioffI i with Some (Some _) => false | _ => true end then d else
    let s := t + it0 i in
    let e := s + idur i in
    insert (key i) (match lookup (key i) d with None => (s, e) | Some (ps, pe) => (Qmin s ps, Qmax e pe) end) d) (oinfos o) [].
(** l.2133-2136 *)
Definition op_end (x : Q * oper) : Q := fst x + odur (snd x).
Definition tol : Q := 1 # 10000000000.

(** l.2087-2092 *)
Definition crosses (a b : Q * Q) : bool :=
  let '(sa, ea) := a in let '(sb, eb) := b in
  (Qlt_bool sb sa && Qlt_bool sa eb) || (Qlt_bool sb ea && Qlt_bool ea eb) || (Qlt_bool sa sb && Qlt_bool sb ea) || (Qlt_bool sa eb && Qlt_bool eb ea).
(** l.2070-2101 *)
Definition check (a b : Q * oper) : result unit :=
  let pa := start_ends (fst a) (snd a) in
  let pb := start_ends (fst b) (snd b) in
  if existsb (fun k => match lookup k pa, lookup k pb with Some x, Some y => crosses x y | _, _ => false end) (map fst pa) then Err RuntimeError else Ok tt.
(** l.2054-2067 *)
Fixpoint starting_before (e : Q) (l : list (Q * oper)) : option (Q * oper) :=
  match l with
  | [] => None
  | x :: r => if Qle_bool (e - tol) (fst x) then None else if valid_pulse (snd x) || has_voltage_offset (snd x) then Some x else starting_before e r
  end.
(** l.2029-2051: the loop; [last]: the last operation with a pulse *)
Fixpoint scan (last : option (Q * oper)) (l : list (Q * oper)) : result unit :=
  match l with
  | [] => Ok tt
  | x :: r =>
      do _ <- (if has_voltage_offset (snd x) then
                 match (match last with Some p => if Qlt_bool (fst x + tol) (op_end p) then Some p else None | None => None end) with
                 | Some p => check x p
                 | None => match starting_before (op_end x) r with Some y => check x y | None => Ok tt end
                 end
               else Ok tt);
      scan (if valid_pulse (snd x) then Some x else last) r
  end.
(** l.1988-2051 *)
Definition validate (schedule : item) : result unit := scan None (sortq fst (collect schedule 0)).
