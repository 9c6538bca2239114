(** Shared vocabulary: Python exceptions as values. *)
From Coq Require Export List ZArith QArith Qround Qminmax Qabs Lia Lqa String Bool.
Export ListNotations.

(** Exception classes raised by the modelled code. *)
Inductive exn :=
  | ValueError | TypeError | RuntimeError | KeyError | IndexError
  | NotImplementedErr | AssertionErr | OtherErr.

(** A Python call either returns a value or raises. *)
Inductive result (A : Type) :=
  | Ok (a : A)
  | Err (e : exn).
Arguments Ok {A} a.
Arguments Err {A} e.

Definition bind {A B : Type} (x : result A) (f : A -> result B) : result B :=
  match x with Ok a => f a | Err e => Err e end.

Notation "'do' x <- a ; b" := (bind a (fun x => b))
  (at level 200, x pattern, a at level 100, b at level 200).

(** Python's [for] over a list with exceptions. *)
Fixpoint mapM {A B : Type} (f : A -> result B) (l : list A) : result (list B) :=
  match l with
  | [] => Ok []
  | x :: xs => do y <- f x; do ys <- mapM f xs; Ok (y :: ys)
  end.

Fixpoint foldM {A B : Type} (f : B -> A -> result B) (l : list A) (b : B) : result B :=
  match l with
  | [] => Ok b
  | x :: xs => do b' <- f b x; foldM f xs b'
  end.

Definition is_ok {A} (r : result A) : Prop := exists a, r = Ok a.

(** Strict comparison of rationals as a boolean ([a < b]). *)
Definition Qlt_bool (a b : Q) : bool := negb (Qle_bool b a).
