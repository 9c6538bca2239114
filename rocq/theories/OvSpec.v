(** What the words of C61 mean. *)
From Coq Require Import Permutation.
From Verif Require Import Base OvModel.
Local Open Scope Q_scope.

(** an operation of the schedule at a time; the body of a loop is counted in its first cycle only *)
Inductive occurs : item -> Q -> Q -> oper -> Prop :=
  | occurs_leaf o t : occurs (Leaf o) t t o
  | occurs_sched l s x t u o : In (s, x) l -> occurs x (t + s) u o -> occurs (Sched l) t u o
  | occurs_loop n b t u o : occurs b t u o -> occurs (Loop n b) t u o
  | occurs_cond b t u o : occurs b t u o -> occurs (Cond b) t u o.
(** two different entries of a list (they may be equal to each other, if it occurs twice) *)
Definition two {A} (l : list A) (a b : A) : Prop := exists rest, Permutation l (a :: b :: rest).

(** a waveform or a voltage offset *)
Definition sounds (i : info) : Prop := iwf i = true \/ exists v, ioffI i = Some (Some v).
Definition with_offset (o : oper) : Prop := exists i, In i (oinfos o) /\ (ioffI i <> None \/ ioffQ i = true).
(** from the first start to the last end of what an operation plays on a port and clock *)
Definition extent (x : Q * oper) (k : string) (s e : Q) : Prop :=
  (exists i, In i (oinfos (snd x)) /\ sounds i /\ key i = k /\ s == fst x + it0 i) /\
  (exists i, In i (oinfos (snd x)) /\ sounds i /\ key i = k /\ e == fst x + it0 i + idur i) /\
  forall i, In i (oinfos (snd x)) -> sounds i -> key i = k -> s <= fst x + it0 i /\ fst x + it0 i + idur i <= e.
(** some time at which one plays and that is inside the other *)
Definition overlap (s e s' e' : Q) : Prop := exists x, (s <= x <= e /\ s' < x < e') \/ (s < x < e /\ s' <= x <= e').
Definition overlap_on_a_key (a b : Q * oper) : Prop := exists k s e s' e', extent a k s e /\ extent b k s' e' /\ overlap s e s' e'.
Definition durations_ok (o : oper) : Prop := Forall (fun i => 0 <= idur i) (oinfos o).
