(** C41: what it means that the clocks of a schedule are set. *)
From Verif Require Import Base TimingModel TableModel CircModel CircSpec.
From Coq Require Import List.
Open Scope string_scope.
Open Scope list_scope.
Open Scope Q_scope.

(** [Uses o c]: [o] plays or acquires on clock [c], not counting the schedules nested in it (those have resources of their own) *)
Inductive Uses : gop -> string -> Prop :=
  | U_leaf : forall id l i, In i (pulses l ++ acqs l) -> Uses (GLeaf id l) (clock (what i))
  | U_asm : forall c d, Uses (GAsm c d) c
  | U_loop : forall n b c, Uses b c -> Uses (GLoop n b) c
  | U_cond : forall u b c, Uses b c -> Uses (GCond u b) c
  | U_comp : forall e m g r b c, Uses b c -> Uses (GComp e m g r b) c.
Definition UsedIn (ops : list (string * gop)) (c : string) : Prop := exists k x, In (k, x) ops /\ Uses x c.
(** the clock frequencies written in a schedule and in the schedules nested in it, but not in the bodies of pulse compensations; [None] is NaN *)
Definition own_freqs (res : dict (option freq)) : list (string * freq) := flat_map (fun '(c, f) => match f with Some f => [(c, f)] | None => [] end) res.
Fixpoint definitions (o : gop) : list (string * freq) :=
  match o with
  | GSched _ _ res _ ops _ => flat_map (fun x => definitions (snd x)) ops ++ own_freqs res
  | GLoop _ b | GCond _ b => definitions b
  | _ => []
  end.
(** a clock that is defined more than once has the same frequency everywhere (and NaN is not the same as NaN) *)
Definition agreeing (l : list (string * freq)) : Prop :=
  forall i j c f f', (i < j)%nat -> nth_error l i = Some (c, f) -> nth_error l j = Some (c, f') -> exists q q', f = Some q /\ f' = Some q' /\ q == q'.
(** the frequency of clock [c]: the one written in the schedule; if there is none, the one in the device configuration *)
Definition Known (cfg : devcfg) (o : gop) (c : string) (q : Q) : Prop :=
  In (c, Some q) (definitions o) \/ ((forall f, ~ In (c, f) (definitions o)) /\ get (clocks cfg) c = Some (Some q)).
(** resources [res] with the clocks that are used, and nothing else *)
Definition Completed (known : string -> Q -> Prop) (used : string -> Prop) (res res' : dict (option freq)) : Prop :=
  (forall c v, get res c = Some v -> get res' c = Some v) /\
  (forall c, used c -> exists v, get res' c = Some v) /\
  (forall c v, get res c = None -> get res' c = Some v -> used c /\ exists q, v = Some (Some q) /\ known c q).
(** nothing changes but the resources of the schedules *)
Inductive Clocked (known : string -> Q -> Prop) : gop -> gop -> Prop :=
  | C_leaf : forall id l, ~ empty l -> Clocked known (GLeaf id l) (GLeaf id l)
  | C_asm : forall c d, Clocked known (GAsm c d) (GAsm c d)
  | C_loop : forall n b b', Clocked known b b' -> Clocked known (GLoop n b) (GLoop n b')
  | C_cond : forall u b b', Clocked known b b' -> Clocked known (GCond u b) (GCond u b')
  | C_comp : forall e m g r b b', Clocked known b b' -> Clocked known (GComp e m g r b) (GComp e m g r b')
  | C_sched : forall own d res res' n ops ops' ss, Forall2 (fun x y => fst x = fst y /\ Clocked known (snd x) (snd y)) ops ops' -> Completed known (UsedIn ops) res res' ->
      Clocked known (GSched own d res n ops ss) (GSched own d res' n ops' ss).
(** [o] contains no pulse compensation *)
Definition no_compensation (o : gop) : Prop := forall e m g r b, ~ Within o (GComp e m g r b).
