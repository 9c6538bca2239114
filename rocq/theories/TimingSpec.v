(** Independent vocabulary for the timing properties (C01-C07): what a timing constraint means,
    in terms of the user's schedule [l] and of the start times [out] after compilation. *)
From Coq Require Import Permutation Relations.
From Verif Require Import Base TimingModel.
Open Scope Q_scope.

(** position of a reference point inside an operation of duration [d] *)
Definition pt_offset (p : refpt) (d : Q) : option Q :=
  match p with
  | PtStart => Some 0
  | PtCenter => Some (d / 2)
  | PtEnd => Some d
  | PtOther => None
  end.

(** [Starts out n t]: schedulable [n] has start time [t]. *)
Definition Starts (out : list sch) (n : string) (t : Q) : Prop :=
  exists s, In s out /\ s_name s = n /\ s_abs s = Some t.

(** What the documentation of [Schedule.add] says about omitted arguments: the first constraint
    refers to the previous (ASAP) / next (ALAP) schedulable. *)
Definition the_ref (st : strategy) (l : list sch) (k j : nat) (c : tconstr) : option string :=
  match tc_ref c with
  | Some r => Some r
  | None =>
    match j with
    | O => match st, k with
           | ASAP, O => None
           | ASAP, S k' => option_map s_name (nth_error l k')
           | ALAP, _ => option_map s_name (nth_error l (S k))
           end
    | S _ => None
    end
  end.

Definition the_pt (st : strategy) (j : nat) (c : tconstr) : refpt :=
  match tc_pt c, j, st with
  | Some p, _, _ => p
  | None, O, ALAP => PtStart
  | None, _, _ => PtEnd
  end.

Definition the_ptnew (st : strategy) (j : nat) (c : tconstr) : refpt :=
  match tc_ptnew c, j, st with
  | Some p, _, _ => p
  | None, O, ALAP => PtEnd
  | None, _, _ => PtStart
  end.

Definition delay_or_0 (s : sch) : Q := match s_delay s with Some d => d | None => 0 end.

(** [Implied st l out k j c q]: constraint [c], the [j]-th of the [k]-th schedulable of the
    schedule [l], asks for start time [q], given the start times in [out]. *)
Inductive Implied (st : strategy) (l out : list sch) (k j : nat) (c : tconstr) : Q -> Prop :=
| Implied_intro : forall s r sr tr off off_new,
    nth_error l k = Some s ->
    the_ref st l k j c = Some r ->
    In sr l -> s_name sr = r ->
    Starts out r tr ->
    pt_offset (the_pt st j c) (s_dur sr) = Some off ->
    pt_offset (the_ptnew st j c) (s_dur s) = Some off_new ->
    Implied st l out k j c (tr + off + tc_rel c + delay_or_0 sr - off_new).

(** the schedulable that does not depend on any other: the first (ASAP) or the last (ALAP) *)
Definition root_pos (st : strategy) (l : list sch) : nat :=
  match st with ASAP => O | ALAP => pred (List.length l) end.

Definition fresh (l : list sch) : Prop := forall s, In s l -> s_abs s = None.
Definition keys_ok (l : list sch) : Prop := NoDup (map s_name l).

(** "schedulable [b] refers to schedulable [a]" (defaults included) *)
Definition RefersTo (st : strategy) (l : list sch) (a b : string) : Prop :=
  exists k j s c, nth_error l k = Some s /\ s_name s = b /\ nth_error (s_tcs s) j = Some c /\
                  the_ref st l k j c = Some a.

(** [o] lists every schedulable once, each after everything it refers to. *)
Definition Topological (st : strategy) (l : list sch) (o : list string) : Prop :=
  Permutation o (map s_name l) /\
  forall pre n post, o = pre ++ n :: post -> forall a, RefersTo st l a n -> In a pre.

Definition Circular (st : strategy) (l : list sch) : Prop :=
  exists n, clos_trans _ (RefersTo st l) n n.

(** every reference is to a schedulable of the schedule *)
Definition AllKnown (st : strategy) (l : list sch) : Prop :=
  forall a b, RefersTo st l a b -> In a (map s_name l).

(** every schedulable has a start time *)
Definition timed (l : list sch) : Prop := forall s, In s l -> exists t, s_abs s = Some t.

(** The requests the timing pass cannot serve for reasons other than references. *)
Definition Servable (st : strategy) (l : list sch) : Prop :=
  l <> [] /\
  (forall k s, nth_error l k = Some s -> s_tcs s <> []) /\
  (st = ALAP -> forall s, In s l -> List.length (s_tcs s) = 1%nat) /\
  (forall k s j c, nth_error l k = Some s -> k <> root_pos st l -> nth_error (s_tcs s) j = Some c ->
     the_ref st l k j c <> None /\ the_pt st j c <> PtOther /\ the_ptnew st j c <> PtOther).

(** A schedulable added without any timing argument, whose operation has no
    [next_operation_delay] and a non-negative duration. *)
Definition Unconstrained (s : sch) : Prop :=
  s_tcs s = [{| tc_ref := None; tc_pt := None; tc_ptnew := None; tc_rel := 0 |}] /\
  s_delay s = None /\ 0 <= s_dur s.

Definition sum_Q (l : list Q) : Q := fold_right Qplus 0 l.

(** Everything C01, C04 and C06 promise about one schedule level [l] timed as [out] with duration [d]. *)
Definition LevelTimed (st : strategy) (reps : Z) (l out : list sch) (d : Q) : Prop :=
  map s_name out = map s_name l /\
  (forall k s, nth_error l k = Some s ->
     exists t, Starts out (s_name s) t /\
       (k <> root_pos st l ->
        (forall j c, nth_error (s_tcs s) j = Some c -> exists q, Implied st l out k j c q /\ q <= t) /\
        (exists j c q, nth_error (s_tcs s) j = Some c /\ Implied st l out k j c q /\ q == t))) /\
  (forall n t, Starts out n t -> 0 <= t) /\
  (exists n t, Starts out n t /\ t == 0) /\
  (exists D, d == inject_Z reps * D /\ 0 <= D /\
     (forall n t s, Starts out n t -> In s l -> s_name s = n -> t + s_dur s <= D) /\
     (D == 0 \/ exists n t s, Starts out n t /\ In s l /\ s_name s = n /\ D == t + s_dur s)).

(** How long an operation of a timed tree lasts: a loop lasts [n] times its body, a conditional its body plus the
    hardware buffer time, a schedule the duration found for it. *)
Inductive Lasts : op -> Q -> Prop :=
| L_leaf : forall v d dl, Lasts (OLeaf v d dl) d
| L_sched : forall d dl reps items, Lasts (OSched (Some d) dl reps items) d
| L_loop : forall n b d, Lasts b d -> Lasts (OLoop n b) (inject_Z n * d)
| L_cond : forall q b d, Lasts b d -> Lasts (OCond q b) (d + q).

(** [s] is what the timing of one level knows about the schedulable [i] *)
Definition Describes (i : item) (s : sch) : Prop :=
  s_name s = it_name i /\ s_tcs s = it_tcs i /\ s_abs s = it_abs i /\ Lasts (it_op i) (s_dur s) /\
  s_delay s = match it_op i with OLeaf _ _ dl | OSched _ dl _ _ => dl | _ => None end.

(** The same for a whole schedule tree: every nested schedule without a cached duration is timed as a level
    of its own, using the durations of its (already timed) operations. *)
Inductive TreeTimed (st : strategy) : op -> op -> Prop :=
| TT_leaf : forall v d dl, TreeTimed st (OLeaf v d dl) (OLeaf v d dl)
| TT_loop : forall n b b', TreeTimed st b b' -> TreeTimed st (OLoop n b) (OLoop n b')
| TT_cond : forall q b b', TreeTimed st b b' -> TreeTimed st (OCond q b) (OCond q b')
| TT_sched : forall dur dl reps items items1 items2 l out d,
    ItemsTimed st items items1 ->
    Forall2 Describes items1 l ->
    LevelTimed st reps l out d ->
    map it_name items2 = map it_name items1 -> map it_op items2 = map it_op items1 ->
    map it_abs items2 = map s_abs out ->
    TreeTimed st (OSched dur dl reps items) (OSched (Some d) dl reps items2)
with ItemsTimed (st : strategy) : list item -> list item -> Prop :=
| IT_nil : ItemsTimed st [] []
| IT_cached : forall n t a dur dl reps is r r',
    ItemsTimed st r r' ->
    ItemsTimed st (Item n t a (OSched (Some dur) dl reps is) :: r) (Item n t a (OSched (Some dur) dl reps is) :: r')
| IT_cons : forall n t a o o' r r',
    TreeTimed st o o' -> ItemsTimed st r r' ->
    ItemsTimed st (Item n t a o :: r) (Item n t a o' :: r').

(** labels are unique and no start time is set yet, at every level *)
Inductive TreeFresh : op -> Prop :=
| TF_leaf : forall v d dl, TreeFresh (OLeaf v d dl)
| TF_loop : forall n b, TreeFresh b -> TreeFresh (OLoop n b)
| TF_cond : forall q b, TreeFresh b -> TreeFresh (OCond q b)
| TF_sched : forall dur dl reps items,
    NoDup (map it_name items) ->
    (forall i, In i items -> it_abs i = None /\ TreeFresh (it_op i)) ->
    TreeFresh (OSched dur dl reps items).

(** [Executes o t s d]: when [o] starts at time [t], one of the operations in it is executed from [s] for [d]; the [i]-th
    iteration of a loop starts [i] body durations after the loop. *)
Inductive Executes : op -> Q -> Q -> Q -> Prop :=
| E_leaf : forall v d dl t, Executes (OLeaf v d dl) t t d
| E_sched : forall dur dl reps items i a t s d,
    In i items -> it_abs i = Some a -> Executes (it_op i) (t + a) s d -> Executes (OSched dur dl reps items) t s d
| E_loop : forall n b db k t s d,
    Lasts b db -> (0 <= k < n)%Z -> Executes b (t + inject_Z k * db) s d -> Executes (OLoop n b) t s d
| E_cond : forall q b t s d, Executes b t s d -> Executes (OCond q b) t s d.

(** durations and buffer times are not negative, every schedule is played at least once, and no nested schedule
    brings a duration of an earlier compilation *)
Inductive Sound : op -> Prop :=
| S_leaf : forall v d dl, 0 <= d -> Sound (OLeaf v d dl)
| S_loop : forall n b, Sound b -> Sound (OLoop n b)
| S_cond : forall q b, 0 <= q -> Sound b -> Sound (OCond q b)
| S_sched : forall dl reps items, (1 <= reps)%Z -> (forall i, In i items -> Sound (it_op i)) ->
    Sound (OSched None dl reps items).
