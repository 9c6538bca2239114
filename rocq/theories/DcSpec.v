(** What the words of C60 mean: schedules as trees, and the corrected tree. *)
From Verif Require Import Base DcModel.
Local Open Scope string_scope.

(** A schedule, read off the objects *)
Record leaf := { lname : string; lpulses : list pulse; lacqs : list nat; lrest : nat; ldur : Q }.
Inductive tree := TSched (operations : list (string * tree)) | TFlow (body : tree) | TOp (o : leaf).

(** The object at [l] is the schedule (or operation) [t], made of the objects and pulse lists [fp].  The keys of a dictionary are distinct. *)
Inductive part := PObj (l : loc) | PList (l : loc).
Inductive stores (h : heap) : loc -> tree -> list part -> Prop :=
  | stores_op l o ps : nth_error (objs h) l = Some (Op o) -> nth_error (lists h) (opulses o) = Some ps ->
      stores h l (TOp {| lname := oname o; lpulses := ps; lacqs := oacqs o; lrest := orest o; ldur := odur o |}) [PObj l; PList (opulses o)]
  | stores_flow l b t fp : nth_error (objs h) l = Some (Flow b) -> stores h b t fp -> stores h l (TFlow t) (PObj l :: fp)
  | stores_sched l ks ts fp : nth_error (objs h) l = Some (Sched ks) -> NoDup (map fst ks) -> stores_all h ks ts fp -> stores h l (TSched ts) (PObj l :: fp)
with stores_all (h : heap) : list (string * loc) -> list (string * tree) -> list part -> Prop :=
  | all_nil : stores_all h [] [] []
  | all_cons k l ks t ts fp fps : stores h l t fp -> stores_all h ks ts fps -> stores_all h ((k, l) :: ks) ((k, t) :: ts) (fp ++ fps).
(** no object is part of the schedule twice *)
Definition unshared (fp : list part) : Prop := NoDup fp.
Definition fresh_for (h : heap) (x : part) : Prop := match x with PObj l => (List.length (objs h) <= l)%nat | PList l => (List.length (lists h) <= l)%nat end.
Definition same_at (h h' : heap) (x : part) : Prop :=
  match x with PObj l => nth_error (objs h') l = nth_error (objs h) l | PList l => nth_error (lists h') l = nth_error (lists h) l end.

Section Spec.
  Variable sample : pulse -> Q -> result (list Q).
  Variable run_filter : nat -> list Q -> result (list Q).
  Variable corrections : list (string * correction).

  (** the software correction that the configuration has for the port and clock of a pulse, if any *)
  Definition has_correction (p : pulse) (c : software) : Prop :=
    lookup (portclock p) corrections = Some (Software c) \/
    exists ty, lookup (portclock p) corrections = Some (Legacy ty (Ok c)) /\ (ty = None \/ ty = Some "software").
  Definition no_software (p : pulse) : Prop :=
    lookup (portclock p) corrections = None \/ lookup (portclock p) corrections = Some Hardware \/
    exists ty c, lookup (portclock p) corrections = Some (Legacy (Some ty) c) /\ ty <> "software".

  (** the times 0, d/(n-1), 2 d/(n-1), ..., d *)
  Definition evenly_spaced (d : Q) (t : list Q) : Prop :=
    forall i x, nth_error t i = Some x -> x * inject_Z (Z.of_nat (List.length t - 1)) == inject_Z (Z.of_nat i) * d.
  (** [q] is [p] sampled, filtered and clipped: on the same port and clock, at the same time, for the same time *)
  Definition corrected_as (p : pulse) (c : software) (q : pulse) : Prop :=
    exists w v s t, sample p (rate c) = Ok w /\ run_filter (filter_func c) w = Ok v /\
      pwave q = Sampled s t /\ List.length t = List.length s /\ (2 <= List.length s)%nat /\ evenly_spaced (pdur p) t /\
      (forall i x, nth_error v i = Some x -> exists y, nth_error s i = Some y /\
         match clipping_values c with
         | Some [lo; hi] => (lo <= hi -> (lo <= x <= hi -> y == x) /\ (x <= lo -> y == lo) /\ (hi <= x -> y == hi))
         | _ => y = x
         end) /\
      (List.length s = List.length v \/ List.length v = 1%nat /\ exists y, s = [y; y]) /\
      pport q = pport p /\ pclock q = pclock p /\ pt0 q = pt0 p /\ pdur q == pdur p /\ poffset q = false.

  (** an operation with a voltage offset is left alone *)
  Definition has_offset (ps : list pulse) : Prop := exists p, In p ps /\ poffset p = true.
  Definition pulse_after (ps : list pulse) (p q : pulse) : Prop :=
    (no_software p /\ q = p) \/ (has_offset ps /\ q = p) \/ (~ has_offset ps /\ exists c, has_correction p c /\ corrected_as p c q).
  (** whether the first pulse is corrected *)
  Definition first_corrected (ps : list pulse) : Prop := exists p r c, ps = p :: r /\ has_correction p c /\ ~ has_offset ps.
  Definition leaf_after (a b : leaf) : Prop :=
    Forall2 (pulse_after (lpulses a)) (lpulses a) (lpulses b) /\
    (first_corrected (lpulses a) -> lacqs b = [] /\ exists p r, lpulses a = p :: r /\ ldur b == pt0 p + pdur p) /\
    (~ first_corrected (lpulses a) -> lname b = lname a /\ lacqs b = lacqs a /\ lrest b = lrest a /\ ldur b = ldur a).
  (** every operation is corrected, once; the schedule is otherwise as it was *)
  Inductive tree_after : tree -> tree -> Prop :=
    | after_op a b : leaf_after a b -> tree_after (TOp a) (TOp b)
    | after_flow t u : tree_after t u -> tree_after (TFlow t) (TFlow u)
    | after_sched ts us : trees_after ts us -> tree_after (TSched ts) (TSched us)
  with trees_after : list (string * tree) -> list (string * tree) -> Prop :=
    | after_nil : trees_after [] []
    | after_cons k t u ts us : tree_after t u -> trees_after ts us -> trees_after ((k, t) :: ts) ((k, u) :: us).
End Spec.
