(** Vocabulary for the library schedules (C44): the time line of a compiled schedule. *)
From Coq Require Import Ascii.
From Verif Require Import Base TimingModel LibModel.
Open Scope Q_scope.
Open Scope string_scope.

(** What uuid4 yields: a different string for every call, made of the digits 0-9a-f and dashes. *)
Definition uuid_char (c : ascii) : bool := existsb (Ascii.eqb c) (list_ascii_of_string "0123456789abcdef-").
Definition Uuids (u : nat -> string) : Prop :=
  (forall i j, u i = u j -> i = j) /\ (forall k, forallb uuid_char (list_ascii_of_string (u k)) = true).

(** [Timeline gdur gdelay s tl]: the timing pass accepts the schedule [s] when the gates have the durations [gdur] and the
    next_operation_delays [gdelay]; [tl] lists the operations of [s] in the order in which they were added, with label and start time. *)
Definition Timeline (gdur : lop -> Q) (gdelay : lop -> option Q) (s : lsched) (tl : list (string * lop * Q)) : Prop :=
  exists d items,
    determine ASAP (to_tree gdur gdelay s) = Ok (OSched (Some d) None (l_reps s) items) /\
    map fst tl = map (fun e => (e_name e, e_op e)) (l_entries s) /\
    map (fun x => (fst (fst x), Some (snd x))) tl = map (fun i => (it_name i, it_abs i)) items.

(** [seg] stands in [tl] at position [n] *)
Definition Segment {A} (tl : list A) (n : nat) (seg : list A) : Prop :=
  exists pre post, tl = (pre ++ seg ++ post)%list /\ List.length pre = n.

(** only measurements delay the next operation *)
Definition OnlyMeasureDelays (gdelay : lop -> option Q) : Prop :=
  forall o, gdelay o <> None -> exists qs p b, o = MeasureGate qs p b.
Definition delay (gdelay : lop -> option Q) (o : lop) : Q := match gdelay o with Some d => d | None => 0 end.

(** how long an operation lasts (loops excluded) *)
Definition duration (gdur : lop -> Q) (o : lop) : Q :=
  match o with
  | Idle d | Square d _ _ _ | Drag d _ _ _ _ _ | TraceAcq d _ _ _ => d
  | SSB d _ _ _ _ _ t0 => d + t0
  | SetFreq _ _ | Offset _ _ _ _ | Loop _ _ => 0
  | _ => gdur o
  end.
(** the operation at position [n] of the time line starts when the one added before it ends (plus the delay that one asks for) *)
Definition AfterPrevious (gdur : lop -> Q) (gdelay : lop -> option Q) (tl : list (string * lop * Q)) (n : nat) : Prop :=
  forall m name o t name' o' t', n = S m -> nth_error tl m = Some (name, o, t) -> nth_error tl n = Some (name', o', t') ->
    t' == t + duration gdur o + (match o with MeasureGate _ _ _ => delay gdelay o | _ => 0 end).
