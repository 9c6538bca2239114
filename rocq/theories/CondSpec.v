(** What conditional playback means, in terms of when things happen and of the trigger counters of the sequencers. *)
From Verif Require Import Base CircModel CondModel.
From Coq Require Import List.
Open Scope Q_scope.

(** When [o] is run from time [t], the operation [x] starts at [t']. Loops are unrolled; [x] is an operation that is not a schedule or loop. What is inside a conditional is not looked at. *)
Inductive Runs : cop -> Q -> Q -> cop -> Prop :=
  | R_leaf l p d t t' : t' == t -> Runs (KLeaf l p d) t t' (KLeaf l p d)
  | R_latch p t t' : t' == t -> Runs (KLatch p) t t' (KLatch p)
  | R_cond l a i c f b t t' : t' == t -> Runs (KCond l a i c f b) t t' (KCond l a i c f b)
  | R_loop n b t t' x (i : Z) : (0 <= i < n)%Z -> Runs b (t + inject_Z i * dur_of b) t' x -> Runs (KLoop n b) t t' x
  | R_sched d ops items a id o t t' x : In (a, id) items -> get ops id = Some o -> Runs o (t + a) t' x -> Runs (KSched d ops items) t t' x.
(** [x] occurs in [o], outside the bodies of conditionals *)
Inductive Sub : cop -> cop -> Prop :=
  | S_here x : Sub x x
  | S_loop n b x : Sub x b -> Sub x (KLoop n b)
  | S_sched d ops items k o x : get ops k = Some o -> Sub x o -> Sub x (KSched d ops items).

(** [o] has pulses or acquisitions on the port-clock [pc], in schedules, loops or conditionals at any depth *)
Inductive Uses (pc : portclock) : cop -> Prop :=
  | U_leaf l p d : In pc p -> Uses pc (KLeaf l p d)
  | U_latch : Uses pc (KLatch pc)
  | U_loop n b : Uses pc b -> Uses pc (KLoop n b)
  | U_cond l a i c f b : Uses pc b -> Uses pc (KCond l a i c f b)
  | U_sched d ops items k o : In (k, o) ops -> Uses pc o -> Uses pc (KSched d ops items).
(** the acquisition [a] is asked to send its result to the label [l] (in the case of a dual threshold: if the count is of kind [k]) *)
Inductive Labelled : acq -> option kind -> string -> Prop :=
  | L_thr a l : a_proto a = PThresholded (Some l) -> Labelled a None l
  | L_weighted a l : a_proto a = PWeighted (Some l) -> Labelled a None l
  | L_trigger a l c n : a_proto a = PTrigger (Some l) c n -> Labelled a None l
  | L_low a l m h i : a_proto a = PDual (Some l) m h i -> Labelled a (Some Low) l
  | L_mid a lo l h i : a_proto a = PDual lo (Some l) h i -> Labelled a (Some Mid) l
  | L_high a lo m l i : a_proto a = PDual lo m (Some l) i -> Labelled a (Some High) l
  | L_invalid a lo m h l : a_proto a = PDual lo m h (Some l) -> Labelled a (Some Invalid) l.
(** in the compiled schedule [a] sends triggers to the address [x] (of the kind [k]): the entries read by analog.py l.295-315 and timetag.py l.350-436 *)
Definition SendsTo (a : acq) (k : option kind) (x : Z) : Prop :=
  match k with None => a_addr a = Some x | Some k => In (k, x) (a_addrs a) end.

(** ** The hardware *)
(** a trigger: when it arrives, on which address, and when the acquisition it comes from started *)
Record trigger := { arrives : Q; on_address : Z; started : Q }.
(** Triggers of a run of [o]: each comes from an executed acquisition and arrives within [delay] of the start of the operation, but not in the first 5 ns of the acquisition. *)
Definition TriggersOf (o : cop) (delay : Q) (trs : list trigger) : Prop :=
  forall r, In r trs -> exists t l p d a k, Runs o 0 t (KLeaf l p d) /\ In a l /\ SendsTo a k (on_address r) /\ started r == t /\ t + a_t0 a + (5 # 1000000000) <= arrives r <= t + delay.
(** The counter of an address in the sequencer of a port-clock is set to zero by a LatchReset, and counts the triggers that arrive. The counter at [t] counts [r] if it arrived and there was no reset since. *)
Definition CountedAt (o : cop) (pc : portclock) (x : Z) (t : Q) (r : trigger) : Prop :=
  on_address r = x /\ arrives r <= t /\ ~ exists t', Runs o 0 t' (KLatch pc) /\ arrives r <= t' <= t.
(** Conditionals wait for the triggers: none runs between the start of an acquisition with its label and the arrival of its triggers; all acquisitions start at or after the start of their operation and not less than 5 ns before the end of [delay]; the acquisitions with labels of one operation start together. *)
Definition Waits (o : cop) (delay : Q) : Prop :=
  (forall ta la p d a k lbl tc x i c f b, Runs o 0 ta (KLeaf la p d) -> In a la -> Labelled a k lbl -> Runs o 0 tc (KCond lbl x i c f b) -> tc < ta \/ ta + delay <= tc) /\
  (forall ta la p d a, Runs o 0 ta (KLeaf la p d) -> In a la -> 0 <= a_t0 a /\ a_t0 a + (5 # 1000000000) <= delay) /\
  (forall ta la p d a k l a' k' l', Runs o 0 ta (KLeaf la p d) -> In a la -> In a' la -> Labelled a k l -> Labelled a' k' l' -> a_t0 a == a_t0 a').

(** ** The schedules considered *)
(** the first acquisition of an operation has a label unless none has, and none of them is weighted *)
Definition LabelsOk (l : list acq) : Prop :=
  (forall a k lbl, In a l -> Labelled a k lbl -> exists a0 r k0 l0, l = a0 :: r /\ Labelled a0 k0 l0) /\ (forall a lbl, In a l -> a_proto a <> PWeighted (Some lbl)).
(** an operation, under any number of loops *)
Inductive Bare : cop -> list acq -> Prop :=
  | B_leaf l p d : Bare (KLeaf l p d) l
  | B_loop n b l : Bare b l -> Bare (KLoop n b) l.
(** No LatchResets and addresses yet; labels as above; an acquisition with a label is not the whole body of a loop; every schedulable has its operation; the hash of a LatchReset is that of no other operation. *)
Definition NodeOk (latch_id : portclock -> string) (x : cop) : Prop :=
  match x with
  | KLeaf l _ _ => LabelsOk l /\ forall a, In a l -> a_addr a = None /\ a_addrs a = []
  | KLatch _ => False
  | KLoop _ b => forall l a k lbl, Bare b l -> In a l -> ~ Labelled a k lbl
  | KCond _ _ _ _ _ _ => True
  | KSched _ ops items => (forall pc, get ops (latch_id pc) = None) /\ forall a id, In (a, id) items -> get ops id <> None
  end.
Definition Considered (latch_id : portclock -> string) (o : cop) : Prop := (forall p q, latch_id p = latch_id q -> p = q) /\ (exists d ops items, o = KSched d ops items) /\ forall x, Sub x o -> NodeOk latch_id x.

(** the acquisitions, pulses and conditionals of [o] in the order of the dictionaries [operations] *)
Fixpoint listing (o : cop) : list cop :=
  match o with
  | KLatch _ => []
  | KLeaf _ _ _ | KCond _ _ _ _ _ _ => [o]
  | KLoop _ b => listing b
  | KSched _ ops _ => flat_map (fun '(_, o) => listing o) ops
  end.
(** [x'] is [x] up to feedback trigger addresses and settings *)
Definition SameOp (x x' : cop) : Prop :=
  match x, x' with
  | KLeaf l p d, KLeaf l' p' d' => Forall2 (fun a a' => a_proto a = a_proto a' /\ a_t0 a = a_t0 a' /\ a_pc a = a_pc a') l l' /\ p = p' /\ d = d'
  | KCond l _ _ _ f b, KCond l' _ _ _ f' b' => l = l' /\ f = f' /\ b = b'
  | _, _ => False
  end.
