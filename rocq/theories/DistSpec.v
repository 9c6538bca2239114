(** What a schedule asks of one port-clock, independently of how the operations are collected, sorted and distributed. *)
From Verif Require Import Base Q1Model Q1Machine Q1Spec DistModel.
From Coq Require Import List Permutation.
Open Scope Z_scope.

(** A pulse is for port-clock [p] if it names it; one without a port is for every port-clock with its clock (for all of them if it is a latch reset). An acquisition has to name its port. *)
Definition pulse_for (p : pc) (latch : bool) (e : entry) : bool :=
  match e_port e with
  | Some q => String.eqb q (fst p) && match e_clock e with Some c => String.eqb c (snd p) | None => false end
  | None => latch || match e_clock e with Some c => String.eqb (snd p) c | None => false end
  end.
Definition acq_for (p : pc) (e : entry) : bool :=
  match e_port e with Some q => String.eqb q (fst p) && match e_clock e with Some c => String.eqb c (snd p) | None => false end | None => false end.
Definition leaf_for (p : pc) (latch window : bool) (ps qs : list entry) : list entry :=
  if window then [] else filter (pulse_for p latch) ps ++ filter (acq_for p) qs.
(** an operation anywhere inside is for [p] *)
Fixpoint reaches (p : pc) (o : op) : bool :=
  match o with
  | Leaf lt w ps qs => match leaf_for p lt w ps qs with [] => false | _ => true end
  | Loop _ _ b | Cond _ _ _ b => reaches p b
  | Sub items _ => existsb (fun i => reaches p (snd i)) items
  end.

(** [realises p o t f]: the forest [f] is what [o], started at time [t], asks of port-clock [p]; simultaneous or unordered parts may be listed in any order. *)
Inductive realises (p : pc) : op -> Z -> list pnode -> Prop :=
  | r_leaf lt w ps qs t f : Permutation f (map (fun e => POp (t + e_t0 e) (e_kind e)) (leaf_for p lt w ps qs)) -> realises p (Leaf lt w ps qs) t f
  | r_loop n t0 b t d body : reaches p b = true -> duration b = Some d -> realises p b t body -> realises p (Loop n t0 b) t [PLoop t n body (t + d)]
  | r_cond a t0 buf b t d body : reaches p b = true -> duration b = Some d -> realises p b t body -> realises p (Cond a t0 buf b) t [PCond t a body (t + d)]
  | r_loop_none n t0 b t : reaches p b = false -> realises p (Loop n t0 b) t []
  | r_cond_none a t0 buf b t : reaches p b = false -> realises p (Cond a t0 buf b) t []
  | r_sub items c t fs f : realises_items p items t fs -> Permutation f (List.concat fs) -> realises p (Sub items c) t f
with realises_items (p : pc) : list (Z * op) -> Z -> list (list pnode) -> Prop :=
  | ri_nil t : realises_items p [] t []
  | ri_cons u x r t f fs : realises p x (t + u) f -> realises_items p r t fs -> realises_items p ((u, x) :: r) t (f :: fs).

(** Times that [_determine_absolute_timing_schedule] produces: nothing before the start, nothing after the end; loops and conditionals without time offset; at least one iteration. A WindowOperation has no port (pulse_library.py l.1018-1026). *)
Fixpoint compiled (o : op) : Prop :=
  match o with
  | Leaf _ w ps qs => Forall (fun e => 0 <= e_t0 e /\ 0 <= e_dur e /\ (w = true -> e_port e = None)) (ps ++ qs)
  | Loop n t0 b => 1 <= n /\ t0 = 0 /\ compiled b
  | Cond _ t0 buf b => t0 = 0 /\ 0 <= buf /\ compiled b
  | Sub items c => exists D, c = Some D /\ 0 <= D /\
      (fix go l := match l with [] => True | (u, x) :: r => (0 <= u /\ compiled x /\ (forall d, duration x = Some d -> u + d <= D)) /\ go r end) items
  end.

(** The operations of a schedule with the times they start, nested schedules unfolded, in the order in which they were added. *)
Fixpoint pieces (o : op) (t : Z) : list (Z * op) :=
  match o with
  | Sub items _ => flat_map (fun i => pieces (snd i) (t + fst i)) items
  | _ => [(t, o)]
  end.
Definition is_flow (o : op) : bool := match o with Loop _ _ _ | Cond _ _ _ _ => true | _ => false end.
(** how long an operation lasts, counting one iteration of a loop *)
Definition extent (o : op) : Z := match o with Loop _ _ b | Cond _ _ _ b => match duration b with Some d => d | None => 0 end | _ => match duration o with Some d => d | None => 0 end end.
(** The first operation was added before the second. If one is a loop or conditional and both concern [p], they are not concurrent; if the one that was added later is played first, it ends strictly before the other starts. *)
Definition apart (p : pc) (i j : Z * op) : Prop :=
  reaches p (snd i) = true -> reaches p (snd j) = true -> is_flow (snd i) = true \/ is_flow (snd j) = true ->
  fst i + extent (snd i) <= fst j \/ fst j + extent (snd j) < fst i.
Fixpoint bodies_separate (p : pc) (o : op) : Prop :=
  match o with
  | Leaf _ _ _ _ => True
  | Loop _ _ b | Cond _ _ _ b => ForallOrdPairs (apart p) (pieces b 0) /\ bodies_separate p b
  | Sub items _ => (fix go l := match l with [] => True | (_, x) :: r => bodies_separate p x /\ go r end) items
  end.
(** at no level does an operation on [p] run concurrently with a loop or conditional on [p] *)
Definition separate (p : pc) (o : op) : Prop := ForallOrdPairs (apart p) (pieces o 0) /\ bodies_separate p o.

(** If the body of a loop or conditional concerns [p] at all, it names [p] (port and clock) in some operation. *)
Fixpoint names_port (p : pc) (o : op) : Prop :=
  match o with
  | Leaf _ _ _ _ => True
  | Loop _ _ b | Cond _ _ _ b => (reaches p b = true -> exists l, used b = Ok l /\ In p l) /\ names_port p b
  | Sub items _ => (fix go l := match l with [] => True | (_, x) :: r => names_port p x /\ go r end) items
  end.

(** every execution of an operation on [p], with its time: iteration [i] of a loop over a body of duration [d] starts [i * d] later; [taken]: whether conditions hold *)
Fixpoint executions (taken : bool) (p : pc) (o : op) (t : Z) : list (Z * kind) :=
  match o with
  | Leaf lt w ps qs => map (fun e => (t + e_t0 e, e_kind e)) (leaf_for p lt w ps qs)
  | Loop n _ b => flat_map (fun i => executions taken p b (t + Z.of_nat i * match duration b with Some d => d | None => 0 end)) (seq 0 (Z.to_nat n))
  | Cond _ _ _ b => if taken then executions taken p b t else []
  | Sub items _ => flat_map (fun i => executions taken p (snd i) (t + fst i)) items
  end.
Fixpoint conditionals (o : op) : bool :=
  match o with Leaf _ _ _ _ => false | Loop _ _ b => conditionals b | Cond _ _ _ _ => true | Sub items _ => existsb (fun i => conditionals (snd i)) items end.

(** [explains off evs xs]: the events are those of the executions, no more and no fewer, when schedule time 0 is at [off]; the bin of an append-mode acquisition is that of some state of the bin counters *)
Definition explains (off : Z) (evs : list (Z * event)) (xs : list (Z * kind)) : Prop :=
  exists ys : list (Z * kind * sst), map fst ys = xs /\ Permutation evs (flat_map (fun y => shift (off + fst (fst y)) (op_events (snd (fst y)) (snd y))) ys).

(** every operation on [p] once, whatever the loops and conditionals around it, with the time of its first execution *)
Fixpoint once (p : pc) (o : op) (t : Z) : list (Z * kind) :=
  match o with
  | Leaf lt w ps qs => map (fun e => (t + e_t0 e, e_kind e)) (leaf_for p lt w ps qs)
  | Loop _ _ b | Cond _ _ _ b => once p b t
  | Sub items _ => flat_map (fun i => once p (snd i) (t + fst i)) items
  end.
Definition plain (s : sop) : list (Z * kind) := match s with SOp t k => [(t, k)] | _ => [] end.

(** What the hardware configuration has to offer: the port-clock of every pulse and acquisition that names a port; every operation has pulse or acquisition information; the body of a loop or conditional names at least one port-clock and has a duration. *)
Definition named_ok (mapping : list pc) (e : entry) : Prop := forall q, e_port e = Some q -> exists c, e_clock e = Some c /\ In (q, c) mapping.
Fixpoint assignable (mapping : list pc) (o : op) : Prop :=
  match o with
  | Leaf _ w ps qs => w = true \/ (ps ++ qs <> [] /\ Forall (named_ok mapping) (ps ++ qs))
  | Loop _ _ b | Cond _ _ _ b => (exists l, used b = Ok l /\ l <> [] /\ incl l mapping) /\ duration b <> None /\ assignable mapping b
  | Sub items _ => (fix go l := match l with [] => True | (_, x) :: r => assignable mapping x /\ go r end) items
  end.

(** loop counts fit a register and operations are well-formed for a sequencer with [nb] bin registers *)
Fixpoint fits (nb : nat) (o : op) : Prop :=
  match o with
  | Leaf _ _ ps qs => Forall (fun e => kind_ok nb (e_kind e) = true) (ps ++ qs)
  | Loop n _ b => n < M32 /\ fits nb b
  | Cond _ _ _ b => fits nb b
  | Sub items _ => (fix go l := match l with [] => True | (_, x) :: r => fits nb x /\ go r end) items
  end.

(** [lasts o d]: how long an operation takes. A schedule takes the time recorded in it. *)
Inductive lasts : op -> Z -> Prop :=
  | l_empty lt w : lasts (Leaf lt w [] []) 0
  | l_leaf lt w ps qs e : In e (ps ++ qs) -> (forall e', In e' (ps ++ qs) -> e_t0 e' + e_dur e' <= e_t0 e + e_dur e) -> lasts (Leaf lt w ps qs) (e_t0 e + e_dur e)
  | l_loop n t0 b d : lasts b d -> lasts (Loop n t0 b) (n * d)
  | l_cond a t0 buf b d : lasts b d -> lasts (Cond a t0 buf b) (d + buf)
  | l_sub items d : lasts (Sub items (Some d)) d.
