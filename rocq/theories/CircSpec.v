(** What it means to compile a circuit to the device layer (C40) and to have clocks (C41), stated without fuel, folds or stores. *)
From Verif Require Import Base TimingModel TableModel CircModel.
From Coq Require Import List.
Open Scope string_scope.
Open Scope list_scope.
Open Scope Q_scope.

(** ** Arguments of a factory function *)
(** [Overridden g over k v]: argument [k] is overridden with [v]; the overrides of the gate a gate is part of ([over]) win over its own *)
Definition overridden (g : gate) (over : dict val) (k : string) : option val := match get over k with Some v => Some v | None => get (own_overrides g) k end.
(** the value the gate gives for [k], for the [i]-th element of a multiplexed gate *)
Inductive GateArg (g : gate) : option nat -> string -> val -> Prop :=
  | GA_plain : forall k v, get (args g) k = Some v -> GateArg g None k v
  | GA_shared : forall i k v, get (args g) k = Some v -> (forall l, v <> VList l) -> GateArg g (Some i) k v
  | GA_each : forall i k l v, get (args g) k = Some (VList l) -> nth_error l i = Some v -> GateArg g (Some i) k v.
Definition skips_delay (g : gate) : Prop := is_measure g = true /\ apply_acq_delay g = false.
(** the acquisition delay [next_operation_delay] makes up for: the configured one (for a multiplexed measurement, the gate's if the configuration says so) *)
Inductive AcqDelay (g : gate) (c : opcfg) : option nat -> val -> Prop :=
  | AD_single : forall v, get (kwargs c) "acq_delay" = Some v -> AcqDelay g c None v
  | AD_config : forall i v, ~ In "acq_delay" (gate_keys c) -> get (kwargs c) "acq_delay" = Some v -> AcqDelay g c (Some i) v
  | AD_gate : forall i v, In "acq_delay" (gate_keys c) -> GateArg g (Some i) "acq_delay" v -> AcqDelay g c (Some i) v.
(** [Minus v w]: w is -v *)
Inductive Minus : val -> val -> Prop := M_num : forall q, Minus (VNum q) (VNum (- q)) | M_true : Minus (VBool true) (VNum (-1)) | M_false : Minus (VBool false) (VNum 0).
(** the arguments before overriding. In a single-element gate an argument listed in [gate_keys] comes from the gate also if it is next_operation_delay; in a multiplexed gate the delay wins. *)
Inductive BaseArg (g : gate) (c : opcfg) (i : option nat) : string -> val -> Prop :=
  | BA_gate : forall k v, In k (gate_keys c) -> (k = "next_operation_delay" -> i <> None -> ~ skips_delay g) -> GateArg g i k v -> BaseArg g c i k v
  | BA_delay : forall v w, skips_delay g -> (i = None -> ~ In "next_operation_delay" (gate_keys c)) -> AcqDelay g c i v -> Minus v w -> BaseArg g c i "next_operation_delay" w
  | BA_config : forall k v, ~ In k (gate_keys c) -> (k = "next_operation_delay" -> ~ skips_delay g) -> get (kwargs c) k = Some v -> BaseArg g c i k v.
(** [CalledWith g c i over kw]: the keyword arguments [kw]: those of the configuration and the gate; an override replaces the value of an argument but does not add one *)
Definition CalledWith (g : gate) (c : opcfg) (i : option nat) (over : dict val) (kw : dict val) : Prop :=
  forall k v, get kw k = Some v <-> exists w, BaseArg g c i k w /\ v = match overridden g over k with Some x => x | None => w end.
(** the configuration of operation [t] on element [q], and on the edge of a two-element gate: the edge from parent to child, or for symmetric gates the one in the other direction if there is no such edge *)
Definition OnElement (cfg : devcfg) (q t : string) (c : opcfg) : Prop := exists el, get (elements cfg) q = Some el /\ get el t = Some c.
Definition OnEdge (cfg : devcfg) (g : gate) (a b : string) (c : opcfg) : Prop :=
  exists ed, get ed (gtype g) = Some c /\
    (get (edges cfg) (edge_name a b) = Some ed \/ (get (edges cfg) (edge_name a b) = None /\ symmetric g = true /\ get (edges cfg) (edge_name b a) = Some ed)).
(** the gate gives everything it is asked for *)
Definition Supplied (g : gate) (c : opcfg) (i : option nat) : Prop :=
  (forall k, In k (gate_keys c) -> exists v, GateArg g i k v) /\ (skips_delay g -> exists v w, AcqDelay g c i v /\ Minus v w).
(** the device representation of gate [g] according to [c] *)
Definition Represents (g : gate) (c : opcfg) (i : option nat) (over : dict val) (dev : gop) : Prop :=
  exists f kw, factory c = Some f /\ Supplied g c i /\ CalledWith g c i over kw /\ f kw = Ok dev.
Definition is_schedule (o : gop) : Prop := exists own d r n ops ss, o = GSched own d r n ops ss.
Definition empty (l : leaf) : Prop := pulses l = [] /\ acqs l = [].
(** the operation with the pulses and acquisitions of the given operations, in order *)
Definition info_of (o : gop) : list info * list info := match o with GLeaf _ d => (pulses d, acqs d) | _ => ([], []) end.
Definition extended (l : leaf) (devs : list gop) : leaf :=
  {| l_gate := l_gate l; pulses := pulses l ++ flat_map (fun d => fst (info_of d)) devs; acqs := acqs l ++ flat_map (fun d => snd (info_of d)) devs |}.
(** the overrides that hold inside a schedule that represents [g] *)
Definition inside (dev : gop) (g : gate) (over : dict val) : dict val := merged (over_of dev) (merged (own_overrides g) over).

(** ** Compilation *)
Inductive Device (cfg : devcfg) : dict val -> gop -> gop -> Prop :=
  | D_sched : forall over own d r n ops ops' ss,
      DeviceOps cfg (merged own over) ops ops' -> Device cfg over (GSched own d r n ops ss) (GSched own d r n ops' ss)
  | D_loop : forall over n b b', Device cfg over b b' -> Device cfg over (GLoop n b) (GLoop n b')
  | D_cond : forall over u b b', Device cfg over b b' -> Device cfg over (GCond u b) (GCond u b')
  | D_comp : forall over qs m g r b b' max grid rate,
      foldM (comp_step cfg) qs ([], None, None) = Ok (max, grid, rate) -> Device cfg over b b' -> Device cfg over (GComp (Some qs) m g r b) (GComp None max grid rate b')
  | D_comp_device : forall over m g r b b', Device cfg over b b' -> Device cfg over (GComp None m g r b) (GComp None m g r b')
  | D_asm : forall over c d, Device cfg over (GAsm c d) (GAsm c d)
  (* an operation that already has pulses or acquisitions *)
  | D_done : forall over id l, ~ empty l -> Device cfg over (GLeaf id l) (GLeaf id l)
  (* a gate on one element *)
  | D_single : forall over id l g q c dev o',
      empty l -> l_gate l = Some g -> elems g = [q] -> OnElement cfg q (gtype g) c -> Represents g c None over dev -> Becomes cfg over id l g dev o' -> Device cfg over (GLeaf id l) o'
  (* a gate on two elements that the first does not know *)
  | D_two : forall over id l g a b el c dev o',
      empty l -> l_gate l = Some g -> elems g = [a; b] -> get (elements cfg) a = Some el -> get el (gtype g) = None ->
      OnEdge cfg g a b c -> Represents g c None over dev -> Becomes cfg over id l g dev o' -> Device cfg over (GLeaf id l) o'
  (* any other gate: each element is treated separately; the parts that are schedules are put together to start at the same time as the others *)
  | D_multi : forall over id l g plain subs,
      empty l -> l_gate l = Some g -> List.length (elems g) <> 1%nat ->
      (forall a b, elems g = [a; b] -> exists c, OnElement cfg a (gtype g) c) ->
      Parts cfg over g 0 (elems g) plain subs ->
      Device cfg over (GLeaf id l)
        match subs with [] => GLeaf id (extended l plain) | _ => inner_schedule ((if match plain with [] => true | _ => false end then [] else [GLeaf id (extended l plain)]) ++ subs) end
with DeviceOps (cfg : devcfg) : dict val -> list (string * gop) -> list (string * gop) -> Prop :=
  | DO_nil : forall over, DeviceOps cfg over [] []
  | DO_cons : forall over k x x' r r', Device cfg over x x' -> DeviceOps cfg over r r' -> DeviceOps cfg over ((k, x) :: r) ((k, x') :: r')
(* a gate with device representation [dev]: a schedule takes its place (compiled itself), anything else adds its pulses and acquisitions *)
with Becomes (cfg : devcfg) : dict val -> option nat -> leaf -> gate -> gop -> gop -> Prop :=
  | B_sched : forall over id l g dev o', is_schedule dev -> Device cfg (inside dev g over) dev o' -> Becomes cfg over id l g dev o'
  | B_leaf : forall over id l g dev, ~ is_schedule dev -> Becomes cfg over id l g dev (GLeaf id (extended l [dev]))
(* the device representations of a multiplexed gate, element by element, starting with the [i]-th: those that are not schedules, and the compiled schedules *)
with Parts (cfg : devcfg) : dict val -> gate -> nat -> list string -> list gop -> list gop -> Prop :=
  | P_nil : forall over g i, Parts cfg over g i [] [] []
  | P_plain : forall over g i q qs c dev plain subs, OnElement cfg q (gtype g) c -> Represents g c (Some i) over dev -> ~ is_schedule dev ->
      Parts cfg over g (S i) qs plain subs -> Parts cfg over g i (q :: qs) (dev :: plain) subs
  | P_sched : forall over g i q qs c dev o' plain subs, OnElement cfg q (gtype g) c -> Represents g c (Some i) over dev -> is_schedule dev ->
      Device cfg (inside dev g over) dev o' -> Parts cfg over g (S i) qs plain subs -> Parts cfg over g i (q :: qs) plain (o' :: subs).
Scheme Device_ind' := Minimality for Device Sort Prop
  with DeviceOps_ind' := Minimality for DeviceOps Sort Prop
  with Becomes_ind' := Minimality for Becomes Sort Prop
  with Parts_ind' := Minimality for Parts Sort Prop.
Combined Scheme Device_mut from Device_ind', DeviceOps_ind', Becomes_ind', Parts_ind'.

(** ** Configurations *)
(** the operations configured anywhere *)
Definition Configured (cfg : devcfg) (c : opcfg) : Prop := exists x d t, (get (elements cfg) x = Some d \/ get (edges cfg) x = Some d) /\ get d t = Some c.
(** keyword arguments have no order *)
Definition unordered (cfg : devcfg) : Prop := forall c f kw kw', Configured cfg c -> factory c = Some f -> (forall k, get kw k = get kw' k) -> f kw = f kw'.
(** [Within o x]: x is an operation in o (also o itself) *)
Inductive Within : gop -> gop -> Prop :=
  | W_self : forall o, Within o o
  | W_sched : forall own d r n ops ss k x y, In (k, x) ops -> Within x y -> Within (GSched own d r n ops ss) y
  | W_loop : forall n b y, Within b y -> Within (GLoop n b) y
  | W_cond : forall u b y, Within b y -> Within (GCond u b) y
  | W_comp : forall e m g r b y, Within b y -> Within (GComp e m g r b) y.
(** nothing at the gate level is left *)
Definition device_level (o : gop) : Prop := forall x, Within o x -> match x with GLeaf _ l => ~ empty l | GComp (Some _) _ _ _ _ => False | _ => True end.
(** every gate in [o] acts on something *)
Definition gates_act (o : gop) : Prop := forall id l g, Within o (GLeaf id l) -> empty l -> l_gate l = Some g -> elems g <> [].
(** every factory makes something to play, or a schedule whose gates act on something *)
Definition productive (cfg : devcfg) : Prop :=
  forall c f kw dev, Configured cfg c -> factory c = Some f -> f kw = Ok dev -> (is_schedule dev /\ gates_act dev) \/ exists id l, dev = GLeaf id l /\ ~ empty l.

(** ** Shared operations *)
(** an identity belongs to one operation; the schedules of the user have no device overrides (only gates and factories do); an operation that is reachable from several places is not represented by pulses for one element and by a schedule for another *)
Definition consistent (o : gop) : Prop := forall i l l', Within o (GLeaf (Some i) l) -> Within o (GLeaf (Some i) l') -> l = l'.
Definition no_schedule_overrides (o : gop) : Prop := forall own d r n ops ss, Within o (GSched own d r n ops ss) -> own = [].
Definition unmixed (cfg : devcfg) (over : dict val) (o : gop) : Prop :=
  forall i l g plain subs, Within o (GLeaf (Some i) l) -> empty l -> l_gate l = Some g -> Parts cfg over g 0 (elems g) plain subs -> plain = [] \/ subs = [].
