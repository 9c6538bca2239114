(** Model of backends/circuit_to_device.py: gates are given the pulses and acquisitions the device configuration prescribes (l.35-160, l.470-808), and clocks are added to the schedules that use them (l.163-469). *)
From Verif Require Import Base TimingModel TableModel.
From Coq Require Import List.
Open Scope string_scope.
Open Scope list_scope.
Open Scope Q_scope.

(** ** Dictionaries *)
(** a Python dict: keys in insertion order *)
Definition dict (A : Type) := list (string * A).
Fixpoint get {A} (d : dict A) (k : string) : option A := match d with [] => None | (k', v) :: r => if String.eqb k' k then Some v else get r k end.
Definition has {A} (d : dict A) (k : string) : bool := match get d k with Some _ => true | None => false end.
(** [d[k] = v] *)
Fixpoint put {A} (d : dict A) (k : string) (v : A) : dict A := match d with [] => [(k, v)] | (k', w) :: r => if String.eqb k' k then (k', v) :: r else (k', w) :: put r k v end.
(** [{k: b.get(k, v) for k, v in a.items()}]: the effect of [a[k] = b[k]] for all common keys (keys are unique in a dict) *)
Definition replaced {A} (b a : dict A) : dict A := map (fun '(k, v) => (k, match get b k with Some w => w | None => v end)) a.
(** [{**a, **b}]: the keys of a in their order, then the new ones *)
Definition merged {A} (a b : dict A) : dict A := replaced b a ++ filter (fun '(k, _) => negb (has a k)) b.
(** [d[k]] *)
Definition index {A} (d : dict A) (k : string) : result A := match get d k with Some v => Ok v | None => Err KeyError end.

(** ** Operations *)
(** an argument of a factory function *)
Inductive val := VNone | VNum (q : Q) | VStr (s : string) | VBool (b : bool) | VList (l : list val) | VOther (n : Z).
(** operation.data["gate_info"] (operations/gate_library.py): device_elements, operation_type, symmetric (default False), device_overrides, for a [Measure] apply_acquisition_delay, and all entries by key *)
Record gate := { elems : list string; gtype : string; symmetric : bool; own_overrides : dict val; args : dict val; is_measure : bool; apply_acq_delay : bool }.
(** data of an [Operation]: gate_info, pulse_info and acquisition_info (operations/operation.py l.66-76); [info] is that of TableModel *)
Record leaf := { l_gate : option gate; pulses : list info; acqs : list info }.
(** Operations and schedules.
    [GLeaf id l]: an Operation; [id] is the identity of the object if it can be reachable from several places.
    [GAsm]: InlineQ1ASM with its clock and duration; [GLoop], [GCond]: control_flow_library.py.
    [GComp]: operations/pulse_compensation_library.py l.45-100, with [Some device_elements] at the gate level, otherwise max_compensation_amp, time_grid and sampling_rate.
    [GSched]: a Schedule: data.get("gate_info", {}).get("device_overrides", {}), data.get("next_operation_delay"), the clocks among its resources with data.get("freq") ([Some None] is NaN), repetitions, the dictionary [operations], the schedulables (key, key of the operation, timing constraints).
    A frequency is a rational or NaN ([None]); arrays of frequencies are not modelled. *)
Definition freq := option Q.
Inductive gop :=
  | GLeaf (id : option nat) (l : leaf)
  | GAsm (clock : string) (duration : Q)
  | GLoop (n : Z) (b : gop)
  | GCond (buffer : Q) (b : gop)
  | GComp (elements : option (list string)) (max : dict Q) (grid rate : option Q) (b : gop)
  | GSched (over : dict val) (delay : option Q) (res : dict (option freq)) (reps : Z) (ops : list (string * gop)) (ss : list (string * string * list tconstr)).

(** ** Device configuration *)
(** backends/graph_compilation.py l.78-101 [OperationCompilationConfig]. The factory function is any function of its keyword arguments (a function that raises for unexpected arguments included). *)
Record opcfg := { factory : option (dict val -> result gop); kwargs : dict val; gate_keys : list string }.
(** l.121-173 [DeviceCompilationConfig] *)
Record devcfg := { clocks : dict freq; elements : dict (dict opcfg); edges : dict (dict opcfg) }.

(** ** Arguments of the factory functions *)
(** l.747-751, l.794-798 *)
Definition negated (v : val) : result val := match v with VNum q => Ok (VNum (- q)) | VBool b => Ok (VNum (if b then -1 else 0)) | _ => Err TypeError end.
Definition next_delay (g : gate) (kw : dict val) : result (dict val) :=
  if is_measure g && negb (apply_acq_delay g)
  then do a <- index kw "acq_delay"; do v <- negated a; Ok (put kw "next_operation_delay" v)
  else Ok kw.
(** l.753-756 *)
Definition from_gate (g : gate) (keys : list string) (kw : dict val) : result (dict val) := foldM (fun kw k => do v <- index (args g) k; Ok (put kw k v)) keys kw.
(** l.777-792: the [mux_idx]-th entry of a list or tuple *)
Definition from_gate_mux (g : gate) (i : nat) (keys : list string) (kw : dict val) : result (dict val) :=
  foldM (fun kw k => do v <- index (args g) k;
           match v with VList l => match nth_error l i with Some x => Ok (put kw k x) | None => Err IndexError end | _ => Ok (put kw k v) end) keys kw.
(** l.758-761, l.800-803 *)
Definition override (over kw : dict val) : dict val := replaced over kw.
(** l.763-764, l.805-806: [assert factory_func is not None] *)
Definition call (c : opcfg) (kw : dict val) : result gop := match factory c with Some f => f kw | None => Err AssertionErr end.
(** l.735-764 [_get_device_repr_from_cfg] *)
Definition device_repr (g : gate) (c : opcfg) (over : dict val) : result gop :=
  do kw <- next_delay g (kwargs c); do kw <- from_gate g (gate_keys c) kw; call c (override over kw).
(** l.767-806 [_get_device_repr_from_cfg_multiplexed] *)
Definition device_repr_mux (g : gate) (c : opcfg) (i : nat) (over : dict val) : result gop :=
  do kw <- from_gate_mux g i (gate_keys c) (kwargs c); do kw <- next_delay g kw; call c (override over kw).

(** ** Gates *)
Definition is_sched (o : gop) : bool := match o with GSched _ _ _ _ _ _ => true | _ => false end.
(** data.get("gate_info", {}).get("device_overrides", {}) of the operation a factory returned *)
Definition over_of (o : gop) : dict val := match o with GSched over _ _ _ _ _ => over | GLeaf _ l => match l_gate l with Some g => own_overrides g | None => [] end | _ => [] end.
(** operation.py l.219-256 [add_device_representation]; only an Operation with pulse_info or acquisition_info has something to add *)
Definition represent (l : leaf) (dev : gop) : leaf :=
  match dev with GLeaf _ d => {| l_gate := l_gate l; pulses := pulses l ++ pulses d; acqs := acqs l ++ acqs d |} | _ => l end.
(** l.592-605, l.669-682 *)
Definition attach (rec : dict val -> gop -> result gop) (over : dict val) (id : option nat) (l : leaf) (dev : gop) : result gop :=
  if is_sched dev then rec (merged (over_of dev) over) dev else Ok (GLeaf id (represent l dev)).
(** l.562-605 [_compile_single_device_element] *)
Definition single (rec : dict val -> gop -> result gop) (cfg : devcfg) (over : dict val) (id : option nat) (l : leaf) (g : gate) (q : string) : result gop :=
  do el <- index (elements cfg) q; do c <- index el (gtype g); do dev <- device_repr g c over; attach rec over id l dev.
(** l.619-646: the edge "parent_child", or for symmetric gates the only edge between the two; permutations is taken as a set *)
Definition edge_name (a b : string) : string := a ++ "_" ++ b.
Definition find_edge (cfg : devcfg) (sym : bool) (a b : string) : result string :=
  if has (edges cfg) (edge_name a b) then Ok (edge_name a b)
  else if sym
  then match filter (has (edges cfg)) (nodup string_dec [edge_name a b; edge_name b a]) with [e] => Ok e | _ => Err KeyError end
  else Err KeyError.
(** l.608-682 [_compile_two_device_elements] *)
Definition two (rec : dict val -> gop -> result gop) (cfg : devcfg) (over : dict val) (id : option nat) (l : leaf) (g : gate) (a b : string) : result gop :=
  do e <- find_edge cfg (symmetric g) a b; do ed <- index (edges cfg) e; do c <- index ed (gtype g); do dev <- device_repr g c over; attach rec over id l dev.
(** l.484-519: the device operations of a gate on several elements: the sub-schedules, compiled, and the operation with the pulses and acquisitions of the others; the flag is operation_has_device_representation *)
Fixpoint mux (rec : dict val -> gop -> result gop) (cfg : devcfg) (over : dict val) (g : gate) (i : nat) (qs : list string) (l : leaf) (flag : bool) (subs : list gop) : result (leaf * bool * list gop) :=
  match qs with
  | [] => Ok (l, flag, subs)
  | q :: r =>
      do el <- index (elements cfg) q; do c <- index el (gtype g); do dev <- device_repr_mux g c i over;
      if is_sched dev then do d <- rec (merged (over_of dev) over) dev; mux rec cfg over g (S i) r l flag (subs ++ [d])
      else mux rec cfg over g (S i) r (represent l dev) true subs
  end.
(** keys of the schedulables (uuids) and of the operations (hashes; equal ones are equal operations) of the inner schedule *)
Fixpoint slot (n : nat) : string := match n with O => "op" | S k => "x" ++ slot k end.
Definition delay_of_sched (o : gop) : option Q := match o with GSched _ d _ _ _ _ => d | _ => None end.
Definition without_delay (o : gop) : gop := match o with GSched o _ r n ops ss => GSched o None r n ops ss | _ => o end.
Definition qmin_list (l : list Q) : option Q := match l with [] => None | x :: r => Some (fold_left (fun a b => if Qlt_bool b a then b else a) r x) end.
(** schedules/schedule.py l.730-734: the resources of a new schedule *)
Definition new_res : dict (option freq) := [("cl0.baseband", Some (Some 0)); ("digital", Some (Some 0))].
(** schedules/schedule.py l.755-836: the timing constraint of [add] without and with reference *)
Definition tc_first : tconstr := {| tc_ref := None; tc_pt := None; tc_ptnew := None; tc_rel := 0 |}.
Definition tc_start : tconstr := {| tc_ref := Some (slot 0); tc_pt := Some PtStart; tc_ptnew := None; tc_rel := 0 |}.
(** l.521-559: everything is added with respect to the start of the first *)
Definition inner_schedule (parts : list gop) : gop :=
  let keys := map slot (seq 0 (List.length parts)) in
  GSched [] (qmin_list (flat_map (fun p => match delay_of_sched p with Some d => [d] | None => [] end) parts)) new_res 1
    (combine keys (map without_delay parts))
    (map (fun k => (k, k, [if String.eqb k (slot 0) then tc_first else tc_start])) keys).
(** l.471-559 [_compile_multiplexed] *)
Definition multiplexed (rec : dict val -> gop -> result gop) (cfg : devcfg) (over : dict val) (id : option nat) (l : leaf) (g : gate) : result (gop * leaf) :=
  do out <- mux rec cfg over g 0 (elems g) l false [];
  let '(l', flag, subs) := out in
  match subs with
  | [] => Ok (GLeaf id l', l')
  | _ => Ok (inner_schedule ((if flag then [GLeaf id l'] else []) ++ subs), l')
  end.
(** l.89-92, l.118-160: an operation without pulses and acquisitions. The second component is the data of the operation afterwards (it is changed in place). *)
Definition gate_to_device (rec : dict val -> gop -> result gop) (cfg : devcfg) (over : dict val) (id : option nat) (l : leaf) : result (gop * leaf) :=
  match l_gate l with
  | None => Err KeyError
  | Some g =>
      let over := merged (own_overrides g) over in
      let same r := do o <- r; Ok (o, match o with GLeaf _ l' => l' | _ => l end) in
      match elems g with
      | [q] => same (single rec cfg over id l g q)
      | [a; b] => do el <- index (elements cfg) a;
                  if has el (gtype g) then multiplexed rec cfg over id l g else same (two rec cfg over id l g a b)
      | _ => multiplexed rec cfg over id l g
      end
  end.

(** ** Pulse compensation *)
Definition as_num (v : val) : result Q := match v with VNum q => Ok q | _ => Err TypeError end.
Definition as_str (v : val) : result string := match v with VStr s => Ok s | _ => Err TypeError end.
(** l.700-703, l.707-708: equal to the value found before, if any *)
Definition agree (old : option Q) (new : Q) : result (option Q) := match old with Some q => if Qeq_bool q new then Ok (Some new) else Err ValueError | None => Ok (Some new) end.
(** l.688-722: the configuration of the listed elements; elements that have none are skipped *)
Definition comp_step (cfg : devcfg) (st : dict Q * option Q * option Q) (q : string) : result (dict Q * option Q * option Q) :=
  let '(max, grid, rate) := st in
  match get (match get (elements cfg) q with Some el => el | None => [] end) "pulse_compensation" with
  | None => Ok st
  | Some c =>
      match factory c with
      | Some _ => Err ValueError
      | None =>
          do g <- index (kwargs c) "time_grid"; do g <- as_num g; do grid <- agree grid g;
          do r <- index (kwargs c) "sampling_rate"; do r <- as_num r; do rate <- agree rate r;
          do p <- index (kwargs c) "port"; do p <- as_str p;
          do m <- index (kwargs c) "max_compensation_amp"; do m <- as_num m;
          Ok (put max p m, grid, rate)
      end
  end.

(** ** The recursion *)
(** l.83-160 [_compile_circuit_to_device]. Python's recursion is unbounded; [fuel] bounds its depth (RecursionError), see C40_enough_fuel. *)
Fixpoint c2d (fuel : nat) (cfg : devcfg) (over : dict val) (o : gop) {struct fuel} : result gop :=
  match fuel with
  | O => Err OtherErr
  | S f =>
      match o with
      | GSched own d r n ops ss =>
          do ops' <- mapM (fun '(k, x) => do x' <- c2d f cfg (merged own over) x; Ok (k, x')) ops;
          Ok (GSched own d r n ops' ss)
      | GLoop n b => do b' <- c2d f cfg over b; Ok (GLoop n b')
      | GCond u b => do b' <- c2d f cfg over b; Ok (GCond u b')
      | GComp (Some qs) _ _ _ b =>
          do st <- foldM (comp_step cfg) qs ([], None, None);
          do b' <- c2d f cfg over b; let '(max, grid, rate) := st in Ok (GComp None max grid rate b')
      | GComp None m g r b => do b' <- c2d f cfg over b; Ok (GComp None m g r b')
      | GAsm _ _ => Ok o
      | GLeaf id l =>
          match pulses l, acqs l with
          | [], [] => do r <- gate_to_device (c2d f cfg) cfg over id l; Ok (fst r)
          | _, _ => Ok o
          end
      end
  end.

(** The same for objects: an Operation that is reachable from several schedules is changed in place when it is first reached. [st] holds the current data of the operations reached so far. Schedules reachable from several places are compiled once per place here; compiling a compiled schedule does not change it (C40_idempotent). *)
Definition store := list (nat * leaf).
Fixpoint current (st : store) (i : nat) : option leaf := match st with [] => None | (j, l) :: r => if Nat.eqb j i then Some l else current r i end.
Fixpoint c2d_obj (fuel : nat) (cfg : devcfg) (over : dict val) (st : store) (o : gop) {struct o} : result (gop * store) :=
  match o with
  | GSched own d r n ops ss =>
      do out <- (fix go (l : list (string * gop)) (st : store) : result (list (string * gop) * store) :=
         match l with [] => Ok ([], st) | (k, x) :: l' => do p <- c2d_obj fuel cfg (merged own over) st x; let '(x', st) := p in do q <- go l' st; let '(l'', st) := q in Ok ((k, x') :: l'', st) end) ops st;
      let '(ops', st) := out in Ok (GSched own d r n ops' ss, st)
  | GLoop n b => do p <- c2d_obj fuel cfg over st b; let '(b', st) := p in Ok (GLoop n b', st)
  | GCond u b => do p <- c2d_obj fuel cfg over st b; let '(b', st) := p in Ok (GCond u b', st)
  | GComp (Some qs) _ _ _ b =>
      do c <- foldM (comp_step cfg) qs ([], None, None);
      do p <- c2d_obj fuel cfg over st b; let '(b', st) := p in let '(max, grid, rate) := c in Ok (GComp None max grid rate b', st)
  | GComp None m g r b => do p <- c2d_obj fuel cfg over st b; let '(b', st) := p in Ok (GComp None m g r b', st)
  | GAsm _ _ => Ok (o, st)
  | GLeaf id l0 =>
      let l := match id with Some i => match current st i with Some l => l | None => l0 end | None => l0 end in
      match pulses l, acqs l with
      | [], [] => do r <- gate_to_device (c2d fuel cfg) cfg over id l;
                  Ok (fst r, match id with Some i => (i, snd r) :: st | None => st end)
      | _, _ => Ok (GLeaf id l, st)
      end
  end.
(** l.35-70 [compile_circuit_to_device_with_config_validation] *)
Definition circuit_to_device (fuel : nat) (cfg : devcfg) (o : gop) : result gop := do r <- c2d_obj fuel cfg [] [] o; Ok (fst r).

(** ** Clocks *)
(** [a != b] of floats: NaN differs from everything *)
Definition freq_neq (a b : freq) : bool := match a, b with Some x, Some y => negb (Qeq_bool x y) | _, _ => true end.
(** l.228-242: one resource; a resource without "freq" is passed over *)
Definition extract_res (all : dict freq) (x : string * option freq) : result (dict freq) :=
  let '(c, f) := x in
  match f with
  | None => Ok all
  | Some f => match get all c with
              | Some f' => if freq_neq f f' then Err ValueError else Ok (put all c f)
              | None => Ok (put all c f)
              end
  end.
(** l.222-245 [_extract_clock_freqs] *)
Fixpoint extract (o : gop) (all : dict freq) {struct o} : result (dict freq) :=
  match o with
  | GSched _ _ res _ ops _ =>
      do all <- (fix go (l : list (string * gop)) (all : dict freq) : result (dict freq) := match l with [] => Ok all | (_, x) :: r => do all <- extract x all; go r all end) ops all;
      foldM extract_res res all
  | GLoop _ b | GCond _ b => extract b all
  | _ => Ok all
  end.
(** l.206-212; a conflict (l.384-449) only warns *)
Definition with_device (cfg : devcfg) (all : dict freq) : dict freq := fold_left (fun all '(c, f) => if has all c then all else put all c f) (clocks cfg) all.
(** l.248-254 [_extract_clocks_used]; a set, its order does not matter *)
Definition clocks_used (l : leaf) : list string := nodup string_dec (map (fun i => clock (what i)) (pulses l ++ acqs l)).
(** l.324-336 with l.341-381 [_valid_clock_in_schedule]; state: the resources of the schedule and the verified clocks *)
Definition clock_step (all : dict freq) (st : dict (option freq) * list string) (c : string) : result (dict (option freq) * list string) :=
  let '(res, verified) := st in
  if existsb (String.eqb c) verified then Ok st
  else if has res c then Ok (res, verified ++ [c])
  else match get all c with
       | Some None => Err ValueError
       | Some (Some f) => Ok (put res c (Some (Some f)), verified ++ [c])
       | None => Err ValueError
       end.
(** l.257-338 [_set_pulse_and_acquisition_clock]: the operation, and the resources of the schedule it is in *)
Fixpoint set_clocks (all : dict freq) (st : dict (option freq) * list string) (o : gop) {struct o} : result (gop * (dict (option freq) * list string)) :=
  match o with
  | GSched own d res n ops ss =>
      do out <- (fix go (l : list (string * gop)) (st : dict (option freq) * list string) : result (list (string * gop) * (dict (option freq) * list string)) :=
         match l with [] => Ok ([], st) | (k, x) :: l' => do p <- set_clocks all st x; let '(x', st) := p in do q <- go l' st; let '(l'', st) := q in Ok ((k, x') :: l'', st) end) ops (res, []);
      let '(ops', st') := out in Ok (GSched own d (fst st') n ops' ss, st)
  | GLoop n b => do p <- set_clocks all st b; let '(b', st) := p in Ok (GLoop n b', st)
  | GCond u b => do p <- set_clocks all st b; let '(b', st) := p in Ok (GCond u b', st)
  | GComp e m g r b => do p <- set_clocks all st b; let '(b', st) := p in Ok (GComp e m g r b', st)
  | GAsm c _ => do st <- clock_step all st c; Ok (o, st)
  | GLeaf _ l =>
      match pulses l, acqs l with
      | [], [] => Err RuntimeError
      | _, _ => do st <- foldM (clock_step all) (clocks_used l) st; Ok (o, st)
      end
  end.
(** l.163-219 [set_pulse_and_acquisition_clock]; the schedule is a Schedule, so the initial state is not used *)
Definition set_pulse_and_acquisition_clock (cfg : devcfg) (o : gop) : result gop :=
  do all <- extract o []; do r <- set_clocks (with_device cfg all) ([], []) o; Ok (fst r).
