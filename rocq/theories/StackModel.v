(** Model of backends/qblox/stack_pulses.py. Times in ns (the pass snaps all times to the 1 ns grid, l.98-109; see C24 for the snapping). *)
From Verif Require Import Base UpdModel.
Open Scope Z_scope.

(** Shape of a pulse_info: no "wf_func", the square waveform (is_square_pulse, helpers.py l.1530-1548) with its "amp", or any other waveform,
    given by its samples (helpers.generate_waveform_data, helpers.py l.46-89). Amplitudes are real here; complex ones are treated componentwise by the code. *)
Inductive shape := NoWf | Square (amp : Q) | Wave (samples : list Q).
(** [pc]: port-clock; [refm]: "reference_magnitude" as a factor *)
Record pulse := { pc : Z; t0 : Z; dur : Z; sh : shape; refm : option Q }.
(** Operations: the pulse_info list, a nested schedule, anything else (control flow, acquisitions), which the pass skips *)
Inductive op := Pulses (l : list pulse) | Sub (l : list (Z * Z * op)) | Other (id : Z).
(** schedulables: key, abs_time, operation, in insertion order *)
Definition entry := (Z * Z * op)%type.
Definition key (e : entry) : Z := fst (fst e).
Definition abs (e : entry) : Z := snd (fst e).
Definition oper (e : entry) : op := snd e.

Definition has_wf (p : pulse) : bool := match sh p with NoWf => false | _ => true end.
Definition is_square (p : pulse) : bool := match sh p with Square _ => true | _ => false end.

(** l.26-41 *)
Record interval := { i_start : Z; i_end : Z; i_keys : list Z }.
Record event := { e_time : Z; e_end : bool; e_key : Z }.

(** l.77-112: port-clock and the two events of a schedulable *)
Definition first_pulse (o : op) : option pulse := match o with Pulses (p :: _) => if has_wf p then Some p else None | _ => None end.
Definition events_of (e : entry) : list (Z * event) :=
  match first_pulse (oper e) with
  | Some p => let s := abs e + t0 p in
              [(pc p, {| e_time := s; e_end := false; e_key := key e |}); (pc p, {| e_time := s + dur p; e_end := true; e_key := key e |})]
  | None => []
  end.
(** defaultdict: port-clocks in order of first occurrence *)
Fixpoint distinct (l : list Z) : list Z := match l with [] => [] | k :: r => k :: filter (fun k' => negb (k =? k')) (distinct r) end.
Definition group (l : list (Z * event)) : list (list event) :=
  map (fun k => map snd (filter (fun x => k =? fst x) l)) (distinct (map fst l)).

(** l.67: sorted by (time, is_end); stable *)
Definition sort_events (l : list event) : list event := sorted_by (fun e => 2 * e_time e + (if e_end e then 1 else 0)) l.

Definition mem (k : Z) (l : list Z) : bool := existsb (Z.eqb k) l.
Definition set_add (k : Z) (l : list Z) : list Z := if mem k l then l else l ++ [k].
Definition set_remove (k : Z) (l : list Z) : result (list Z) := if mem k l then Ok (filter (fun j => negb (k =? j)) l) else Err KeyError.

(** l.115-160 [_construct_pulses_by_interval] *)
Fixpoint sweep (last : option Z) (active : list Z) (l : list event) : result (list interval) :=
  match l with
  | [] => Ok []
  | e :: r =>
      match last with
      | None => sweep (Some (e_time e)) (set_add (e_key e) active) r
      | Some u =>
          let out := if u <? e_time e then match active with [] => [] | _ => [{| i_start := u; i_end := e_time e; i_keys := active |}] end else [] in
          let last' := if u <? e_time e then e_time e else u in
          do active' <- (if e_end e then set_remove (e_key e) active else Ok (set_add (e_key e) active));
          do rest <- sweep (Some last') active' r; Ok (out ++ rest)
      end
  end.

Fixpoint get (k : Z) (s : list entry) : result entry :=
  match s with [] => Err KeyError | e :: r => if k =? key e then Ok e else get k r end.
Definition infos (o : op) : list pulse := match o with Pulses l => l | _ => [] end.

(** helpers.generate_waveform_data *)
Definition generate (p : pulse) : result (list Q) :=
  match sh p with NoWf => Err OtherErr | Square a => Ok (repeat a (Z.to_nat (dur p))) | Wave s => Ok s end.

(** Python's [l[a:b]] *)
Definition pyidx (n i : Z) : Z := if i <? 0 then Z.max 0 (i + n) else Z.min i n.
Definition pyslice {A} (a b : Z) (l : list A) : list A :=
  let n := Z.of_nat (List.length l) in
  let a' := pyidx n a in let b' := pyidx n b in firstn (Z.to_nat (b' - a')) (skipn (Z.to_nat a') l).
(** np.add of two one-dimensional arrays, with broadcasting of length-1 arrays *)
Fixpoint zip_add (a b : list Q) : list Q := match a, b with x :: a', y :: b' => (x + y)%Q :: zip_add a' b' | _, _ => [] end.
Definition np_add (a b : list Q) : result (list Q) :=
  if (List.length a =? List.length b)%nat then Ok (zip_add a b)
  else match a, b with
       | [x], _ => Ok (map (fun y => (x + y)%Q) b)
       | _, [y] => Ok (map (fun x => (x + y)%Q) a)
       | _, _ => Err ValueError
       end.

Section Ord.
(** iteration order of a Python set *)
Variable ord : list Z -> list Z.

(** l.192-236 [_stack_arbitrary_pulses]: the samples, starting from zeros *)
Definition add_wave (i : interval) (at_ : Z) (comb : list Q) (p : pulse) : result (list Q) :=
  do w <- generate p;
  let a := i_start i - at_ - t0 p in
  let b := a + (i_end i - i_start i) in
  if b =? Z.of_nat (List.length w) - 1 then np_add (comb ++ [0%Q]) (pyslice a (b + 1) w)
  else np_add comb (pyslice a b w).
Definition stack_arbitrary (s : list entry) (i : interval) (the_pc : Z) : result pulse :=
  let zeros := repeat 0%Q (Z.to_nat (i_end i - i_start i)) in
  do comb <- foldM (fun c k => do e <- get k s; foldM (add_wave i (abs e)) (infos (oper e)) c) (ord (i_keys i)) zeros;
  Ok {| pc := the_pc; t0 := 0; dur := Z.of_nat (List.length comb); sh := Wave comb; refm := None |}.

(** l.239-260 [_stack_square_pulses]: the first pulse_info is copied, the amplitudes of all the others are added *)
Definition add_square (d : Z) (c : option pulse) (p : pulse) : option pulse :=
  match c, sh p with
  | None, Square a => Some {| pc := pc p; t0 := 0; dur := d; sh := Square a; refm := refm p |}
  | Some q, Square b => match sh q with Square a => Some {| pc := pc q; t0 := t0 q; dur := dur q; sh := Square (a + b)%Q; refm := refm q |} | _ => Some q end
  | _, _ => c
  end.
Definition stack_square (s : list entry) (i : interval) : result (option pulse) :=
  foldM (fun c k => do e <- get k s; Ok (fold_left (add_square (i_end i - i_start i)) (infos (oper e)) c)) (ord (i_keys i)) None.

(** l.168-178: one interval. The port-clock of the new pulse is that of the first pulse_info visited (l.222-223). *)
Definition stack_interval (s : list entry) (i : interval) : result (list (Z * pulse)) :=
  do es <- mapM (fun k => get k s) (ord (i_keys i));
  if forallb (fun e => forallb is_square (infos (oper e))) es then
    do c <- stack_square s i; Ok (match c with Some p => [(i_start i, p)] | None => [] end)
  else
    match flat_map (fun e => infos (oper e)) es with
    | p :: _ => do q <- stack_arbitrary s i (pc p); Ok [(i_start i, q)]
    | [] => Err ValueError
    end.

(** fresh keys: str(uuid.uuid4()) is assumed never to collide (l.263-273) *)
Definition fresh (s : list entry) : Z := 1 + fold_right Z.max 0 (map key s).
Fixpoint number (k : Z) (l : list (Z * pulse)) : list entry :=
  match l with [] => [] | (t, p) :: r => (k, t, Pulses [p]) :: number (k + 1) r end.

(** l.163-189 [_stack_pulses_by_interval]; new schedulables are appended while the old ones are still there, which does not affect look-ups of old keys *)
Definition stack_by_interval (s : list entry) (ivs : list interval) : result (list entry) :=
  do news <- mapM (stack_interval s) ivs;
  let old := flat_map i_keys ivs in
  Ok (filter (fun e => negb (mem (key e) old)) s ++ number (fresh s) (List.concat news)).

(** l.67-72: one port-clock *)
Definition stack_group (s : list entry) (evs : list event) : result (list entry) :=
  do ivs <- sweep None [] (sort_events evs);
  if existsb (fun i => (1 <? List.length (i_keys i))%nat) ivs then stack_by_interval s ivs else Ok s.

(** l.48-74 [stack_pulses]: nested schedules first (l.84-86). Each nested schedule is processed once (in the code: once per use). *)
Fixpoint stack_op (o : op) : result op :=
  match o with
  | Sub l =>
      do l' <- (fix go (l : list (Z * Z * op)) : result (list (Z * Z * op)) :=
                  match l with [] => Ok [] | (k, t, x) :: r => do x' <- stack_op x; do r' <- go r; Ok ((k, t, x') :: r') end) l;
      do l'' <- foldM stack_group (group (flat_map events_of l')) l'; Ok (Sub l'')
  | _ => Ok o
  end.
Definition stack_pulses (s : list entry) : result (list entry) :=
  do o <- stack_op (Sub s); match o with Sub l => Ok l | _ => Err OtherErr end.
End Ord.
