(** What a user of ScheduleGettable relies on, independent of how the methods work. *)
From Verif Require Import Base CoordModel GettModel.
Local Open Scope Z_scope.

(** [vals] are the current values of the keyword arguments, in order: constants as given, parameters as they read now *)
Definition current_kwargs (w : world) (kw : list (string * kwval)) (vals : list (string * Z)) : Prop :=
  Forall2 (fun a b => fst b = fst a /\ match snd a with Const c => snd b = c | Param p => w_params w p = Ok (Some (snd b)) end) kw vals.
(** [cs] is the compilation of the schedule that the schedule function of gettable [i] gives for the current parameter values and repetitions, under the current configuration *)
Definition compiled_now (w : world) (i : nat) (debug : bool) (cs : csched) : Prop :=
  exists vals s, current_kwargs w (g_kwargs (w_gets w i)) vals /\ g_func (w_gets w i) vals (w_reps w) = Ok s /\ w_config w debug s = Ok cs.
(** The data of an execution of [cs]: those of its instruments, each running what [cs] has for it *)
Definition data_from (measure : string -> option Z -> option dataset) (cs : csched) : dataset :=
  flat_map (fun '(n, a) => match measure (component_name n) (Some a) with Some d => d | None => [] end) (instrs cs).
(** compiled instructions are a dict *)
Definition is_dict (cs : csched) : Prop := NoDup (map fst (instrs cs)).

(** is a component running, according to what reached it? *)
Definition running (c : string) (tr : list event) : bool :=
  fold_left (fun r ev => match ev with EStart c' => if String.eqb c c' then true else r | EStop c' => if String.eqb c c' then false else r | _ => r end) tr false.
(** what reaches the components when schedule [cs] is executed on registered components [comps] *)
Definition used (cs : csched) (c : string) : bool := existsb (fun '(n, _) => String.eqb c (component_name n)) (instrs cs).
Definition upload (cs : csched) : list event := map (fun '(n, a) => EPrepare (component_name n) a) (instrs cs).
Definition execution (comps : list string) (cs : csched) : list event :=
  map EStart (filter (used cs) comps) ++ map EWait comps ++ map (fun '(n, _) => ERetrieve (component_name n)) (instrs cs) ++ map EStop comps.

(** actions that leave alone what gettable [i] uploaded, and its settings: anything but a prepare by the user, by another gettable or by an explicit re-initialization *)
Definition leaves (i : nat) (a : action) : bool :=
  match a with
  | SetParam _ _ | SetConfig _ | SetReps _ | SetKwargs _ _ | Compile _ => true
  | SetAlways j _ => negb (Nat.eqb j i)
  | Coordinator (Prepare _ _) => false
  | Coordinator _ => true
  | Initialize _ _ | Report _ _ => false
  | Get j _ => Nat.eqb j i
  end.
