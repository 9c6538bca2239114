(** Model of gettables.py (ScheduleGettable), on top of the InstrumentCoordinator of CoordModel. *)
From Verif Require Import Base CoordModel.
Local Open Scope Z_scope.

(** A value of [schedule_kwargs] (l.343-383): a plain value, or a qcodes Parameter given by its name. Values are numbers. *)
Inductive kwval := Const (v : Z) | Param (p : string).
(** l.87-148: the state of one ScheduleGettable. A schedule is a number; the schedule function gets the keyword arguments and the repetitions and may raise.
    Labels, units and the conversion to I/Q arrays (quantify_core) are not modelled: the data are those of return_xarray=True. *)
Record gettable := {
  g_kwargs : list (string * kwval);
  g_func : list (string * Z) -> Z -> result Z;
  g_always : bool;
  g_inited : bool;
  g_compiled : option csched;
  g_evaluated : list (string * Z);
  g_debug : bool }.
(** What the methods read and write. [w_params]: what each Parameter's get() gives (it may raise, or be None when never set).
    [w_config]: the device and hardware configuration, seen as the compilation it gives of a schedule (first argument: debug_mode); generating the configuration or compiling may raise.
    [w_log]: everything that reached the components, oldest first. *)
Record world := {
  w_params : string -> result (option Z);
  w_config : bool -> Z -> result csched;
  w_reps : Z;
  w_coord : coord;
  w_log : list event;
  w_gets : nat -> gettable }.

(** How the hardware behaves during one call of a method *)
Inductive stop_outcome := Stopped | NoAttribute | StopFails (e : exn).
Record hw := {
  h_stop0 : string -> stop_outcome;           (* the stop(allow_failure=True) that opens get() *)
  h_prepare : string -> option exn;
  h_start : string -> option exn;
  h_retrieve : string -> option exn;
  h_stop : string -> option exn;              (* the stop() that ends get() *)
  h_measure : string -> option Z -> option dataset; (* what a component returns, given the program it was running when last started (None: none) *)
  h_logs : bool }.                            (* whether retrieve_hardware_logs succeeds *)

(** the program that component [c] had in memory when it was last started *)
Definition ran_step (c : string) (st : option Z * option Z) (ev : event) : option Z * option Z :=
  match ev with
  | EPrepare c' a => if String.eqb c c' then (Some a, snd st) else st
  | EStart c' => if String.eqb c c' then (fst st, fst st) else st
  | _ => st
  end.
Definition ran (c : string) (tr : list event) : option Z := snd (fold_left (ran_step c) tr (None, None)).

(** methods: they change the world and return or raise *)
Definition M (A : Type) := world -> world * result A.
Definition ret {A} (a : A) : M A := fun w => (w, Ok a).
Definition raise {A} (e : exn) : M A := fun w => (w, Err e).
Definition bindM {A B} (x : M A) (f : A -> M B) : M B := fun w => let '(w1, r) := x w in match r with Ok a => f a w1 | Err e => (w1, Err e) end.
Notation "'run' x <- a ;; b" := (bindM a (fun x => b)) (at level 200, x pattern, a at level 100, b at level 200).
Notation "a ;;; b" := (bindM a (fun _ => b)) (at level 199, right associativity).
Definition lift {A} (r : result A) : M A := fun w => (w, r).
Definition view {A} (f : world -> A) : M A := fun w => (w, Ok (f w)).

Definition put_gettable (i : nat) (g : gettable) : M unit := fun w =>
  ({| w_params := w_params w; w_config := w_config w; w_reps := w_reps w; w_coord := w_coord w; w_log := w_log w;
      w_gets := fun j => if Nat.eqb j i then g else w_gets w j |}, Ok tt).
Definition with_compiled (g : gettable) (c : option csched) : gettable :=
  {| g_kwargs := g_kwargs g; g_func := g_func g; g_always := g_always g; g_inited := g_inited g; g_compiled := c; g_evaluated := g_evaluated g; g_debug := g_debug g |}.
Definition with_evaluated (g : gettable) (e : list (string * Z)) : gettable :=
  {| g_kwargs := g_kwargs g; g_func := g_func g; g_always := g_always g; g_inited := g_inited g; g_compiled := g_compiled g; g_evaluated := e; g_debug := g_debug g |}.
Definition with_inited (g : gettable) (b : bool) : gettable :=
  {| g_kwargs := g_kwargs g; g_func := g_func g; g_always := g_always g; g_inited := b; g_compiled := g_compiled g; g_evaluated := g_evaluated g; g_debug := g_debug g |}.
Definition with_debug (g : gettable) (b : bool) : gettable :=
  {| g_kwargs := g_kwargs g; g_func := g_func g; g_always := g_always g; g_inited := g_inited g; g_compiled := g_compiled g; g_evaluated := g_evaluated g; g_debug := b |}.
Definition with_always (g : gettable) (b : bool) : gettable :=
  {| g_kwargs := g_kwargs g; g_func := g_func g; g_always := b; g_inited := g_inited g; g_compiled := g_compiled g; g_evaluated := g_evaluated g; g_debug := g_debug g |}.
Definition with_kwargs (g : gettable) (k : list (string * kwval)) : gettable :=
  {| g_kwargs := k; g_func := g_func g; g_always := g_always g; g_inited := g_inited g; g_compiled := g_compiled g; g_evaluated := g_evaluated g; g_debug := g_debug g |}.
Definition self (i : nat) : M gettable := view (fun w => w_gets w i).
(** an attribute assignment on gettable [i] *)
Definition assign (i : nat) (f : gettable -> gettable) : M unit := run g <- self i;; put_gettable i (f g).

(** one call of the coordinator: its new state and its events are kept even if it raises *)
Definition on_coord {A} (f : coord -> coord * list event * result A) : M A := fun w =>
  let '(s, ev, r) := f (w_coord w) in
  ({| w_params := w_params w; w_config := w_config w; w_reps := w_reps w; w_coord := s; w_log := w_log w ++ ev; w_gets := w_gets w |}, r).
Definition outcome (e : option exn) : result unit := match e with Some e => Err e | None => Ok tt end.

(** l.343-383 [_evaluate_parameter_dict]: stops at the first parameter that raises or is None *)
Definition evaluate_parameter_dict (params : string -> result (option Z)) (kw : list (string * kwval)) : result (list (string * Z)) :=
  mapM (fun '(k, v) => match v with
                       | Const x => Ok (k, x)
                       | Param p => do x <- params p; match x with Some x => Ok (k, x) | None => Err TypeError end
                       end) kw.
(** the call schedule_function( **kwargs, repetitions=...) (l.165-168, l.318-322): a keyword given twice is a TypeError *)
Definition call_function (g : gettable) (reps : Z) : result Z :=
  if existsb (fun '(k, _) => String.eqb k "repetitions") (g_evaluated g) then Err TypeError else g_func g (g_evaluated g) reps.
(** l.154-178 [compile] *)
Definition compile (i : nat) : M csched :=
  run g <- self i;;
  run reps <- view w_reps;;
  run s <- lift (call_function g reps);;
  run cfg <- view w_config;;
  run cs <- lift (cfg (g_debug g) s);;
  assign i (fun g => with_compiled g (Some cs));;;
  ret cs.
(** l.180-194 [initialize] *)
Definition initialize (i : nat) (h : hw) : M unit :=
  run g <- self i;;
  run params <- view w_params;;
  run vals <- lift (evaluate_parameter_dict params (g_kwargs g));;
  assign i (fun g => with_evaluated g vals);;;
  run cs <- compile i;;
  on_coord (fun s => let '(s', ev, e) := prepare s cs (h_prepare h) in (s', ev, outcome e));;;
  assign i (fun g => with_inited g true).
(** instrument_coordinator.py l.278-301 [stop] with allow_failure=True: AttributeErrors become warnings *)
Definition stop_allowing (s : coord) (f : string -> stop_outcome) : list event * option exn :=
  loop (fun c => on_component (EStop c) (match f c with StopFails e => Some e | _ => None end)) (components s).
(** l.201-249 [get]. [len(acquired_data) == 0] is modelled as "no value": a dataset whose channels all lack values is not distinguished from an empty one. *)
Definition get (i : nat) (h : hw) : M dataset :=
  on_coord (fun s => let '(ev, e) := stop_allowing s (h_stop0 h) in (s, ev, outcome e));;;
  run g <- self i;;
  (if negb (g_inited g) || g_always g then initialize i h else ret tt);;;
  run g <- self i;;
  match g_compiled g with
  | None => raise RuntimeError
  | Some _ =>
      on_coord (fun s => let '(ev, e) := start s (h_start h) in (s, ev, outcome e));;;
      run log <- view w_log;;
      run d <- on_coord (fun s => let '(ev, r) := retrieve s (h_retrieve h) (fun c => h_measure h c (ran c log)) in (s, ev, r));;
      on_coord (fun s => let '(ev, e) := stop s (h_stop h) in (s, ev, outcome e));;;
      match d with [] => raise RuntimeError | _ => ret d end
  end.

(** helpers/diagnostics_report.py l.93-113: the flag in the name of the report *)
Inductive report_type := failed_initialization | failed_connection_to_hw | failed_exp | failed_hw_log_retrieval | completed_exp.
(** what the report contains (l.115-181): gettable.json, schedule.json, compiled_schedule.json, acquisition_data.txt, error_trace.txt *)
Record report := { r_type : report_type; r_kwargs : list (string * Z); r_reps : Z; r_schedule : Z; r_compiled : option csched; r_data : option dataset; r_error : option exn }.
(** try: ... except Exception *)
Definition attempt {A} (x : M A) : M (result A) := fun w => let '(w1, r) := x w in (w1, Ok r).
(** l.251-340 [initialize_and_get_with_report], with an instrument coordinator and a hardware configuration present (l.284-295). Writing the zip file is assumed to succeed. *)
Definition with_report (i : nat) (h : hw) : M report :=
  assign i (fun g => with_debug g true);;;
  assign i (fun g => with_compiled g None);;;
  run init <- attempt (initialize i h);;
  run data <- match init with Ok _ => attempt (get i h) | Err e => ret (Err e) end;;
  run g <- self i;;
  run reps <- view w_reps;;
  run s <- lift (call_function g reps);;
  ret {| r_type := match init with
                   | Err _ => failed_initialization
                   | Ok _ => match data with
                             | Err _ => if h_logs h then failed_exp else failed_connection_to_hw
                             | Ok _ => if h_logs h then completed_exp else failed_hw_log_retrieval
                             end
                   end;
         r_kwargs := g_evaluated g; r_reps := reps; r_schedule := s; r_compiled := g_compiled g;
         r_data := match data with Ok d => Some d | Err _ => None end;
         r_error := match data with Ok _ => None | Err e => Some e end |}.

(** What a user does *)
Inductive action :=
  | SetParam (p : string) (v : option Z)
  | SetConfig (f : bool -> Z -> result csched)
  | SetReps (n : Z)
  | SetAlways (i : nat) (b : bool)
  | SetKwargs (i : nat) (k : list (string * kwval))
  | Coordinator (c : call)                      (* a direct call of the instrument coordinator *)
  | Compile (i : nat)
  | Initialize (i : nat) (h : hw)
  | Get (i : nat) (h : hw)
  | Report (i : nat) (h : hw).
(** one action; exceptions are caught by the user, who goes on *)
Definition act (w : world) (a : action) : world :=
  match a with
  | SetParam p v => {| w_params := fun q => if String.eqb q p then Ok v else w_params w q; w_config := w_config w; w_reps := w_reps w; w_coord := w_coord w; w_log := w_log w; w_gets := w_gets w |}
  | SetConfig f => {| w_params := w_params w; w_config := f; w_reps := w_reps w; w_coord := w_coord w; w_log := w_log w; w_gets := w_gets w |}
  | SetReps n => {| w_params := w_params w; w_config := w_config w; w_reps := n; w_coord := w_coord w; w_log := w_log w; w_gets := w_gets w |}
  | SetAlways i b => fst (assign i (fun g => with_always g b) w)
  | SetKwargs i k => fst (assign i (fun g => with_kwargs g k) w)
  | Coordinator c => fst (on_coord (fun s => let '(s', ev, e) := step s c in (s', ev, outcome e)) w)
  | Compile i => fst (compile i w)
  | Initialize i h => fst (initialize i h w)
  | Get i h => fst (get i h w)
  | Report i h => fst (with_report i h w)
  end.
Definition history (w : world) (l : list action) : world := fold_left act l w.
(** l.87-148: a gettable just made *)
Definition new_gettable (kw : list (string * kwval)) (f : list (string * Z) -> Z -> result Z) (always : bool) : gettable :=
  {| g_kwargs := kw; g_func := f; g_always := always; g_inited := false; g_compiled := None; g_evaluated := []; g_debug := false |}.
