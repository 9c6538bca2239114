(** Model of instrument_coordinator/instrument_coordinator.py (InstrumentCoordinator). *)
From Verif Require Import Base.
Open Scope Z_scope.

(** A schedule passed to [prepare]: whether CompiledSchedule.is_valid accepts it, and its compiled instructions by instrument (arguments identified by a number) *)
Record csched := { valid : bool; instrs : list (string * Z) }.
(** What a component's dataset holds: acquisition channel, acquisition index and value (positions without value, nan, are absent) *)
Definition dataset := list (Z * Z * Q).
(** What reaches the components *)
Inductive event := EPrepare (c : string) (args : Z) | EStart (c : string) | EStop (c : string) | EWait (c : string) | ERetrieve (c : string).
(** l.76-103: state of the coordinator *)
Record coord := { components : list string; compiled : option csched; last_sched : option csched }.
Definition init : coord := {| components := []; compiled := None; last_sched := None |}.

(** components/base.py l.19-34 *)
Definition component_name (instrument : string) : string := String.append "ic_" instrument.
Definition mem (s : string) (l : list string) : bool := existsb (String.eqb s) l.
(** l.139-166 [get_component] *)
Definition get_component (s : coord) (c : string) : result string := if mem c (components s) then Ok c else Err KeyError.

(** The calls of the API. A component call may raise, as given by [fails] (hardware errors). *)
Inductive call :=
  | Add (c : string) (is_component : bool)
  | Remove (c : string)
  | Prepare (cs : csched) (fails : string -> option exn)
  | Start (fails : string -> option exn)
  | Stop (fails : string -> option exn)
  | Retrieve (fails : string -> option exn) (data : string -> option dataset).

(** one component call: its event, then its exception if any *)
Definition on_component (ev : event) (f : option exn) : list event * option exn := ([ev], f).
(** a Python loop of component calls: stops at the first exception *)
Fixpoint loop {A} (body : A -> list event * option exn) (l : list A) : list event * option exn :=
  match l with
  | [] => ([], None)
  | x :: r => let '(ev, e) := body x in
              match e with Some e => (ev, Some e) | None => let '(ev2, e2) := loop body r in (ev ++ ev2, e2) end
  end.
Fixpoint remove_first (c : string) (l : list string) : list string := match l with [] => [] | x :: r => if String.eqb c x then r else x :: remove_first c r end.

(** l.211-252 [prepare] *)
Definition prepare (s : coord) (cs : csched) (fails : string -> option exn) : coord * list event * option exn :=
  let s1 := {| components := components s; compiled := Some cs; last_sched := last_sched s |} in
  if negb (valid cs) then (s1, [], Some TypeError)
  else
    let s2 := {| components := components s; compiled := Some cs; last_sched := Some cs |} in
    let '(ev, e) := loop (fun '(i, args) => match get_component s2 (component_name i) with
                                            | Err e => ([], Some e)
                                            | Ok c => on_component (EPrepare c args) (fails c)
                                            end) (instrs cs) in
    (s2, ev, e).
(** l.254-276 [start] *)
Definition start (s : coord) (fails : string -> option exn) : list event * option exn :=
  match compiled s with
  | None => ([], Some ValueError)
  | Some cs =>
      let used := map (fun '(i, _) => component_name i) (instrs cs) in
      loop (fun c => if mem c used then on_component (EStart c) (fails c) else ([], None)) (components s)
  end.
(** l.338-352 [wait_done] *)
Definition wait_done (s : coord) (fails : string -> option exn) : list event * option exn := loop (fun c => on_component (EWait c) (fails c)) (components s).
(** l.278-301 [stop], without allow_failure *)
Definition stop (s : coord) (fails : string -> option exn) : list event * option exn := loop (fun c => on_component (EStop c) (fails c)) (components s).

(** utility.py l.129-176 [check_already_existing_acquisition] and Dataset.merge *)
Definition same_pos (a b : Z * Z * Q) : bool := (fst (fst a) =? fst (fst b)) && (snd (fst a) =? snd (fst b)).
Definition merge (cur new : dataset) : result dataset :=
  if existsb (fun a => existsb (same_pos a) cur) new then Err RuntimeError else Ok (cur ++ new).
(** l.303-336 [retrieve_acquisition] *)
Fixpoint gather (s : coord) (fails : string -> option exn) (data : string -> option dataset) (l : list (string * Z)) (acc : dataset) : list event * result dataset :=
  match l with
  | [] => ([], Ok acc)
  | (i, _) :: r =>
      match get_component s (component_name i) with
      | Err e => ([], Err e)
      | Ok c =>
          match fails c with
          | Some e => ([ERetrieve c], Err e)
          | None =>
              match match data c with Some d => merge acc d | None => Ok acc end with
              | Err e => ([ERetrieve c], Err e)
              | Ok acc => let '(ev, res) := gather s fails data r acc in (ERetrieve c :: ev, res)
              end
          end
      end
  end.
Definition retrieve (s : coord) (fails : string -> option exn) (data : string -> option dataset) : list event * result dataset :=
  match compiled s with
  | None => ([], Err ValueError)
  | Some cs =>
      let '(ev, e) := wait_done s (fun _ => None) in
      match e with Some e => (ev, Err e) | None => let '(ev2, res) := gather s fails data (instrs cs) [] in (ev ++ ev2, res) end
  end.

(** l.112-124 [last_schedule] *)
Definition last_schedule (s : coord) : result csched := match last_sched s with None => Err ValueError | Some cs => Ok cs end.
(** one call: new state, events, exception. add_component l.168-197, remove_component l.199-209 (list.remove raises ValueError). *)
Definition step (s : coord) (c : call) : coord * list event * option exn :=
  match c with
  | Add n ok => if mem n (components s) then (s, [], Some ValueError)
                else if ok then ({| components := components s ++ [n]; compiled := compiled s; last_sched := last_sched s |}, [], None) else (s, [], Some TypeError)
  | Remove n => if mem n (components s) then ({| components := remove_first n (components s); compiled := compiled s; last_sched := last_sched s |}, [], None) else (s, [], Some ValueError)
  | Prepare cs f => prepare s cs f
  | Start f => let '(ev, e) := start s f in (s, ev, e)
  | Stop f => let '(ev, e) := stop s f in (s, ev, e)
  | Retrieve f d => let '(ev, r) := retrieve s f d in (s, ev, match r with Err e => Some e | Ok _ => None end)
  end.
(** a session: calls that raise are caught by the user, who goes on *)
Fixpoint session (s : coord) (l : list call) : coord * list event :=
  match l with [] => (s, []) | c :: r => let '(s1, ev, _) := step s c in let '(s2, ev2) := session s1 r in (s2, ev ++ ev2) end.
