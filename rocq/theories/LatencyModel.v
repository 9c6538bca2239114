(** Model of the latency corrections: backends/corrections.py l.32-98 and their use in the Qblox sequencer programs. *)
From Verif Require Import Base NumericModel.
Open Scope Q_scope.

(** Python dictionaries with string keys *)
Definition dict := list (string * Q).
Fixpoint dget (d : dict) (k : string) : option Q := match d with [] => None | (k', v) :: r => if String.eqb k k' then Some v else dget r k end.
Fixpoint dset (d : dict) (k : string) (v : Q) : dict := match d with [] => [(k, v)] | (k', v') :: r => if String.eqb k k' then (k', v) :: r else (k', v') :: dset r k v end.
Definition dget0 (d : dict) (k : string) : Q := match dget d k with Some v => v | None => 0 end.
(** min(values, default=0) *)
Definition min_values (l : list Q) : Q := match l with [] => 0 | x :: r => fold_left Qmin r x end.

(** corrections.py l.82-98 (port-clocks of the schedule, l.72-76; configured table, l.77) *)
Definition relative_latencies (port_clocks : list string) (table : option dict) : dict :=
  match table with
  | None => []
  | Some t =>
      let rel := fold_left (fun d pc => dset d pc (dget0 t pc)) port_clocks [] in
      let m := min_values (map snd rel) in
      map (fun '(k, v) => (k, v - m)) rel
  end.
(** qblox_backend.py l.719-724, l.1349-1353: the value given to the sequencer of a port-clock *)
Definition sequencer_latency (port_clocks : list string) (table : option dict) (pc : string) : Q :=
  match table with None => 0 | Some _ => dget0 (relative_latencies port_clocks table) pc end.
(** compiler_abc.py l.949-955, l.612-615: the time in ns a sequencer waits before the program body (latencies in seconds) *)
Definition initial_wait (latency : Q) : Z := (4 + (if Qeq_bool latency 0 then 0 else py_round (latency * 1000000000)))%Z.
