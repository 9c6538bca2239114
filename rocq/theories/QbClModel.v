(** Model of the component of a Qblox cluster: instrument_coordinator/components/qblox.py l.2745-2958, with the methods of the modules it calls. *)
From Verif Require Import Base PathModel JsonModel QbModel.
Local Open Scope string_scope.
Local Open Scope list_scope.

(** backends/types/qblox.py l.336-362; the arguments passed on to the driver as they are (timestamp, timeout, format, polarity, sync_ref) are one string *)
Record ext_sync := { e_slot : nat; e_channel : nat; e_threshold : option Q; e_args : string }.
(** The program of a module: the kind of settings its sequencers have *)
Inductive mprog := Analog (p : program aset) | Timetag (p : program tset).
Definition seq_names (p : mprog) : list string := match p with Analog p => map fst (p_seqs p) | Timetag p => map fst (p_seqs p) end.
(** l.2903-2944: the dict given to [prepare] ([repetitions] is not modelled), and types/qblox.py l.365-393 *)
Record cprogram := { reference : string; ext : option ext_sync; c_data : channels_data; c_mods : list (string * mprog) }.
(** The commands to the instrument; a module is identified by its name *)
Inductive command :=
  | StopAll (* Cluster.stop_sequencer() *)
  | Clear (m : string) (i : nat) (* delete_acquisition_data(sequencer, all=True) *)
  | Arm (m : string) (i : nat)
  | SyncExt (slot channel : nat) (args : string)
  | StartAll (* Cluster.start_sequencer(): starts what is armed *).
(** A module component; [slot] is 1-based *)
Record module := { slot : nat; knd : kind; drv : driver; cmp : comp }.
(** l.2765-2767: the component; [root] holds the parameters of the cluster itself, [cdrv] the driver for them and [force_set_parameters] of the cluster component *)
Record cluster := { mods : list (string * module); prog : option cprogram; root : comp; cdrv : driver; sent : list command }.

Definition set_root (cl : cluster) (c : comp) : cluster := {| mods := mods cl; prog := prog cl; root := c; cdrv := cdrv cl; sent := sent cl |}.
Definition set_prog (cl : cluster) (p : cprogram) : cluster := {| mods := mods cl; prog := Some p; root := root cl; cdrv := cdrv cl; sent := sent cl |}.
Definition set_mods (cl : cluster) (l : list (string * module)) : cluster := {| mods := l; prog := prog cl; root := root cl; cdrv := cdrv cl; sent := sent cl |}.
Definition send (cl : cluster) (l : list command) : cluster := {| mods := mods cl; prog := prog cl; root := root cl; cdrv := cdrv cl; sent := sent cl ++ l |}.
Definition with_comp (m : module) (c : comp) : module := {| slot := slot m; knd := knd m; drv := drv m; cmp := c |}.
Fixpoint get_mod (n : string) (l : list (string * module)) : option module := match l with [] => None | (k, m) :: r => if String.eqb n k then Some m else get_mod n r end.
Fixpoint put_mod (n : string) (m : module) (l : list (string * module)) : list (string * module) := match l with [] => [] | (k, x) :: r => if String.eqb n k then (k, m) :: r else (k, x) :: put_mod n m r end.

(** [prepare] of a module component. A program with settings of the other kind is rejected at once (in the code: when an attribute is missing) *)
Definition prepare_mod (m : module) (data : channels_data) (p : mprog) : comp * result unit :=
  match p, knd m with
  | Timetag p, QTM => prepare_qtm (drv m) p (cmp m)
  | Timetag _, _ => (cmp m, Err OtherErr)
  | Analog _, QTM => (cmp m, Err OtherErr)
  | Analog p, k => prepare (drv m) k data p (cmp m)
  end.
(** l.2926-2944: the loop over the modules of the program *)
Fixpoint prepare_mods (l : list (string * mprog)) (data : channels_data) (cl : cluster) : cluster * result unit :=
  match l with
  | [] => (cl, Ok tt)
  | (n, p) :: r =>
      match get_mod n (mods cl) with
      | None => (cl, Err KeyError)
      | Some m => let '(c, res) := prepare_mod m data p in
                  let cl := set_mods cl (put_mod n (with_comp m c) (mods cl)) in
                  match res with Ok _ => prepare_mods r data cl | Err e => (cl, Err e) end
      end
  end.
(** l.2801-2823: the cluster sets its own parameters with [instrument.set] or [lazy_set]; bias tees play no role here *)
Definition set_cluster (cl : cluster) (p : string) (v : value) : cluster * result unit :=
  let '(c, r) := set_parameter (cdrv cl) LMod p v (root cl) in (set_root cl c, r).
(** l.2896-2944 [prepare] *)
Definition prepare_cl (p : cprogram) (cl : cluster) : cluster * result unit :=
  let '(cl, r) := set_cluster cl "reference_source" (VStr (reference p)) in
  match r with
  | Err e => (cl, Err e)
  | Ok _ => prepare_mods (c_mods p) (c_data p) (set_prog cl p)
  end.

(** The kinds of module with an acquisition manager *)
Definition manager_of (m : module) : option manager := match knd m with QCM | QCM_RF => None | _ => mgr (cmp m) end.
Fixpoint commands {A} (l : list A) (f : A -> result (list command)) : list command * result unit :=
  match l with
  | [] => ([], Ok tt)
  | x :: r => match f x with Err e => ([], Err e) | Ok cs => let '(cs', res) := commands r f in (cs ++ cs', res) end
  end.
(** l.990-993, l.1638-1641 [clear_data], l.1766-1776 [delete_acquisition_data]: the sequencers of the mapping of the acquisition manager *)
Definition clear_cmds (n : string) (m : module) : list command * result unit :=
  match manager_of m with
  | Some g => commands (m_mapping g) (fun e => match seq_index (knd m) (fst e) with Some i => Ok [Clear n i] | None => Err KeyError end)
  | None => ([], Ok tt)
  end.
(** l.412-417 [arm_all_sequencers_in_program]: of the program last given to the module; names that are no sequencer are skipped *)
Definition arm_cmds (n : string) (m : module) : list command := flat_map (fun s => match seq_index (knd m) s with Some i => [Arm n i] | None => [] end) (names (cmp m)).
Definition named {A} (n : string) (l : list (string * A)) : bool := existsb (fun e => String.eqb n (fst e)) l.
(** l.2835-2839 *)
Fixpoint arm_all (p : cprogram) (l : list (string * module)) : list command * result unit :=
  match l with
  | [] => ([], Ok tt)
  | (n, m) :: r =>
      if named n (c_mods p)
      then let '(cs, res) := clear_cmds n m in
           match res with Err e => (cs, Err e) | Ok _ => let '(cs', res) := arm_all p r in (cs ++ arm_cmds n m ++ cs', res) end
      else arm_all p r
  end.
(** [self.instrument.modules[slot - 1]] *)
Fixpoint in_slot (s : nat) (l : list (string * module)) : option (string * module) := match l with [] => None | (n, m) :: r => if Nat.eqb (slot m) s then Some (n, m) else in_slot s r end.
(** a parameter of an io channel of a module, set by the cluster component *)
Definition set_io (cl : cluster) (n : string) (m : module) (ch : nat) (p : string) (v : value) : cluster * module * result unit :=
  let d := {| has := has (drv m); accepts := accepts (drv m); sideband_cal := sideband_cal (drv m); lo_cal := lo_cal (drv m); force_set := force_set (cdrv cl) |} in
  let '(c, r) := set_parameter d (LIo ch) p v (cmp m) in (set_mods cl (put_mod n (with_comp m c) (mods cl)), with_comp m c, r).
(** l.2849-2887 [_sync_on_external_trigger]; an empty slot, or channel 0, is an error of the driver (Python's index -1 for channel 0, the last channel, is not modelled) *)
Definition sync_ext (s : ext_sync) (cl : cluster) : cluster * result unit :=
  let ok cl := (send cl [SyncExt (e_slot s) (e_channel s) (e_args s)], Ok tt) in
  if Nat.eqb (e_slot s) 0 then ok cl else
  match in_slot (e_slot s) (mods cl) with
  | None => (cl, Err OtherErr)
  | Some (n, m) =>
      match knd m with
      | QTM => match e_channel s with
               | O => (cl, Err OtherErr)
               | S ch => let '(cl, m, r) := set_io cl n m ch "mode" (VStr "input") in
                         match r with
                         | Err e => (cl, Err e)
                         | Ok _ => match e_threshold s with
                                   | None => (cl, Err ValueError)
                                   | Some t => let '(cl, m, r) := set_io cl n m ch "analog_threshold" (VNum t) in
                                               match r with Err e => (cl, Err e) | Ok _ => ok cl end
                                   end
                         end
               end
      | _ => (cl, Err ValueError)
      end
  end.
(** l.2825-2847 [start] *)
Definition start (cl : cluster) : cluster * result unit :=
  let cl := send cl [StopAll] in
  match prog cl with
  | None => (cl, Ok tt)
  | Some p => let '(cs, r) := arm_all p (mods cl) in let cl := send cl cs in
              match r with
              | Err e => (cl, Err e)
              | Ok _ => let '(cl, r) := match ext p with Some s => sync_ext s cl | None => (cl, Ok tt) end in
                        match r with Err e => (cl, Err e) | Ok _ => (send cl [StartAll], Ok tt) end
              end
  end.
(** l.2889-2894 [stop] *)
Fixpoint disable_all (l : list (string * module)) : list (string * module) * result unit :=
  match l with
  | [] => ([], Ok tt)
  | (n, m) :: r => let '(c, res) := disable_sync (drv m) (knd m) (cmp m) in
                   match res with
                   | Err e => ((n, with_comp m c) :: r, Err e)
                   | Ok _ => let '(r', res) := disable_all r in ((n, with_comp m c) :: r', res)
                   end
  end.
Definition stop (cl : cluster) : cluster * result unit :=
  let '(l, r) := disable_all (mods cl) in let cl := set_mods cl l in
  match r with Err e => (cl, Err e) | Ok _ => (send cl [StopAll], Ok tt) end.
(** l.2946-2969 [retrieve_acquisition]: the modules of which the acquisition manager is asked for data *)
Definition retrieved (cl : cluster) : list string :=
  match prog cl with
  | None => []
  | Some p => flat_map (fun '(n, m) => if named n (c_mods p) then match manager_of m with Some _ => [n] | None => [] end else []) (mods cl)
  end.
(** Calls, in any order; after one that raises, the component is as it left it *)
Inductive call := Prepare (p : cprogram) | Start | Stop.
Definition do_call (k : call) (cl : cluster) : cluster * result unit := match k with Prepare p => prepare_cl p cl | Start => start cl | Stop => stop cl end.
