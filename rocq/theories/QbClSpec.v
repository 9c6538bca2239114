(** What a user expects of the component of a Qblox cluster. *)
From Verif Require Import Base JsonModel QbModel QbSpec QbQtmSpec QbClModel.
Local Open Scope string_scope.
Local Open Scope list_scope.

(** What the commands do to the sequencers of the instrument: (armed, running) *)
Definition seqs := list (string * nat).
Definition effect (st : seqs * seqs) (c : command) : seqs * seqs :=
  let '(armed, running) := st in
  match c with
  | StopAll => ([], [])
  | Arm m i => ((m, i) :: armed, running)
  | StartAll => ([], armed ++ running)
  | Clear _ _ | SyncExt _ _ _ => st
  end.
Definition running (cl : cluster) : seqs := snd (fold_left effect (sent cl) ([], [])).
(** A dict: the keys are distinct *)
Definition Distinct {A} (l : list (string * A)) : Prop := NoDup (map fst l).
(** Every cache of the cluster is right, or its component always sets parameters *)
Definition Fresh (d : driver) (c : comp) : Prop := Coherent (mem c) \/ force_set d = true.
Definition AllFresh (cl : cluster) : Prop := forall n m, In (n, m) (mods cl) -> Fresh (drv m) (cmp m).
(** Sequencer [i] of a module waits for the others *)
Definition Synced (m : module) (i : nat) : Prop := Holds (mem (cmp m)) (LSeq i) "sync_en" (VBool true).
(** The acquisition mapping of the program of a module *)
Definition mapping_of (p : mprog) : option hw_mapping := match p with Analog p => p_mapping p | Timetag p => p_mapping p end.
Definition has_inputs (k : kind) : Prop := readout k \/ k = QTM.
(** The program of sequencer [i] asks for synchronisation *)
Definition wants_sync (p : mprog) (i : nat) : Prop :=
  match p with Analog p => exists s, In (seq_name i, s) (p_seqs p) /\ sync_en s = true | Timetag p => exists s, In (seq_name i, s) (p_seqs p) /\ tt_sync_en s = true end.
Definition GoodProgram (p : mprog) : Prop := match p with Analog p => Dicts p | Timetag p => QtmProgram p end.
