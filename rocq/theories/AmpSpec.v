(** What a sequencer puts out for a play instruction, and when two signals are the same up to the resolution of the hardware. *)
From Verif Require Import Base NumericModel WfModel AmpModel.
Local Open Scope Q_scope.
Local Notation length := List.length.
Local Notation sample := (Q * Q)%type.

(** [memory i k v]: sample k of the waveform that was uploaded with index i is v *)
Definition memory (d : list entry) (i k : nat) (v : Q) : Prop := exists e, In e d /\ index e = i /\ (k < length (data e))%nat /\ nth k (data e) 0 = v.
(** The output of the AWG, sample k after the instructions: the waveforms times the gains, which are in units of 1/32768; nothing after upd_param. *)
Definition output (d : list entry) (prog : list instr) (k : nat) (z : sample) : Prop :=
  match prog with
  | [SetAwgGain g0 g1; Play i0 i1 _] => exists v0 v1, memory d i0 k v0 /\ memory d i1 k v1 /\ fst z = inject_Z g0 / 32768 * v0 /\ snd z = inject_Z g1 / 32768 * v1
  | [UpdParam _] => z = (0, 0)
  | _ => False
  end.
(** Every sample of a pulse can be output: voltages are normalised to [-1, 1]. *)
Definition in_range (p : list sample) : Prop := forall z, In z p -> Qabs (fst z) <= 1 /\ Qabs (snd z) <= 1.
Definition real_valued (p : list sample) : Prop := forall z, In z p -> snd z == 0.
Definition below (b : Q) (l : list Q) : Prop := forall x, In x l -> Qabs x < b.
(** the greatest magnitude of a list, with its sign *)
Definition is_peak (l : list Q) (c : Q) : Prop := In c l /\ forall x, In x l -> Qabs x <= Qabs c.
(** The waveforms that a pulse needs: its real and imaginary parts, each divided by its peak. *)
Definition part (p : list sample) (v : list Q) : Prop :=
  (exists c, is_peak (map fst p) c /\ v = map (fun z => fst z / c) p) \/ (exists c, is_peak (map snd p) c /\ v = map (fun z => snd z / c) p).
(** The hash does not collide on these waveforms. *)
Definition no_collision_on (hash : list Z -> Z) (of : list Q -> Prop) : Prop := forall v w, of v -> of w -> hash (round12 v) = hash (round12 w) -> round12 v = round12 w.
Definition parts (pulses : list (list sample)) (v : list Q) : Prop := exists p, In p pulses /\ part p v.
(** Index i of the table holds w, up to 12 decimals. *)
Definition uploaded (d : list entry) (w : list Q) (i : nat) : Prop := exists e, In e d /\ index e = i /\ length (data e) = length w /\ forall k, Qabs (nth k (data e) 0 - nth k w 0) <= 1 # 1000000000000.
Definition table_size (d : list entry) : nat := fold_right (fun e n => (length (data e) + n)%nat) 0%nat d.
(** one signal is a real multiple of the other *)
Definition multiple (part : sample -> Q) (p q : list sample) : Prop := exists c, ~ c == 0 /\ Forall2 (fun x y => part y == c * part x) p q.
