(** What a user says about the NCO operations of a schedule. *)
From Verif Require Import Base NumericModel DevModel NcoModel.
Local Open Scope string_scope.

(** The operation with name [n] and entries [ps] starts [t'] ns after the start of the whole; [r]: the resources of the innermost schedule it is in.
    [i] starts at [t], in a schedule with the resources [rs]. *)
Inductive op_at : list (string * option Q) -> item -> Q -> list (string * option Q) -> string -> list pulse -> Q -> Prop :=
  | at_op : forall rs n ps t, op_at rs (Op n ps) t rs n ps t
  | at_flow : forall rs b t r n ps t', op_at rs b t r n ps t' -> op_at rs (Flow b) t r n ps t'
  | at_sched : forall rs rs' l d b t r n ps t', In (d, b) l -> op_at rs' b (t + d) r n ps t' -> op_at rs (Sched rs' l) t r n ps t'.
(** The entry [p] of an operation with name [n] that starts at [t], in a schedule with resources [r] *)
Definition occ (i : item) (r : list (string * option Q)) (n : string) (p : pulse) (t : Q) : Prop := exists ps, op_at [] i 0 r n ps t /\ In p ps.

(** the integer [z] is the time [t] up to 1.1 ps *)
Definition near (t : Q) (z : Z) : Prop := Qabs (t - inject_Z z) <= 11 # 10000.
(** the entry [p] of an operation that starts at [t] starts at the nanosecond [z] *)
Definition starts (t : Q) (p : pulse) (z : Z) : Prop := exists z', near t z' /\ near (inject_Z z' + t0 p) z.

(** [s] is the last of the sequencers with the clock [c] *)
Definition last_on (c : string) (ss : list sq) (s : sq) : Prop := exists l1 l2, ss = (l1 ++ s :: l2)%list /\ q_clock s = c /\ (forall s', In s' l2 -> q_clock s' <> c).
(** A dictionary belongs to one operation: in two places it has one name and one clock *)
Definition one_owner (i : item) : Prop :=
  forall r n p t r' n' p' t', occ i r n p t -> occ i r' n' p' t' -> addr p = addr p' -> n = n' /\ clock p = clock p'.
(** Clock frequency changes are made by operations with this name *)
Definition freq_named (i : item) : Prop := forall r n p t new old, occ i r n p t -> what p = KFreq new old -> n = "SetClockFrequency".

(** The integer [z] stands for the frequency [q]: steps of 0.25 Hz, from -500 MHz to 500 MHz *)
Definition freq_steps (q : Q) (z : Z) : Prop := Qabs (inject_Z z / 4 - q) <= 1 # 8 /\ (-2000000000 <= z <= 2000000000)%Z.
(** The integer [z] stands for the phase [deg] (in degrees), up to full turns: 1e9 steps in a turn *)
Definition phase_steps (deg : Q) (z : Z) : Prop :=
  (0 <= z <= 1000000000)%Z /\ exists k : Z, Qabs (inject_Z z - (deg - inject_Z k * 360) * (1000000000 / 360)) <= 1 # 2.
(** The instruction that [p] asks for, in a schedule with resources [r], if its sequencer had the NCO frequency [i]: the frequency of the NCO moves by as much as that of the clock *)
Definition asks (r : list (string * option Q)) (i : option Q) (p : pulse) (ins : instr) : Prop :=
  match what p with
  | KFreq new _ => exists f i0 z, lookup (clock p) r = Some (Some f) /\ i = Some i0 /\ ins = SetFreq z /\ freq_steps (match new with Some n => i0 + (n - f) | None => i0 end) z
  | KPhase deg => ~ deg == 0 /\ exists z, ins = PhDelta z /\ phase_steps deg z
  | KReset => ins = ResetPh
  | KOther _ => False
  end.
(** The entry asks something of the NCO; a phase shift by zero does not *)
Definition acts (p : pulse) : Prop := match what p with KFreq _ _ | KReset => True | KPhase deg => ~ deg == 0 | KOther _ => False end.
(** In the order of time *)
Fixpoint in_time (l : list (Z * instr)) : Prop := match l with [] => True | x :: r => (forall y, In y r -> (fst x <= fst y)%Z) /\ in_time r end.
Definition is_set_freq (x : Z * instr) : Prop := exists z, snd x = SetFreq z.
(** Two of them are at least 4 ns apart *)
Fixpoint apart (P : Z * instr -> Prop) (l : list (Z * instr)) : Prop := match l with [] => True | x :: r => (P x -> forall y, In y r -> P y -> (fst x + 4 <= fst y)%Z) /\ apart P r end.
Definition is_phase_ins (x : Z * instr) : Prop := snd x = ResetPh \/ exists z, snd x = PhDelta z.

(** The NCO frequency (in Hz) at the time [t] (in ns) when the program [prog] runs, with [init] before: every instruction is in force from its time on *)
Definition in_force (init : Q) (prog : list (Z * instr)) (t : Q) : Q :=
  fold_left (fun f x => match snd x with SetFreq z => if Qle_bool (inject_Z (fst x)) t then inject_Z z / 4 else f | _ => f end) prog init.

(** All entries, with multiplicity: a schedule may have an operation several times *)
Fixpoint entries (rs : list (string * option Q)) (i : item) (t : Q) : list (list (string * option Q) * string * pulse * Q) :=
  match i with
  | Op n ps => map (fun p => (rs, n, p, t)) ps
  | Flow b => entries rs b t
  | Sched rs' l => flat_map (fun x => entries rs' (snd x) (t + fst x)) l
  end.
(** the nanosecond of an entry *)
Definition ns (e : list (string * option Q) * string * pulse * Q) : Z := let '(_, _, p, t) := e in py_round (inject_Z (py_round t) + t0 p).
Definition sets_freq (c : string) (e : list (string * option Q) * string * pulse * Q) : bool := let '(_, _, p, _) := e in (clock p =? c) && match what p with KFreq _ _ => true | _ => false end.
Definition sets_phase (c : string) (e : list (string * option Q) * string * pulse * Q) : bool := let '(_, _, p, _) := e in (clock p =? c) && match what p with KPhase _ | KReset => true | _ => false end.
Definition four_apart (l : list Z) : Prop := ForallOrdPairs (fun a b => (4 <= Z.abs (a - b))%Z) l.
(** The steps by which the phase words of a program advance the NCO *)
Definition total (prog : list (Z * instr)) : Z := fold_right (fun x a => match snd x with PhDelta z => (z + a)%Z | _ => a end) 0%Z prog.
(** The degrees by which an entry advances the clock [c] *)
Definition degrees (c : string) (e : list (string * option Q) * string * pulse * Q) : Q := let '(_, _, p, _) := e in if clock p =? c then match what p with KPhase d => d | _ => 0 end else 0.
Definition sum (l : list Q) : Q := fold_right Qplus 0 l.
(** What leaves the mixer: with a downconverter at [d] the difference *)
Definition played (lo nco : Q) (down : option Q) : Q := match down with None => lo + nco | Some d => d - (lo + nco) end.
