(** What a compiled schedule is supposed to do (independent of the generator).
    The operations of one sequencer as a forest: operations, loops and conditionals, with scheduled start times
    (of the first iteration, for bodies of loops). *)
From Verif Require Import Base Q1Model Q1Machine.
Open Scope Z_scope.

Inductive pnode :=
  | POp (t : Z) (k : kind)
  | PLoop (t n : Z) (body : list pnode) (tend : Z)
  | PCond (t : Z) (addr : nat) (body : list pnode) (tend : Z).

(** the operation list of a forest, as built by helpers.py l.721-772: begin, body, ControlFlowReturn *)
Fixpoint flat (n : pnode) : list sop :=
  match n with
  | POp t k => [SOp t k]
  | PLoop t n body te => SLoop t n :: flat_map flat body ++ [SRet te]
  | PCond t a body te => SCond t a :: flat_map flat body ++ [SRet te]
  end.

(** state of the experiment: next bin of each append-mode counter; number of conditionals executed *)
Record sst := { bins : nat -> Z; kcond : nat }.

Definition bin_of (s : sst) (b : binarg) : Z := match b with BImm z => z | BReg r => bins s r end.
Definition bump_bin (b : binarg) (s : sst) : sst :=
  match b with BImm _ => s | BReg r => {| bins := upd (bins s) r ((bins s r + 1) mod M32); kcond := kcond s |} end.

(** events of one operation, with times relative to its start *)
Definition op_events (k : kind) (s : sst) : list (Z * event) :=
  match k with
  | KIdle | KParam None => []
  | KParam (Some p) => [(0, EParam p)]
  | KPulse None None _ _ => [(0, EUpd)]
  | KPulse (Some a) None g0 g1 => [(0, EParam (PGain g0 g1)); (0, EPlay a a)]
  | KPulse None (Some b) g0 g1 => [(0, EParam (PGain g0 g1)); (0, EPlay b b)]
  | KPulse (Some a) (Some b) g0 g1 => [(0, EParam (PGain g0 g1)); (0, EPlay a b)]
  | KUpd => [(0, EUpd)]
  | KLatchRst _ => [(0, ELatchRst)]
  | KAcq i b ASquare => [(0, EAcquire i (bin_of s b))]
  | KAcq i b (AWeighted x y) => [(0, EAcqW i (bin_of s b) x y)]
  | KAcq i b (ATTL d) => [(0, ETTL i (bin_of s b) 1); (d - 4, ETTL i (bin_of s b) 0)]
  | KAcq i b (ATags d f0 f1 false) => [(0, ETags i (bin_of s b) 1 f0); (d - 4, ETags i (bin_of s b) 0 f1)]
  | KAcq i b (ATags d f0 f1 true) =>
      [(0, EParam (PScopeEn 1)); (0, ETags i (bin_of s b) 1 f0);
       (d - 4, ETags i (bin_of s b) 0 f1); (d, EParam (PScopeEn 0))]
  end.

Definition op_next (k : kind) (s : sst) : sst := match k with KAcq _ b _ => bump_bin b s | _ => s end.

Definition shift (d : Z) (l : list (Z * event)) : list (Z * event) := map (fun e => (d + fst e, snd e)) l.

(** [n] iterations, the [i]-th with time offset [off + i * len] *)
Section Iterate.
  Variable f : Z -> sst -> list (Z * event) * sst.
  Fixpoint iterate (n : nat) (off len : Z) (s : sst) : list (Z * event) * sst :=
    match n with
    | O => ([], s)
    | S n' => let '(e1, s1) := f off s in
              let '(e2, s2) := iterate n' (off + len) len s1 in (e1 ++ e2, s2)
    end.
End Iterate.

(** one after the other *)
Section SeqPlay.
  Context {A : Type}.
  Variable f : A -> sst -> list (Z * event) * sst.
  Fixpoint seq_play (l : list A) (s : sst) : list (Z * event) * sst :=
    match l with
    | [] => ([], s)
    | x :: r => let '(e1, s1) := f x s in let '(e2, s2) := seq_play r s1 in (e1 ++ e2, s2)
    end.
End SeqPlay.

(** a skipped operation has no events; the bin counters of append-mode acquisitions advance
    nevertheless (they are classical instructions) *)
Definition skip_node (n : pnode) (s : sst) : sst := match n with POp _ k => op_next k s | _ => s end.

(** [play env n off s]: what node [n] does when schedule time 0 is at wall-clock time [off]. *)
Fixpoint play (env : nat -> nat -> bool) (n : pnode) (off : Z) (s : sst) : list (Z * event) * sst :=
  match n with
  | POp t k => (shift (off + t) (op_events k s), op_next k s)
  | PLoop t n body te =>
      iterate (fun o s => seq_play (fun x s => play env x o s) body s) (Z.to_nat n) off (te - t) s
  | PCond t a body te =>
      let '(e, s') := if env (kcond s) a then seq_play (fun x s => play env x off s) body s
                      else ([], fold_left (fun s x => skip_node x s) body s) in
      (e, {| bins := bins s'; kcond := S (kcond s') |})
  end.

Definition play_all (env : nat -> nat -> bool) (f : list pnode) (off : Z) (s : sst) : list (Z * event) * sst :=
  seq_play (fun x s => play env x off s) f s.

(** time an operation keeps its sequencer busy *)
Definition op_len (k : kind) : Z :=
  match k with
  | KIdle | KParam _ => 0
  | KPulse _ _ _ _ | KUpd => 4
  | KLatchRst d => d
  | KAcq _ _ (ATTL d) | KAcq _ _ (ATags d _ _ _) => d
  | KAcq _ _ _ => 4
  end.

(** operations that are a single real-time instruction of 4 ns, or parameters, or nothing *)
Definition simple_kind (k : kind) : bool :=
  match k with
  | KIdle | KParam _ | KPulse _ _ _ _ | KUpd | KAcq _ _ ASquare | KAcq _ _ (AWeighted _ _) => true
  | _ => false
  end.

Definition TMAX : Z := 2 ^ 47.

(** Side conditions: iteration counts fit a register and are at least 1; times below 2^47 ns (39 hours);
    latch resets last a non-negative time; bin registers are among the [nb] reserved ones;
    the trigger address of a conditional is between 1 and 15; a conditional contains only simple operations, lasts at most 65528 ns and is idle for 0 or at least 4 ns between
    them. *)
Definition kind_ok (nb : nat) (k : kind) : bool :=
  match k with
  | KLatchRst d => 0 <=? d
  | KAcq _ b p =>
      (match b with BReg r => Nat.ltb r nb | BImm _ => true end) &&
      (match p with
       | ATTL d => d <=? TMAX
       | ATags d f0 f1 _ => (d <=? TMAX) && (0 <=? f0) && (f0 <? M32) && (0 <=? f1) && (f1 <? M32)
       | AWeighted x y => (0 <=? x) && (x <? M32) && (0 <=? y) && (y <? M32)
       | ASquare => true
       end)
  | _ => true
  end.

Fixpoint gaps_ok (e : Z) (body : list pnode) (te : Z) : bool :=
  match body with
  | [] => (te <=? e) || (e + 4 <=? te)
  | POp t k :: r => ((t <=? e) || (e + 4 <=? t)) && gaps_ok (Z.max e t + op_len k) r te
  | _ => false
  end.

Fixpoint node_ok (nb : nat) (n : pnode) : bool :=
  match n with
  | POp t k => (t <=? TMAX) && kind_ok nb k
  | PLoop t n body te => (t <=? TMAX) && (te <=? TMAX) && (1 <=? n) && (n <? M32) && forallb (node_ok nb) body
  | PCond t a body te =>
      Nat.leb 1 a && Nat.leb a 15 && (t <=? TMAX) && (te <=? TMAX) && (te - t <=? 65528) && gaps_ok t body te &&
      forallb (fun x => match x with POp _ k => simple_kind k && node_ok nb x | _ => false end) body
  end.

(** ** Whole programs *)
Definition has_cond (n : pnode) : bool :=
  existsb (fun o => match o with SCond _ _ => true | _ => false end) (flat n).

(** the bin counters start at the offsets given by the acquisition index manager *)
Definition start_state (offs : list Z) : sst := {| bins := fun r => nth r offs 0; kcond := 0 |}.

(** one repetition that starts at wall-clock time [T]: the NCO phase is reset, parameters are latched, and 4 ns later
    schedule time 0 begins *)
Definition one_run (env : nat -> nat -> bool) (forest : list pnode) (T : Z) (s : sst) : list (Z * event) * sst :=
  let '(e, s') := play_all env forest (T + 4) s in ((T, EParam PResetPh) :: (T, EUpd) :: e, s').

(** wall-clock start of the first repetition, for a program started at [t0] with latency correction [lat] *)
Definition first_rep (t0 lat : Z) : Z := t0 + 8 + (4 + lat).

Definition header_events (mrk : Z) (cond : bool) (t0 : Z) : list (Z * event) :=
  (t0, EParam (PMrk mrk)) :: (if cond then [(t0, EParam (PLatchEn 1 4))] else []) ++ [(t0, ESync); (t0 + 4, EUpd)].

Definition full_trace env mrk offs lat reps total forest t0 : list (Z * event) :=
  header_events mrk (existsb has_cond forest) t0 ++
  fst (iterate (one_run env forest) (Z.to_nat reps) (first_rep t0 lat) (total + 4) (start_state offs)).
