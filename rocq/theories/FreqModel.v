(** Clock, local oscillator and intermediate frequencies (Qblox backend).  NaN (which the code treats as "not given")
    is [None]; floats are rationals. *)
From Verif Require Import Base.
Open Scope Q_scope.

(** math.isclose with its defaults rel_tol = 1e-9, abs_tol = 0 *)
Definition isclose (a b : Q) : bool := Qle_bool (Qabs (a - b)) ((1 # 1000000000) * Qmax (Qabs a) (Qabs b)).

(** backends/qblox/helpers.py l.388-490 [determine_clock_lo_interm_freqs]: (clock, LO, IF) *)
Definition downconvert (clock : Q) (down : option Q) : result Q :=
  match down with
  | None => Ok clock
  | Some d => if Qlt_bool d 0 then Err ValueError else if Qlt_bool d clock then Err ValueError else Ok (d - clock)
  end.

Definition determine (clock : Q) (LO IF : option Q) (down : option Q) (mix_lo : bool) : result (Q * Q * Q) :=
  do clock <- downconvert clock down;
  if negb mix_lo then
    match IF with None => Err ValueError | Some i => Ok (clock, clock, i) end
  else
    match LO, IF with
    | None, None => Err ValueError
    | Some l, Some i => if isclose (l + i) clock then Ok (clock, l, i) else Err ValueError
    | None, Some i => Ok (clock, clock - i, i)
    | Some l, None => Ok (clock, l, clock - l)
    end.

(** AnalogSequencerCompiler.frequency setter: backends/qblox/analog.py l.173-204 *)
Definition set_if (old : option Q) (f : Q) : result (option Q) :=
  match old with Some o => if isclose o f then Ok (Some f) else Err ValueError | None => Ok (Some f) end.
(** LocalOscillatorCompiler.frequency setter: backends/qblox/instrument_compilers.py l.110-135 *)
Definition set_ext_lo (old : option Q) (f : Q) : result (option Q) :=
  match old with Some o => if Qeq_bool f o then Ok (Some f) else Err ValueError | None => Ok (Some f) end.
(** RFModuleCompiler._set_lo_frequency: backends/qblox/analog.py l.1170-1203 *)
Definition set_rf_lo (old : option Q) (f : Q) : result (option Q) :=
  match old with Some o => if isclose f o then Ok (Some f) else Err ValueError | None => Ok (Some f) end.

Record seqr := { s_clock : Q; s_if : option Q; s_down : option Q; s_mix : bool }.
Definition with_if (s : seqr) (i : option Q) : seqr := {| s_clock := s_clock s; s_if := i; s_down := s_down s; s_mix := s_mix s |}.

(** BasebandModuleCompiler.assign_frequencies (analog.py l.961-1021) for a sequencer with an external LO: new LO and sequencer *)
Definition assign_baseband (lo : option Q) (s : seqr) : result (option Q * seqr) :=
  do (_, l, i) <- determine (s_clock s) lo (s_if s) (s_down s) (s_mix s);
  do lo' <- set_ext_lo lo l;
  do i' <- set_if (s_if s) i;
  Ok (lo', with_if s i').

(** AnalogModuleCompiler.prepare (analog.py l.653-694): all sequencers that share one external LO, in order *)
Fixpoint assign_all_baseband (lo : option Q) (ss : list seqr) : result (option Q * list seqr) :=
  match ss with
  | [] => Ok (lo, [])
  | s :: r => do (lo1, s1) <- assign_baseband lo s; do (lo2, r2) <- assign_all_baseband lo1 r; Ok (lo2, s1 :: r2)
  end.

Definition upd_lo (los : nat -> option Q) (k : nat) (v : option Q) : nat -> option Q := fun x => if Nat.eqb x k then v else los x.

(** RFModuleCompiler.assign_frequencies (analog.py l.1072-1124); [idx]: the connected LO indices of the sequencer *)
Fixpoint assign_rf (idx : list nat) (los : nat -> option Q) (s : seqr) : result ((nat -> option Q) * seqr) :=
  match idx with
  | [] => Ok (los, s)
  | k :: r =>
      do (_, l, i) <- determine (s_clock s) (los k) (s_if s) (s_down s) true;
      do lo' <- set_rf_lo (los k) l;
      do i' <- set_if (s_if s) i;
      assign_rf r (upd_lo los k lo') (with_if s i')
  end.

Fixpoint assign_all_rf (los : nat -> option Q) (ss : list (list nat * seqr)) : result ((nat -> option Q) * list seqr) :=
  match ss with
  | [] => Ok (los, [])
  | (idx, s) :: r => do (l1, s1) <- assign_rf idx los s; do (l2, r2) <- assign_all_rf l1 r; Ok (l2, s1 :: r2)
  end.
