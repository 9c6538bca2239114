(** Model of how the Qblox backend turns the samples of a pulse into a table entry, a gain and a play instruction:
    helpers/waveforms.py l.449-487, backends/qblox/operation_handling/pulses.py l.57-245 (GenericPulseStrategy), backends/qblox/compiler_abc.py l.349-470,
    backends/qblox/operation_handling/acquisitions.py l.185-264 (WeightedAcquisitionStrategy.generate_data).
    Floats are exact rationals; a complex sample is the pair of its real and imaginary part; the samples of a pulse are given (they are what its waveform function returns, C68). *)
From Verif Require Import Base NumericModel WfModel.
Local Open Scope Q_scope.
Local Open Scope list_scope.
Local Notation length := List.length.
Local Notation sample := (Q * Q)%type.

(** l[np.argmax(np.abs(l))]: the first value of largest magnitude; an error for the empty array *)
Definition peak (l : list Q) : result Q :=
  match l with
  | [] => Err ValueError
  | x :: r => Ok (fold_left (fun b y => if Qlt_bool (Qabs b) (Qabs y) then y else b) r x)
  end.
(** helpers/waveforms.py l.449-487.  math.isclose(a, 0.0) has no absolute tolerance, it holds for 0 only. *)
Definition normalize (data : list sample) : result (list sample * Q * Q) :=
  do amp_real <- peak (map fst data);
  do amp_imag <- peak (map snd data);
  let re x := if Qeq_bool amp_real 0 then 0 else x / amp_real in
  if Qeq_bool amp_imag 0 then Ok (map (fun z : sample => (re (fst z), 0)) data, amp_real, amp_imag)
  else Ok (map (fun z : sample => (re (fst z), snd z / amp_imag)) data, amp_real, amp_imag).

(** pulses.py l.80-91, the attributes set by generate_data *)
Record strategy := { index0 : option nat; index1 : option nat; amp_I : Q; amp_Q : Q }.
(** l.178-179, constants.py l.13 *)
Definition non_null (amp : Q) : bool := Qle_bool (2 / 65536) (Qabs amp).
(** instructions with an effect on the output *)
Inductive instr := SetAwgGain (g0 g1 : Z) | Play (i0 i1 : nat) (wait : Z) | UpdParam (wait : Z).

Section Hash.
Variable hash : list Z -> Z.
(** l.152-195; [complex]: the name of the channel says complex *)
Definition generate_data (complex : bool) (d : list entry) (data : list sample) : result (list entry * strategy) :=
  do p1 <- normalize data; let '(w, amp_real, amp_imag) := p1 in
  if existsb (fun z : sample => negb (Qeq_bool (snd z) 0)) w && negb complex then Err ValueError
  else
    let '(d1, i0) := if non_null amp_real then let '(d', i) := add_wf hash d (map fst w) in (d', Some i) else (d, None) in
    let '(d2, i1) := if non_null amp_imag then let '(d', i) := add_wf hash d1 (map snd w) in (d', Some i) else (d1, None) in
    Ok (d2, {| index0 := i0; index1 := i1; amp_I := amp_real; amp_Q := amp_imag |}).

(** l.221-245, without the check of the time since the last pulse (C16).  qasm_program.py l.308-345: both gains are computed before they are emitted. *)
Definition insert_qasm (s : strategy) : result (list instr) :=
  match index0 s, index1 s with
  | None, None => Ok [UpdParam 4]
  | i0, i1 =>
      do g0 <- expand_awg (amp_I s) 65536;
      do g1 <- expand_awg (amp_Q s) 65536;
      let first := match i0 with Some i => i | None => match i1 with Some i => i | None => 0%nat end end in
      let second := match i1 with Some i => i | None => match i0 with Some i => i | None => 0%nat end end in
      Ok [SetAwgGain g0 g1; Play first second 4]
  end.

(** compiler_abc.py l.388-403, for pulses with these samples and no injected assembly *)
Fixpoint generate_all (complex : bool) (d : list entry) (pulses : list (list sample)) : result (list entry * list strategy) :=
  match pulses with
  | [] => Ok (d, [])
  | p :: r => do p2 <- generate_data complex d p; let '(d1, s) := p2 in do p3 <- generate_all complex d1 r; let '(d2, ss) := p3 in Ok (d2, s :: ss)
  end.
(** l.451-467 *)
Definition MAX_SAMPLES : Z := 16384.
Fixpoint validate (size : Z) (used : list nat) (d : list entry) : result unit :=
  match d with
  | [] => if (MAX_SAMPLES <? size)%Z then Err RuntimeError else Ok tt
  | e :: r => if existsb (Nat.eqb (index e)) used then Err RuntimeError else validate (size + Z.of_nat (length (data e))) (index e :: used) r
  end.
(** l.388-406 *)
Definition generate_awg_dict (complex : bool) (pulses : list (list sample)) : result (list entry * list strategy) :=
  do p4 <- generate_all complex [] pulses; let '(d, ss) := p4 in do _ <- validate 0 [] d; Ok (d, ss).

(** acquisitions.py l.199-264, for real weights given by their samples. max of an empty array is an error; so is next() without a value greater than 1. *)
Definition maximum (l : list Q) : result Q := match l with [] => Err ValueError | x :: r => Ok (fold_left (fun b y => if Qlt_bool b y then y else b) r x) end.
Fixpoint add_weights (n : nat) (d : list entry) (ws : list (list Q)) : result (list entry * list nat) :=
  match ws with
  | [] => Ok (d, [])
  | w :: r =>
      if Nat.ltb 1 n then Err ValueError else
      do mx <- maximum w;
      if Qlt_bool 1 (Qabs mx) then (if existsb (fun x => Qlt_bool 1 x) w then Err ValueError else Err OtherErr) else
      let '(d1, i) := add_wf hash d w in
      do p5 <- add_weights (S n) d1 r; let '(d2, is) := p5 in Ok (d2, i :: is)
  end.
Definition generate_weights (d : list entry) (ws : list (list Q)) : result (list entry * (nat * nat)) :=
  do p6 <- add_weights 0 d ws; let '(d1, is) := p6 in
  match is with [i0; i1] => Ok (d1, (i0, i1)) | _ => Err ValueError end.
(** compiler_abc.py l.445-449 *)
Fixpoint generate_weights_dict (d : list entry) (acqs : list (list (list Q))) : result (list entry * list (nat * nat)) :=
  match acqs with
  | [] => Ok (d, [])
  | a :: r => do p7 <- generate_weights d a; let '(d1, i) := p7 in do p8 <- generate_weights_dict d1 r; let '(d2, is) := p8 in Ok (d2, i :: is)
  end.
End Hash.
