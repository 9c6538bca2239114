(** Model of the Q1ASM program generator of the Qblox backend.
    Sources (all under /repo/quantify_scheduler/backends/qblox):
    register_manager.py, qasm_program.py, compiler_abc.py (generate_qasm_program, _parse_operations),
    analog.py (header), operation_handling/{pulses,virtual,acquisitions}.py, conditional.py.
    All times are integers in ns ([helpers.to_grid_time] is modelled in NumericModel.v). *)
From Verif Require Import Base.
Open Scope Z_scope.

(** ** Instructions: q1asm_instructions.py *)

(** Labels are strings in the code: "start", f"loop{n}", f"wait{n}" (compiler_abc.py l.585, l.707,
    qasm_program.py l.239).  The three families are disjoint and injective in [n], which is all that matters. *)
Inductive label := LStart | LLoop (n : nat) | LWait (n : nat).

Definition label_eqb (a b : label) : bool :=
  match a, b with
  | LStart, LStart => true
  | LLoop n, LLoop m => Nat.eqb n m
  | LWait n, LWait m => Nat.eqb n m
  | _, _ => false
  end.

Inductive opnd := Imm (z : Z) | Reg (r : nat).

(** latched parameter instructions (zero duration) *)
Inductive param :=
  | PGain (g0 g1 : Z) | POffs (a b : Z) | PPhaseDelta (z : Z) | PResetPh | PFreq (z : Z)
  | PMrk (z : Z) | PDigital (level mask fine : Z) | PTimeRef | PScopeEn (z : Z) | PLatchEn (a b : Z).

(** real-time instructions that take time *)
Inductive rtop :=
  | RWait | RWaitSync | RUpd | RPlay (w0 w1 : Z) | RAcquire (idx : Z) (bin : opnd)
  | RAcqW (idx : Z) (bin : opnd) (i0 i1 : opnd) | RAcqTTL (idx : Z) (bin : opnd) (en : Z)
  | RAcqTags (idx : Z) (bin : opnd) (en : Z) (fine : opnd) | RLatchRst.

(** conditional.py l.57-71 *)
Inductive trigop := OpOR | OpNOR | OpAND | OpNAND | OpXOR | OpXNOR.
(** conditional.py l.73-83 [__invert__] *)
Definition invert_op (o : trigop) : trigop :=
  match o with OpOR => OpNOR | OpNOR => OpOR | OpAND => OpNAND | OpNAND => OpAND
             | OpXOR => OpXNOR | OpXNOR => OpXOR end.

Inductive instr :=
  | IMove (z : Z) (r : nat)
  | IAdd (r : nat) (z : Z) (r' : nat)
  | ILabel (l : label)
  | INewline
  | ILoop (r : nat) (l : label)
  | IRT (o : rtop) (d : Z)
  | IParam (p : param)
  | ISetCond (mask : Z) (o : trigop) (else_d : Z)
  | ISetCondOff
  | IStop.

(** constants.py l.15, l.36, l.44, l.78 *)
Definition MAXW : Z := 65532.
Definition MINOP : Z := 4.
Definition MINACQ : Z := 300.
Definition NREG : nat := 64.

(** ** Generator state: the attributes of QASMProgram (qasm_program.py l.58-89), its
    RegisterManager and ConditionalManager. [stk] has the innermost loop first. *)
Record qst := {
  ins : list instr;
  stk : list Z;
  av : list nat;
  tpulse : option Z;
  tacq : option Z;
  nrt : Z;
  lock : bool
}.

(** register_manager.py l.13-16; qasm_program.py l.58-89 *)
Definition q0 : qst := {| ins := []; stk := [0]; av := seq 0 NREG; tpulse := None; tacq := None; nrt := 0; lock := false |}.

Definition emit (i : instr) (q : qst) : qst :=
  {| ins := ins q ++ [i]; stk := stk q; av := av q; tpulse := tpulse q; tacq := tacq q; nrt := nrt q; lock := lock q |}.
Definition set_stk (s : list Z) (q : qst) : qst :=
  {| ins := ins q; stk := s; av := av q; tpulse := tpulse q; tacq := tacq q; nrt := nrt q; lock := lock q |}.
Definition set_av (a : list nat) (q : qst) : qst :=
  {| ins := ins q; stk := stk q; av := a; tpulse := tpulse q; tacq := tacq q; nrt := nrt q; lock := lock q |}.
Definition set_tpulse (t : option Z) (q : qst) : qst :=
  {| ins := ins q; stk := stk q; av := av q; tpulse := t; tacq := tacq q; nrt := nrt q; lock := lock q |}.
Definition set_tacq (t : option Z) (q : qst) : qst :=
  {| ins := ins q; stk := stk q; av := av q; tpulse := tpulse q; tacq := t; nrt := nrt q; lock := lock q |}.
Definition set_nrt (n : Z) (q : qst) : qst :=
  {| ins := ins q; stk := stk q; av := av q; tpulse := tpulse q; tacq := tacq q; nrt := n; lock := lock q |}.
Definition set_lock (b : bool) (q : qst) : qst :=
  {| ins := ins q; stk := stk q; av := av q; tpulse := tpulse q; tacq := tacq q; nrt := nrt q; lock := b |}.

(** qasm_program.py l.91-101 *)
Definition elapsed (q : qst) : Z := fold_right Z.add 0 (stk q).
(** qasm_program.py l.103-106: [elapsed_time += d] changes the innermost entry *)
Definition add_elapsed (d : Z) (q : qst) : qst :=
  match stk q with x :: r => set_stk (x + d :: r) q | [] => q end.

(** register_manager.py l.18-40 *)
Definition alloc (q : qst) : result (nat * qst) :=
  match av q with [] => Err IndexError | r :: rest => Ok (r, set_av rest q) end.

(** register_manager.py l.42-64, with [_verify_valid_register] l.115-121 ([>] instead of [>=]) *)
Definition free (r : nat) (q : qst) : result qst :=
  if Nat.ltb NREG r then Err ValueError
  else if existsb (Nat.eqb r) (av q) then Err RuntimeError
  else Ok (set_av (r :: av q) q).

(** qasm_program.py l.517-573 [loop]; [body] is the code inside the [with] block (it may return a value) *)
Definition with_loop {A} (lab : label) (reps : Z) (body : qst -> result (A * qst)) (q : qst) : result (A * qst) :=
  do (r, q1) <- alloc q;
  let q2 := emit (ILabel lab) (emit (IMove reps r) (set_stk (0 :: stk q1) q1)) in
  do (a, q3) <- body q2;
  do q4 <- free r (emit (ILoop r lab) q3);
  match stk q4 with
  | last :: x :: rest => Ok (a, set_stk (x + last * reps :: rest) q4)
  | _ => Err IndexError
  end.

(** one [wait] instruction of qasm_program.py l.241-248, 251-258, 264-271 *)
Definition emit_wait (d : Z) (count : bool) (q : qst) : qst :=
  let q1 := emit (IRT RWait d) q in
  let q2 := if count then add_elapsed d q1 else q1 in
  set_nrt (nrt q2 + 1) q2.

Fixpoint repeat_wait (n : nat) (d : Z) (count : bool) (q : qst) : qst :=
  match n with O => q | S n' => repeat_wait n' d count (emit_wait d count q) end.

(** qasm_program.py l.194-271 [auto_wait] *)
Definition auto_wait (w : Z) (count : bool) (q : qst) : result qst :=
  if w =? 0 then Ok q
  else if w <? 0 then Err ValueError
  else
    do q1 <-
      (if w >? MAXW then
         let reps := w / MAXW in
         if reps >? 4 then
           do (_, q') <- with_loop (LWait (List.length (ins q))) reps (fun q => Ok (tt, emit_wait MAXW count q)) q;
           Ok q'
         else Ok (repeat_wait (Z.to_nat reps) MAXW count q)
       else Ok q);
    let left := if w >? MAXW then w mod MAXW else w in
    if left >? 0 then Ok (emit_wait left count q1) else Ok q1.

(** ** Operation strategies *)
Inductive binarg := BImm (b : Z) | BReg (r : nat).
Inductive acqproto :=
  | ASquare | AWeighted (i0 i1 : Z) | ATTL (dur : Z) | ATags (dur f0 f1 : Z) (scoped : bool).

(** [KIdle]: operation named "IdlePulse" (IdleStrategy, emits nothing).
    [KParam p]: AwgOffset/NcoPhaseShift/NcoReset/NcoSetFrequency/Marker/Digital/Timestamp strategies;
    [None] when the strategy emits nothing (phase shift 0).  The immediates are those
    computed by the conversions of NumericModel.v.
    [KPulse w0 w1 g0 g1]: GenericPulseStrategy.  [KAcq idx bin p]: the acquisition strategies. *)
Inductive kind :=
  | KIdle
  | KParam (p : option param)
  | KPulse (w0 w1 : option Z) (g0 g1 : Z)
  | KUpd
  | KLatchRst (d : Z)
  | KAcq (idx : Z) (b : binarg) (p : acqproto).

Definition opnd_of (b : binarg) : opnd := match b with BImm z => Imm z | BReg r => Reg r end.

(** [emit] of a real-time instruction of 4 ns and [elapsed_time += 4] *)
Definition emit_rt (o : rtop) (q : qst) : qst := add_elapsed MINOP (emit (IRT o MINOP) q).

Definition bump (b : binarg) (q : qst) : qst :=
  match b with BImm _ => q | BReg r => emit (IAdd r 1 r) q end.

(** operation_handling/pulses.py l.187-243 *)
Definition insert_pulse (w0 w1 : option Z) (g0 g1 : Z) (q : qst) : result qst :=
  let ok := match tpulse q with Some tl => negb (elapsed q - tl <? MINOP) | None => true end in
  if negb ok then Err ValueError
  else
    let q1 := set_tpulse (Some (elapsed q)) q in
    match w0, w1 with
    | None, None => Ok (emit_rt RUpd q1)
    | Some a, None => Ok (emit_rt (RPlay a a) (emit (IParam (PGain g0 g1)) q1))
    | None, Some b => Ok (emit_rt (RPlay b b) (emit (IParam (PGain g0 g1)) q1))
    | Some a, Some b => Ok (emit_rt (RPlay a b) (emit (IParam (PGain g0 g1)) q1))
    end.

(** operation_handling/acquisitions.py l.116-176 *)
Definition acq_square (idx : Z) (b : binarg) (q : qst) : result qst :=
  match b with
  | BImm z => Ok (emit_rt (RAcquire idx (Imm z)) q)
  | BReg r => Ok (emit INewline (bump b (emit_rt (RAcquire idx (Reg r)) (emit INewline q))))
  end.

(** operation_handling/acquisitions.py l.266-333 with qasm_program.py l.575-598 [temp_registers] *)
Definition acq_weighted (idx : Z) (b : binarg) (i0 i1 : Z) (q : qst) : result qst :=
  match b with
  | BImm z => Ok (emit_rt (RAcqW idx (Imm z) (Imm i0) (Imm i1)) q)
  | BReg r =>
    do (r0, q1) <- alloc q;
    do (r1, q2) <- alloc q1;
    let q3 := emit (IMove i1 r1) (emit (IMove i0 r0) (emit INewline q2)) in
    let q4 := emit (IRT (RAcqW idx (Reg r) (Reg r0) (Reg r1)) MINOP) q3 in
    let q5 := add_elapsed MINOP (emit INewline (bump b q4)) in
    do q6 <- free r0 q5;
    free r1 q6
  end.

(** operation_handling/acquisitions.py l.343-429 *)
Definition acq_ttl (idx : Z) (b : binarg) (dur : Z) (q : qst) : result qst :=
  let q1 := emit_rt (RAcqTTL idx (opnd_of b) 1) q in
  do q2 <- auto_wait (dur - 2 * MINOP) true q1;
  Ok (bump b (emit_rt (RAcqTTL idx (opnd_of b) 0) q2)).

(** operation_handling/acquisitions.py l.449-568; [scoped]: l.571-605 *)
Definition acq_tags_core (idx : Z) (b : binarg) (dur : Z) (f0 f1 : opnd) (q : qst) : result qst :=
  let q1 := emit_rt (RAcqTags idx (opnd_of b) 1 f0) q in
  do q2 <- auto_wait (dur - 2 * MINOP) true q1;
  Ok (emit_rt (RAcqTags idx (opnd_of b) 0 f1) q2).

Definition acq_tags (idx : Z) (b : binarg) (dur f0 f1 : Z) (q : qst) : result qst :=
  match b with
  | BImm _ => acq_tags_core idx b dur (Imm f0) (Imm f1) q
  | BReg _ =>
    if f0 =? f1 then
      do (r0, q1) <- alloc q;
      do q2 <- acq_tags_core idx b dur (Reg r0) (Reg r0) (emit (IMove f0 r0) q1);
      do q3 <- free r0 q2;
      Ok (bump b q3)
    else
      do (r0, q1) <- alloc q;
      do (r1, q2) <- alloc q1;
      do q3 <- acq_tags_core idx b dur (Reg r0) (Reg r1) (emit (IMove f1 r1) (emit (IMove f0 r0) q2));
      do q4 <- free r0 q3;
      do q5 <- free r1 q4;
      Ok (bump b q5)
  end.

(** operation_handling/acquisitions.py l.42-87 (the test that the bin register is present exactly in
    append mode is built into [binarg]) *)
Definition insert_acq (idx : Z) (b : binarg) (p : acqproto) (q : qst) : result qst :=
  let ok := match tacq q with Some tl => negb (elapsed q - tl <? MINACQ) | None => true end in
  if negb ok then Err ValueError
  else
    let q1 := set_tacq (Some (elapsed q)) q in
    match p with
    | ASquare => acq_square idx b q1
    | AWeighted i0 i1 => acq_weighted idx b i0 i1 q1
    | ATTL dur => acq_ttl idx b dur q1
    | ATags dur f0 f1 false => acq_tags idx b dur f0 f1 q1
    | ATags dur f0 f1 true =>
        do q2 <- acq_tags idx b dur f0 f1 (emit (IParam (PScopeEn 1)) q1);
        Ok (emit (IParam (PScopeEn 0)) q2)
    end.

(** [insert_qasm] of the strategies: operation_handling/virtual.py l.67-239, pulses.py, acquisitions.py.
    Not modelled: marker_debug_mode (analog.py l.505-523), inline Q1ASM. *)
Definition insert_qasm (k : kind) (q : qst) : result qst :=
  match k with
  | KIdle => Ok q
  | KParam (Some p) => Ok (emit (IParam p) q)
  | KParam None => Ok q
  | KPulse w0 w1 g0 g1 => insert_pulse w0 w1 g0 g1 q
  | KUpd => Ok (emit_rt RUpd q)
  | KLatchRst d => Ok (add_elapsed d (emit (IRT RLatchRst d) q))
  | KAcq idx b p => insert_acq idx b p q
  end.

(** types/qblox.py l.179-187 [is_real_time_io_operation] *)
Definition is_rt_io (k : kind) : bool :=
  match k with KPulse _ _ _ _ | KUpd | KAcq _ _ _ => true | _ => false end.

(** The ordered operation strategies of a sequencer, with their start times in ns. *)
Inductive sop :=
  | SOp (t : Z) (k : kind)
  | SLoop (t n : Z)
  | SCond (t : Z) (addr : nat)
  | SRet (t : Z).

(** qasm_program.py l.273-306 [wait_till_start_operation]; [idle]: the operation is named "IdlePulse" *)
Definition wait_till (t : Z) (idle : bool) (q : qst) : result qst :=
  let w := t - elapsed q in
  if w >? 0 then auto_wait w true q
  else if (w <? 0) && negb idle then Err ValueError
  else Ok q.

(** conditional.py l.113-132, factory_common.py l.31-41 (one address, operator OR) *)
Definition cond_mask (addr : nat) : Z := 2 ^ (Z.of_nat addr - 1).

(** qasm_program.py l.421-515 [conditional]; [body] is the code inside the [with] block.
    [start_time] is passed around instead of being kept in the ConditionalManager. *)
Definition with_conditional {A} (addr : nat) (body : qst -> result (A * qst)) (q : qst) : result (A * qst) :=
  if lock q then Err RuntimeError
  else
    let q1 := set_nrt 0 (emit (ISetCond (cond_mask addr) OpOR MINOP) (set_lock true q)) in
    let start := elapsed q1 in
    do (a, q2) <- body q1;
    let dur := elapsed q2 - start - MINOP * nrt q2 + MINOP in
    do q3 <- auto_wait dur false (emit (ISetCond (cond_mask addr) (invert_op OpOR) MINOP) q2);
    Ok (a, set_lock false (set_nrt 0 (add_elapsed MINOP (emit ISetCondOff q3)))).

Definition is_idle (k : kind) : bool := match k with KIdle => true | _ => false end.

(** compiler_abc.py l.727-728 with conditional.py l.32-45 [update] *)
Definition do_op (k : kind) (q : qst) : result qst :=
  insert_qasm k (if is_rt_io k then set_nrt (nrt q + 1) q else q).

(** compiler_abc.py l.698-730 [_parse_operations].  The shared iterator is the list of remaining operations;
    the result is what is left of it and the program.  [fuel] bounds the number of operations
    ([S (length ops)] always suffices, see [parse_fuel] in Q1Proofs.v). *)
Fixpoint parse (fuel : nat) (ops : list sop) (q : qst) : result (list sop * qst) :=
  match fuel with
  | O => Err OtherErr
  | S f =>
    match ops with
    | [] => Ok ([], q)
    | SOp t k :: rest =>
        do q1 <- wait_till t (is_idle k) q;
        do q2 <- do_op k q1;
        parse f rest q2
    | SLoop t n :: rest =>
        do q1 <- wait_till t false q;
        do (rest', q2) <- with_loop (LLoop (List.length (ins q1))) n (parse f rest) q1;
        parse f rest' q2
    | SCond t addr :: rest =>
        do q1 <- wait_till t false q;
        do (rest', q2) <- with_conditional addr (parse f rest) q1;
        parse f rest' q2
    | SRet t :: rest =>
        do q1 <- wait_till t false q;
        Ok (rest, q1)
    end
  end.

Definition uses_cond (ops : list sop) : bool :=
  existsb (fun o => match o with SCond _ _ => true | _ => false end) ops.

(** registers of the append-mode acquisitions: compiler_abc.py l.819-829, l.930-941 (the offsets come from
    the acquisition index manager, AcqIndexModel.v) *)
Fixpoint init_bins (offs : list Z) (q : qst) : result qst :=
  match offs with
  | [] => Ok q
  | o :: r => do (reg, q1) <- alloc q; init_bins r (emit (IMove o reg) q1)
  end.

(** compiler_abc.py l.526-679 [generate_qasm_program] for analog modules (analog.py l.462-496).
    [mrk]: default marker; [offs]: bin offsets; [lat]: latency correction; [total]: total_sequence_time;
    warnings, the NCO grid check and the qasm hook are not modelled. *)
Definition generate (mrk : Z) (offs : list Z) (lat reps total : Z) (ops : list sop) : result (list instr) :=
  let q1 := emit (IParam (PMrk mrk)) q0 in
  let q2 := if uses_cond ops then emit (IParam (PLatchEn 1 4)) q1 else q1 in
  let q3 := emit (IRT RUpd MINOP) (emit (IRT RWaitSync MINOP) q2) in
  do q4 <- init_bins offs q3;
  do q5 <- auto_wait (MINOP + lat) false q4;
  do (_, q6) <- with_loop LStart reps
     (fun q =>
        let qa := emit (IRT RUpd MINOP) (emit (IParam PResetPh) q) in
        do (_, qb) <- parse (S (List.length ops)) ops qa;
        let w := total - elapsed qb in
        if w <? 0 then Err RuntimeError else do qc <- auto_wait w true qb; Ok (tt, qc)) q5;
  Ok (ins (emit IStop q6)).
