(** C38: examples that meet the hypotheses, and schedules outside of them that are compiled to something else. *)
From Verif Require Import Base Q1Model Q1Machine Q1Spec Q1Whole DistModel DistSpec DistSort DistProps DistTree DistThms.
From Coq Require Import List Permutation.
Open Scope string_scope.
Open Scope list_scope.
Open Scope Z_scope.

Definition q0 : pc := ("q0:mw", "q0.01").
Definition q1 : pc := ("q1:mw", "q1.01").
Definition ex_mapping : list pc := [q0; q1].
Definition pulse (p : pc) (w : Z) : op := Leaf false false [{| e_port := Some (fst p); e_clock := Some (snd p); e_t0 := 0; e_dur := 20; e_kind := KPulse (Some w) (Some w) 100 100 |}] [].
(** ShiftClockPhase: no port *)
Definition phase (clock : string) : op := Leaf false false [{| e_port := None; e_clock := Some clock; e_t0 := 0; e_dur := 0; e_kind := KParam (Some (PPhaseDelta 7)) |}] [].

(** nested loops, a pulse with a concurrent loop on another port-clock, a phase shift *)
Definition ex_schedule : op :=
  Sub [(0, pulse q0 1);
       (20, Loop 3 0 (Sub [(0, pulse q0 2); (20, Loop 2 0 (Sub [(0, phase "q0.01"); (0, pulse q0 3)] (Some 20)))] (Some 60)));
       (20, Loop 4 0 (pulse q1 4));
       (200, Sub [(0, phase "q0.01"); (0, pulse q0 5)] (Some 20))] (Some 220).
Definition apartb (p : pc) (i j : Z * op) : bool :=
  negb (reaches p (snd i)) || negb (reaches p (snd j)) || negb (is_flow (snd i) || is_flow (snd j)) || (fst i + extent (snd i) <=? fst j) || (fst j + extent (snd j) <? fst i).
Lemma apartb_ok p i j : apartb p i j = true -> apart p i j.
Proof. unfold apartb, apart. intros H H1 H2 H3. rewrite H1, H2 in H. destruct (is_flow (snd i)), (is_flow (snd j)); cbn in H; [| | |destruct H3; discriminate]; lia. Qed.
Ltac crush_compiled :=
  repeat (match goal with
  | |- compiled (Sub _ _) => apply compiled_sub; eexists; split; [reflexivity|split; [lia|unfold items_compiled]]
  | |- compiled (Loop _ _ _) => split; [lia|split; [reflexivity|]]
  | |- compiled (Cond _ _ _ _) => split; [reflexivity|split; [lia|]]
  | |- compiled (pulse _ _) => repeat constructor; cbn; try lia; discriminate
  | |- compiled (phase _) => repeat constructor; cbn; try lia; discriminate
  | |- Forall _ [] => constructor
  | |- Forall _ (_ :: _) => constructor; [cbn [fst snd]; split; [lia|split; [|let d := fresh "d" in let H := fresh "H" in intros d H; vm_compute in H; injection H as <-; lia]]|]
  end).
Ltac crush_separate :=
  repeat (match goal with
  | |- separate _ _ => split
  | |- True => exact I
  | |- ForallOrdPairs _ _ => cbn [pieces flat_map app snd fst pulse phase]; repeat (first [apply FOP_cons | apply FOP_nil | apply Forall_cons | apply Forall_nil]); apply apartb_ok; vm_compute; reflexivity
  | |- bodies_separate _ (Sub _ _) => apply bodies_sub; repeat (first [apply Forall_cons | apply Forall_nil]); cbn [snd]
  | |- bodies_separate _ (Loop _ _ _) => split
  | |- bodies_separate _ (Cond _ _ _ _) => split
  | |- bodies_separate _ _ => exact I
  end).
Ltac crush_names :=
  repeat (match goal with
  | |- names_port _ (Sub _ _) => apply names_sub; repeat (first [apply Forall_cons | apply Forall_nil]); cbn [snd]
  | |- names_port _ (Loop _ _ _) => split; [first [intros _; eexists; split; [reflexivity|cbn; tauto] | vm_compute; discriminate]|]
  | |- names_port _ (Cond _ _ _ _) => split; [first [intros _; eexists; split; [reflexivity|cbn; tauto] | vm_compute; discriminate]|]
  | |- names_port _ _ => exact I
  end).
Lemma ex_compiled : compiled ex_schedule. Proof. unfold ex_schedule. crush_compiled. Qed.
Lemma ex_separate0 : separate q0 ex_schedule. Proof. unfold ex_schedule. crush_separate. Qed.
Lemma ex_separate1 : separate q1 ex_schedule. Proof. unfold ex_schedule. crush_separate. Qed.
Lemma ex_names0 : names_port q0 ex_schedule. Proof. unfold ex_schedule. crush_names. Qed.
Lemma ex_names1 : names_port q1 ex_schedule. Proof. unfold ex_schedule. crush_names. Qed.
Lemma ex_nodup : NoDup ex_mapping. Proof. repeat constructor; cbn; intuition discriminate. Qed.

Definition ph : kind := KParam (Some (PPhaseDelta 7)).
Definition pl (w : Z) : kind := KPulse (Some w) (Some w) 100 100.
Definition ex_forest : list pnode :=
  [POp 0 (pl 1); PLoop 20 3 [POp 20 (pl 2); PLoop 40 2 [POp 40 ph; POp 40 (pl 3)] 60] 80; POp 200 ph; POp 200 (pl 5)].
Example C38_ex_forest : seq_ops ex_mapping ex_schedule q0 = Ok (flat_map flat ex_forest) /\ seq_ops ex_mapping ex_schedule q1 = Ok (flat_map flat [PLoop 20 4 [POp 20 (pl 4)] 40]) /\ forallb (node_ok 0) ex_forest = true.
Proof. repeat split; vm_compute; reflexivity. Qed.
Definition okb {A} (r : result A) : bool := match r with Ok _ => true | Err _ => false end.
Example C38_ex_program : okb (seq_program ex_mapping ex_schedule q0 1 [] 0 10 220) = true /\ okb (seq_program ex_mapping ex_schedule q1 1 [] 0 10 220) = true.
Proof. split; vm_compute; reflexivity. Qed.
Example C38_ex_executions : executions true q0 ex_schedule 0 =
  [(0, pl 1); (20, pl 2); (40, ph); (40, pl 3); (60, ph); (60, pl 3); (80, pl 2); (100, ph); (100, pl 3); (120, ph); (120, pl 3); (140, pl 2); (160, ph); (160, pl 3); (180, ph); (180, pl 3); (200, ph); (200, pl 5)] /\
  executions true q1 ex_schedule 0 = [(20, pl 4); (40, pl 4); (60, pl 4); (80, pl 4)].
Proof. split; reflexivity. Qed.
Example C38_ex_assignable : assignable ex_mapping ex_schedule.
Proof. apply C38_accepted_iff. vm_compute. eexists. reflexivity. Qed.

(** ** Outside the hypotheses *)
(** how often a program that plays [forest] starts waveform [w] on both paths in one repetition *)
Definition plays (env : nat -> nat -> bool) (w : Z) (forest : list pnode) : nat :=
  List.length (filter (fun e => match snd e with EPlay a b => (a =? w) && (b =? w) | _ => false end) (fst (play_all env forest 0 (start_state [])))).
Definition asked (p : pc) (w : Z) (o : op) : nat :=
  List.length (filter (fun x => match snd x with KPulse (Some a) (Some b) _ _ => (a =? w) && (b =? w) | _ => false end) (executions true p o 0)).
(** the program of [o] on [p] is accepted and plays [forest] *)
Definition compiles_to (o : op) (p : pc) (forest : list pnode) : Prop :=
  seq_ops ex_mapping o p = Ok (flat_map flat forest) /\ forallb (node_ok 0) forest = true /\ exists total prog, 0 <= total /\ seq_program ex_mapping o p 1 [] 0 1 total = Ok prog /\
  forall env t0, Runs env prog t0 (full_trace env 1 [] 0 1 total forest t0) (first_rep t0 0 + 1 * (total + 4)).
Lemma compiles o p forest total : 0 <= total <= TMAX -> seq_ops ex_mapping o p = Ok (flat_map flat forest) -> forallb (node_ok 0) forest = true -> okb (seq_program ex_mapping o p 1 [] 0 1 total) = true -> compiles_to o p forest.
Proof.
  intros Ht H1 H2 H3. split; [exact H1|]. split; [exact H2|]. destruct (seq_program ex_mapping o p 1 [] 0 1 total) as [prog|] eqn:E; [|discriminate].
  exists total, prog. split; [lia|]. split; [exact E|]. intros env t0. unfold seq_program in E. rewrite H1 in E. cbn [bind] in E.
  apply (whole_ok env 1 [] 0 1 total forest prog t0); [constructor|unfold M32; lia|unfold TMAX; lia|lia|exact H2|exact E].
Qed.

(** A pulse that is scheduled once, during the idle time of a loop on its port-clock, becomes part of the loop and is played in every iteration. *)
Definition concurrent : op := Sub [(0, Loop 3 0 (Sub [(0, pulse q0 1)] (Some 100))); (40, pulse q0 2)] (Some 300).
Theorem C38_concurrent_pulse_repeated_refuted : compiled concurrent /\ names_port q0 concurrent /\ asked q0 2 concurrent = 1%nat /\
  exists forest, compiles_to concurrent q0 forest /\ forall env, plays env 2 forest = 3%nat.
Proof.
  split; [unfold concurrent; crush_compiled|]. split; [unfold concurrent; crush_names|]. split; [reflexivity|].
  exists [PLoop 0 3 [POp 0 (pl 1); POp 40 (pl 2)] 100]. split; [|intros env; reflexivity].
  apply (compiles _ _ _ 300); [unfold TMAX; lia|vm_compute; reflexivity|vm_compute; reflexivity|vm_compute; reflexivity].
Qed.
(** A phase shift (a virtual Z gate) at the time a conditional ends, but added to the schedule before the conditional, becomes part of the conditional: if the condition does not hold, it is not applied. *)
Definition touching : op := Sub [(20, phase "q0.01"); (0, Cond 1 0 0 (pulse q0 1)); (24, pulse q0 2)] (Some 44).
Definition shifts (env : nat -> nat -> bool) (forest : list pnode) : nat :=
  List.length (filter (fun e => match snd e with EParam (PPhaseDelta _) => true | _ => false end) (fst (play_all env forest 0 (start_state [])))).
Theorem C38_touching_phase_conditional_refuted : compiled touching /\ names_port q0 touching /\ executions false q0 touching 0 = [(20, ph); (24, pl 2)] /\
  exists forest, compiles_to touching q0 forest /\ shifts (fun _ _ => false) forest = 0%nat /\ shifts (fun _ _ => true) forest = 1%nat.
Proof.
  split; [unfold touching; crush_compiled|]. split; [unfold touching; crush_names|]. split; [reflexivity|].
  exists [PCond 0 1 [POp 0 (pl 1); POp 20 ph] 20; POp 24 (pl 2)]. split; [|split; reflexivity].
  apply (compiles _ _ _ 44); [unfold TMAX; lia|vm_compute; reflexivity|vm_compute; reflexivity|vm_compute; reflexivity].
Qed.
(** The same schedule with the operations added in the order of their times is fine. *)
Example C38_touching_in_order : separate q0 (Sub [(0, Cond 1 0 0 (pulse q0 1)); (20, pulse q0 2)] (Some 40)).
Proof. crush_separate. Qed.
(** An operation without a port (a phase shift of a clock) inside a loop whose body does not name any port with that clock is executed once. *)
Definition foreign : op := Sub [(0, Loop 3 0 (Sub [(0, phase "q1.01"); (0, pulse q0 1)] (Some 20))); (60, pulse q1 2)] (Some 80).
Theorem C38_foreign_clock_once_refuted : compiled foreign /\ separate q1 foreign /\ executions true q1 foreign 0 = [(0, ph); (20, ph); (40, ph); (60, pl 2)] /\
  compiles_to foreign q1 [POp 0 ph; POp 60 (pl 2)].
Proof.
  split; [unfold foreign; crush_compiled|]. split; [unfold foreign; crush_separate|]. split; [reflexivity|].
  apply (compiles _ _ _ 80); [unfold TMAX; lia|vm_compute; reflexivity|vm_compute; reflexivity|vm_compute; reflexivity].
Qed.
(** The time offset of a loop moves its beginning but not its body: here the first pulse is no longer in the loop and the second one is repeated alone. *)
Definition offset_loop : op := Sub [(0, Loop 3 20 (Sub [(0, pulse q0 1); (20, pulse q0 2)] (Some 100)))] (Some 300).
Theorem C38_loop_offset_refuted : names_port q0 offset_loop /\ separate q0 offset_loop /\ asked q0 1 offset_loop = 3%nat /\
  exists forest, compiles_to offset_loop q0 forest /\ forall env, plays env 1 forest = 1%nat /\ plays env 2 forest = 3%nat.
Proof.
  split; [unfold offset_loop; crush_names|]. split; [unfold offset_loop; crush_separate|]. split; [reflexivity|].
  exists [POp 0 (pl 1); PLoop 20 3 [POp 20 (pl 2)] 100]. split; [|intros env; split; reflexivity].
  apply (compiles _ _ _ 300); [unfold TMAX; lia|vm_compute; reflexivity|vm_compute; reflexivity|vm_compute; reflexivity].
Qed.
(** An unknown port-clock is refused, and so is a loop over operations that name no port. *)
Example C38_unknown_portclock : seq_ops ex_mapping (Sub [(0, pulse ("q2:mw", "q2.01") 1)] (Some 20)) q0 = Err KeyError.
Proof. reflexivity. Qed.
Example C38_loop_without_port : seq_ops ex_mapping (Sub [(0, Loop 3 0 (phase "q0.01"))] (Some 0)) q0 = Err RuntimeError.
Proof. reflexivity. Qed.
(** the hypotheses of [C38_loops] hold of [ex_schedule], for both port-clocks *)
Example C38_ex_loops : forall p, In p ex_mapping -> forall t0 env, exists prog evs, seq_program ex_mapping ex_schedule p 1 [] 0 10 220 = Ok prog /\
  Runs env prog t0 (header_events 1 false t0 ++ flat_map (fun i => (repetition_start t0 0 220 i, EParam PResetPh) :: (repetition_start t0 0 220 i, EUpd) :: evs i) (seq 0 10)) (first_rep t0 0 + 10 * 224) /\
  forall i, (i < 10)%nat -> explains (repetition_start t0 0 220 i + 4) (evs i) (executions true p ex_schedule 0).
Proof.
  intros p Hp t0 env. assert (Hok : okb (seq_program ex_mapping ex_schedule p 1 [] 0 10 220) = true) by (destruct Hp as [<-|[<-|[]]]; vm_compute; reflexivity).
  destruct (seq_program ex_mapping ex_schedule p 1 [] 0 10 220) as [prog|] eqn:E; [|discriminate]. exists prog.
  destruct (C38_loops ex_mapping ex_schedule p 1 [] 0 10 220 prog t0 env ex_nodup Hp ex_compiled) as (evs & H1 & H2).
  - destruct Hp as [<-|[<-|[]]]; [exact ex_names0|exact ex_names1].
  - destruct Hp as [<-|[<-|[]]]; [exact ex_separate0|exact ex_separate1].
  - reflexivity.
  - apply fits_sub. repeat (first [apply Forall_cons | apply Forall_nil]); cbn; repeat split; try reflexivity; repeat (first [apply Forall_cons | apply Forall_nil]); reflexivity.
  - intros d [= <-]. unfold TMAX. lia.
  - constructor.
  - unfold M32. lia.
  - unfold TMAX. lia.
  - unfold TMAX. lia.
  - exact E.
  - exists evs. split; [reflexivity|]. split; [exact H1|exact H2].
Qed.
