(** Properties C14-C19 of the Q1ASM generator, stated with the machine of Q1Machine.v and the specification Q1Spec.v. *)
From Coq Require Import Permutation Arith.
From Verif Require Import Base Q1Model Q1Machine Q1Spec Q1Blk Q1Gen Q1Ops Q1Forest Q1Whole.
Open Scope Z_scope.

(** ** An executable runner, used only for concrete programs *)
Fixpoint exec (env : nat -> nat -> bool) (p : list instr) (fuel : nat) (s : mst) (acc : list (Z * event)) : option (list (Z * event) * mst) :=
  match fuel with
  | O => None
  | S f => match nth_error p (pc s) with
           | Some IStop => Some (acc, s)
           | _ => match step env p s with
                  | Some (e, s') => exec env p f s' (acc ++ e)
                  | None => None
                  end
           end
  end.

Lemma exec_sound env p fuel : forall s acc tr s', exec env p fuel s acc = Some (tr, s') ->
  exists e, tr = acc ++ e /\ steps env p s e s' /\ nth_error p (pc s') = Some IStop.
Proof.
  induction fuel as [|f IH]; intros s acc tr s' H; [discriminate|]. cbn [exec] in H.
  assert (Hs : forall e s1, step env p s = Some (e, s1) -> exec env p f s1 (acc ++ e) = Some (tr, s') ->
     exists e0, tr = acc ++ e0 /\ steps env p s e0 s' /\ nth_error p (pc s') = Some IStop).
  { intros e s1 H1 H2. destruct (IH _ _ _ _ H2) as [e2 [-> [H3 H4]]]. exists (e ++ e2).
    rewrite <- app_assoc. split; [reflexivity|]. split; [econstructor; eauto|exact H4]. }
  destruct (nth_error p (pc s)) as [i|] eqn:Hn; [destruct i|];
    try (destruct (step env p s) as [[e s1]|] eqn:E; [eapply Hs; eauto|discriminate]).
  injection H as <- <-. exists []. rewrite app_nil_r. split; [reflexivity|]. split; [constructor|exact Hn].
Qed.

Lemma exec_runs env p fuel t0 tr s' : exec env p fuel (m0 t0) [] = Some (tr, s') -> Runs env p t0 tr (tm s').
Proof. intros H. destruct (exec_sound _ _ _ _ _ _ _ H) as [e [-> [H1 H2]]]. exists s'. auto. Qed.

(** ** C14: waits *)

(** Run the code emitted by [auto_wait w], placed anywhere in a program whose labels [loopN]/[waitN] stand where the generator
    puts them, from any machine state with no condition pending: it takes exactly [w] ns, produces no events, and
    leaves every register that is in use unchanged.  The generator's clock advances by [w] iff asked to. *)
Theorem C14_wait_takes_exactly : forall env w count q q' post S0 st,
  NoDup (av q) -> stk q <> [] -> w <= TMAX ->
  auto_wait w count q = Ok q' ->
  LabelsOK S0 (ins q' ++ post) ->
  pc st = List.length (ins q) -> cnd st = None ->
  (exists st', steps env (ins q' ++ post) st [] st' /\ pc st' = List.length (ins q') /\ tm st' = tm st + w /\
     cnd st' = None /\ (forall r, ~ In r (av q) -> rg st' r = rg st r)) /\
  elapsed q' = elapsed q + (if count then w else 0) /\ Permutation (av q') (av q).
Proof.
  intros env w count q q' post S0 st Hn Hs Hw H HL Hpc Hc.
  set (B := fun _ : nat => False).
  assert (HW : WF B q) by (split; [exact Hn|split; [intros r _ []|exact Hs]]).
  destruct (auto_wait_ok S0 env B w count q q' HW Hw H) as [_ [code [G [R _]]]].
  pose proof (Gen_elapsed _ _ _ _ G) as HE. destruct G as [G1 [G2 [G3 _]]].
  split; [|split; [exact HE|exact G3]].
  rewrite G1 in HL |- *. rewrite <- app_assoc in HL |- *.
  destruct (R None I (ins q) post {| bins := fun _ => 0; kcond := kc st |} st eq_refl HL Hpc Hc eq_refl) as [st' [E1 [P1 [T1 [C1 [_ [_ F1]]]]]]].
  - intros r [].
  - exact I.
  - exists st'. split; [exact E1|]. split; [rewrite P1, app_length; reflexivity|]. split; [exact T1|]. split; [exact C1|].
    intros r Hr. apply F1; [intros []|exact Hr].
Qed.

(** negative waits are rejected, and only those (as long as a register is free for the wait loop) *)
Theorem C14_negative_rejected : forall w count q, w < 0 -> auto_wait w count q = Err ValueError.
Proof.
  intros w count q H. unfold auto_wait. destruct (w =? 0) eqn:E; [apply Z.eqb_eq in E; lia|].
  destruct (w <? 0) eqn:E1; [reflexivity|]. apply Z.ltb_ge in E1. lia.
Qed.

Theorem C14_nonnegative_accepted : forall w count q,
  0 <= w -> NoDup (av q) -> (forall r, In r (av q) -> (r < 64)%nat) -> av q <> [] -> stk q <> [] ->
  exists q', auto_wait w count q = Ok q'.
Proof.
  intros w count q Hw Hn Hr Ha Hs. unfold auto_wait. destruct (w =? 0); [eauto|].
  destruct (w <? 0) eqn:E1; [apply Z.ltb_lt in E1; lia|].
  match goal with |- exists q', bind ?a _ = _ => assert (Hmid : exists q1, a = Ok q1) end.
  { destruct (w >? MAXW); [|eauto]. cbv zeta. destruct (w / MAXW >? 4); [|eauto].
    unfold with_loop, alloc. destruct (av q) as [|r rest] eqn:Eav; [congruence|]. cbn [bind].
    inversion Hn as [|? ? Hr1 Hr2]; subst.
    set (q2 := emit (ILabel _) _). unfold free.
    assert (Hav : av (emit (ILoop r (LWait (List.length (ins q)))) (emit_wait MAXW count q2)) = rest).
    { unfold emit_wait. destruct count; [unfold add_elapsed; cbn [emit stk q2 set_stk]|]; reflexivity. }
    rewrite Hav. destruct (Nat.ltb NREG r) eqn:E2.
    { apply Nat.ltb_lt in E2. specialize (Hr r (or_introl eq_refl)). unfold NREG in E2. lia. }
    destruct (existsb (Nat.eqb r) rest) eqn:E3.
    { apply existsb_exists in E3. destruct E3 as [x [Hx Hx2]]. apply Nat.eqb_eq in Hx2. subst x. contradiction. }
    cbn [bind set_av stk emit].
    assert (Hstk : exists y, stk (emit_wait MAXW count q2) = y :: stk q).
    { unfold emit_wait, q2, add_elapsed. destruct count; cbn; eauto. }
    destruct Hstk as [y Hy]. rewrite Hy. destruct (stk q) as [|x rs]; [congruence|]. cbn [bind]. eauto. }
  destruct Hmid as [q1 Hq1]. rewrite Hq1. cbn [bind]. cbv zeta. destruct ((if w >? MAXW then w mod MAXW else w) >? 0); eauto.
Qed.

(** immediates of the emitted waits *)
Definition wait_imm (lo : Z) (i : instr) : Prop := match i with IRT RWait d => lo <= d <= 65532 | _ => True end.

Lemma repeat_wait_imm lo n d count : lo <= d <= 65532 -> forall q, Forall (wait_imm lo) (ins q) -> Forall (wait_imm lo) (ins (repeat_wait n d count q)).
Proof.
  intros Hd. induction n as [|n IH]; intros q Hq; [exact Hq|]. cbn [repeat_wait]. apply IH.
  unfold emit_wait. destruct count; [unfold add_elapsed; cbn [emit stk]; destruct (stk q)|]; cbn; apply Forall_app; (split; [exact Hq|repeat constructor; lia]).
Qed.

Lemma emit_wait_imm lo d count q : lo <= d <= 65532 -> Forall (wait_imm lo) (ins q) -> Forall (wait_imm lo) (ins (emit_wait d count q)).
Proof. intros Hd Hq. exact (repeat_wait_imm lo 1 d count Hd q Hq). Qed.

Theorem C14_immediates_partial : forall w count q q' lo,
  1 <= lo <= 65532 -> (w mod 65532 = 0 \/ lo <= w mod 65532) ->
  auto_wait w count q = Ok q' -> Forall (wait_imm lo) (ins q) -> Forall (wait_imm lo) (ins q').
Proof.
  intros w count q q' lo Hlo Hm H Hq. unfold auto_wait in H.
  destruct (w =? 0) eqn:E0; [injection H as <-; exact Hq|]. apply Z.eqb_neq in E0.
  destruct (w <? 0) eqn:E1; [discriminate|]. apply Z.ltb_ge in E1.
  change 65532 with MAXW in Hm.
  match type of H with (do q1 <- ?a; _) = _ => destruct a as [q1|] eqn:Ea; [|discriminate] end. cbn [bind] in H.
  assert (H1 : Forall (wait_imm lo) (ins q1)).
  { destruct (w >? MAXW); [|injection Ea as <-; exact Hq]. cbv zeta in Ea. destruct (w / MAXW >? 4).
    - unfold with_loop in Ea. destruct (alloc q) as [[r qa]|] eqn:Eal; [|discriminate]. cbn [bind] in Ea.
      destruct (alloc_inv _ _ _ Eal) as [_ Hqa].
      match type of Ea with (do _ <- (do _ <- ?f; _); _) = _ => destruct f as [q4|] eqn:Ef; [|discriminate] end. cbn [bind] in Ea.
      destruct (free_inv _ _ _ Ef) as [_ ->]. cbn [stk set_av] in Ea.
      destruct (stk _) as [|a [|b c]] in Ea; try discriminate. cbn [bind] in Ea. injection Ea as <-.
      cbn [set_stk ins set_av emit]. apply Forall_app. split; [|repeat constructor].
      apply emit_wait_imm; [unfold MAXW; lia|]. cbn. rewrite Hqa. cbn. rewrite <- app_assoc. apply Forall_app. split; [exact Hq|repeat constructor].
    - injection Ea as <-. apply repeat_wait_imm; [unfold MAXW; lia|exact Hq]. }
  pose proof (Z.mod_pos_bound w MAXW ltac:(unfold MAXW; lia)) as Hb.
  destruct (w >? MAXW) eqn:E2.
  - destruct (w mod MAXW >? 0) eqn:E3; injection H as <-; [|exact H1]. apply emit_wait_imm; [|exact H1].
    rewrite Z.gtb_ltb in E3. apply Z.ltb_lt in E3. unfold MAXW in *. lia.
  - rewrite Z.gtb_ltb in E2. apply Z.ltb_ge in E2. destruct (w >? 0) eqn:E3; injection H as <-; [|exact H1]. apply emit_wait_imm; [|exact H1].
    rewrite Z.gtb_ltb in E3. apply Z.ltb_lt in E3. destruct (Z.eq_dec w MAXW) as [->|Hne]; [unfold MAXW; lia|].
    rewrite (Z.mod_small w MAXW) in Hm by lia. unfold MAXW in *. lia.
Qed.

(** The hardware needs at least 4 ns per real-time instruction.  The generator does not see to that: a wait of 65533 ns
    is split into 65532 ns and an immediate of 1 ns. *)
Theorem C14_minimum_immediate_refuted : exists q', auto_wait 65533 true q0 = Ok q' /\ In (IRT RWait 1) (ins q').
Proof. eexists. split; [vm_compute; reflexivity|]. right. left. reflexivity. Qed.

Example C14_example : exists q' st', auto_wait 1000003 true q0 = Ok q' /\ List.length (ins q') = 5%nat /\
  exec (fun _ _ => false) (ins q' ++ [IStop]) 200 (m0 7) [] = Some ([], st') /\ tm st' = 1000010.
Proof. eexists. eexists. split; [vm_compute; reflexivity|]. split; [reflexivity|]. split; vm_compute; reflexivity. Qed.

(** ** C15: the compiled program does exactly what the schedule says, when it says *)
Theorem C15_program_plays_schedule : forall env mrk offs lat reps total forest p t0,
  Forall (fun o => 0 <= o < M32) offs -> 1 <= reps < M32 -> 4 + lat <= TMAX -> total <= TMAX ->
  forallb (node_ok (List.length offs)) forest = true ->
  generate mrk offs lat reps total (flat_map flat forest) = Ok p ->
  Runs env p t0 (full_trace env mrk offs lat reps total forest t0) (first_rep t0 lat + reps * (total + 4)).
Proof. intros. eapply whole_ok; eauto. Qed.

(** The machine is deterministic: this is the only thing the program can do. *)
Lemma steps_stop env p s e s' : steps env p s e s' -> nth_error p (pc s) = Some IStop -> e = [] /\ s' = s.
Proof.
  intros H Hn. inversion H as [|? ? ? ? ? Hst]; subst; [auto|]. unfold step in Hst. rewrite Hn in Hst. discriminate.
Qed.

Theorem C15_runs_deterministic : forall env p t0 tr1 t1 tr2 t2, Runs env p t0 tr1 t1 -> Runs env p t0 tr2 t2 -> tr1 = tr2 /\ t1 = t2.
Proof.
  intros env p t0 tr1 t1 tr2 t2 [s1 [H1 [N1 T1]]] [s2 [H2 [N2 T2]]].
  assert (HD : forall s e1 s1, steps env p s e1 s1 -> nth_error p (pc s1) = Some IStop ->
     forall e2 s2, steps env p s e2 s2 -> nth_error p (pc s2) = Some IStop -> e1 = e2 /\ s1 = s2).
  { clear. intros s e1 s1 H1. induction H1 as [s|s sa s1 ea e1 Hs H1 IH]; intros N1 e2 s2 H2 N2.
    - destruct (steps_stop _ _ _ _ _ H2 N1) as [-> ->]. auto.
    - inversion H2 as [|? sb ? eb e2' Hs2 H2']; subst.
      + unfold step in Hs. rewrite N2 in Hs. discriminate.
      + rewrite Hs in Hs2. injection Hs2 as <- <-. destruct (IH N1 _ _ H2' N2) as [-> ->]. auto. }
  destruct (HD _ _ _ H1 N1 _ _ H2 N2) as [-> ->]. split; [reflexivity|congruence].
Qed.

(** reading the trace: every event of repetition [i] *)
Lemma iterate_in f n : forall off len s i, (i < n)%nat ->
  exists si, forall ev, In ev (fst (f (off + Z.of_nat i * len) si)) -> In ev (fst (iterate f n off len s)).
Proof.
  induction n as [|n IH]; intros off len s i Hi; [lia|]. cbn [iterate]. destruct (f off s) as [e1 s1] eqn:E.
  destruct i as [|i].
  - exists s. intros ev Hev. rewrite Z.mul_0_l, Z.add_0_r, E in Hev. destruct (iterate f n _ _ _). cbn in *. apply in_or_app. left. exact Hev.
  - destruct (IH (off + len) len s1 i ltac:(lia)) as [si Hsi]. exists si. intros ev Hev.
    destruct (iterate f n (off + len) len s1) as [e2 s2]. cbn [fst] in *. apply in_or_app. right. apply Hsi.
    replace (off + len + Z.of_nat i * len) with (off + Z.of_nat (S i) * len) by lia. exact Hev.
Qed.

Lemma seq_play_in {A} (g : A -> sst -> list (Z * event) * sst) l : forall s x, In x l ->
  exists sx, forall ev, In ev (fst (g x sx)) -> In ev (fst (seq_play g l s)).
Proof.
  induction l as [|y l IH]; intros s x Hx; [destruct Hx|]. cbn [seq_play]. destruct (g y s) as [e1 s1] eqn:E.
  destruct Hx as [->|Hx].
  - exists s. intros ev Hev. rewrite E in Hev. destruct (seq_play g l s1). cbn in *. apply in_or_app. left. exact Hev.
  - destruct (IH s1 x Hx) as [sx Hsx]. exists sx. intros ev Hev. destruct (seq_play g l s1). cbn in *. apply in_or_app. right. auto.
Qed.

(** Every pulse of the schedule is played in every repetition [i] at exactly
    start of repetition [i] + 4 ns + its scheduled time. *)
Corollary C15_every_pulse_every_repetition : forall env mrk offs lat reps total forest p t0 t a b g0 g1 i,
  Forall (fun o => 0 <= o < M32) offs -> 1 <= reps < M32 -> 4 + lat <= TMAX -> total <= TMAX ->
  forallb (node_ok (List.length offs)) forest = true ->
  generate mrk offs lat reps total (flat_map flat forest) = Ok p ->
  In (POp t (KPulse (Some a) (Some b) g0 g1)) forest -> 0 <= i < reps ->
  exists tr tend, Runs env p t0 tr tend /\
    In (first_rep t0 lat + i * (total + 4) + 4 + t, EParam (PGain g0 g1)) tr /\
    In (first_rep t0 lat + i * (total + 4) + 4 + t, EPlay a b) tr.
Proof.
  intros env mrk offs lat reps total forest p t0 t a b g0 g1 i H1 H2 H3 H4 H5 H6 Hin Hi.
  eexists. eexists. split; [eapply C15_program_plays_schedule; eauto|]. unfold full_trace.
  set (T := first_rep t0 lat). set (ss := start_state offs).
  destruct (iterate_in (one_run env forest) (Z.to_nat reps) T (total + 4) ss (Z.to_nat i) ltac:(lia)) as [si Hsi].
  rewrite Z2Nat.id in Hsi by lia.
  destruct (seq_play_in (fun x s => play env x (T + i * (total + 4) + 4) s) forest si _ Hin) as [sx Hsx].
  assert (HH : forall ev, In ev (fst (play env (POp t (KPulse (Some a) (Some b) g0 g1)) (T + i * (total + 4) + 4) sx)) ->
     In ev (fst (iterate (one_run env forest) (Z.to_nat reps) T (total + 4) ss))).
  { intros ev Hev. apply Hsi. unfold one_run, play_all. specialize (Hsx ev Hev).
    destruct (seq_play _ forest si) as [e s']. cbn [fst] in *. right. right. exact Hsx. }
  cbn [play op_events shift map fst snd] in HH. rewrite !Z.add_0_r in HH.
  split; apply in_or_app; right; apply HH; [left; reflexivity|right; left; reflexivity].
Qed.

(** Two sequencers started together and compiled with the same number of repetitions and the same total time stay
    synchronised for ever: operations at the same schedule time are executed exactly [lat1 - lat2] apart in every
    repetition. *)
Corollary C15_sequencers_stay_synchronised : forall t0 lat1 lat2 total i t,
  (first_rep t0 lat1 + i * (total + 4) + 4 + t) - (first_rep t0 lat2 + i * (total + 4) + 4 + t) = lat1 - lat2.
Proof. intros. unfold first_rep. lia. Qed.

(** a non-trivial case: two nested loops, an append-mode acquisition and a conditional, run and compared *)
Definition ex_forest : list pnode :=
  [ POp 0 (KParam (Some (PFreq 5))); POp 0 (KPulse (Some 0) (Some 1) 100 100);
    PLoop 100 3 [POp 100 (KPulse (Some 2) None 7 7);
                 PLoop 200 2 [POp 200 (KAcq 0 (BReg 0) ASquare)] 600] 1100;
    PCond 3100 3 [POp 3100 (KPulse (Some 3) None 9 9); POp 3120 KUpd] 3200;
    POp 400000 (KAcq 1 (BImm 4) (AWeighted 0 1)) ].

Example C15_example : exists p, generate 3 [10] 5 2 500000 (flat_map flat ex_forest) = Ok p /\
  forallb (node_ok 1) ex_forest = true /\
  exists s, exec (fun k a => Nat.even k && Nat.eqb a 3) p 400 (m0 0) [] =
    Some (full_trace (fun k a => Nat.even k && Nat.eqb a 3) 3 [10] 5 2 500000 ex_forest 0, s).
Proof.
  eexists. split; [vm_compute; reflexivity|]. split; [vm_compute; reflexivity|]. eexists. vm_compute. reflexivity.
Qed.

(** ** C16: late operations are rejected *)
Lemma parse_Ok_prefix nb forest fuel r q res : 
  forallb (node_ok nb) forest = true -> WF (fun x => (x < nb)%nat) q -> 0 <= elapsed q ->
  parse fuel (flat_map flat forest ++ r) q = Ok res ->
  exists fuel' q', WF (fun x => (x < nb)%nat) q' /\ elapsed q <= elapsed q' /\ parse fuel' r q' = Ok res.
Proof.
  intros H1 H2 H3 H4. destruct (forest_ok 0 (fun _ _ => false) nb forest fuel r q res H1 H2 H3 H4) as [f' [q' [code [G [M [_ H]]]]]].
  exists f', q'. split; [eapply Gen_WF; eauto|]. auto.
Qed.

Theorem C16_late_operation_rejected : forall mrk offs lat reps total A t1 k1 M t2 k2 C,
  Forall (fun o => 0 <= o < M32) offs -> 1 <= reps < M32 -> 4 + lat <= TMAX ->
  forallb (node_ok (List.length offs)) (A ++ POp t1 k1 :: M ++ POp t2 k2 :: C) = true ->
  is_idle k2 = false ->
  t2 < t1 + op_len k1 ->
  forall p, generate mrk offs lat reps total (flat_map flat (A ++ POp t1 k1 :: M ++ POp t2 k2 :: C)) <> Ok p.
Proof.
  intros mrk offs lat reps total A t1 k1 M t2 k2 C Hoffs Hreps Hlat Hok Hid Hlate p H.
  unfold generate in H. set (nb := List.length offs) in *. set (B := fun x : nat => (x < nb)%nat).
  set (ops := flat_map flat _) in *.
  set (q3 := emit (IRT RUpd MINOP) _) in H. cbv zeta in H.
  destruct (init_bins offs q3) as [q4|] eqn:Hib; [|discriminate]. cbn [bind] in H.
  destruct (auto_wait (MINOP + lat) false q4) as [q5|] eqn:Haw; [|discriminate]. cbn [bind] in H.
  match type of H with (do _ <- ?a; _) = _ => destruct a as [[u q6]|] eqn:HL; [|discriminate] end. clear H.
  assert (V3 : av q3 = seq 0 64) by (unfold q3; destruct (uses_cond ops); reflexivity).
  assert (T3 : stk q3 = [0]) by (unfold q3; destruct (uses_cond ops); reflexivity).
  destruct (init_bins_ok 0 (fun _ _ => false) nb offs q3 q4 0 64 Hoffs V3 ltac:(unfold nb; lia) Hib) as [ci [I4 [N4 [T4 [V4 [_ R4]]]]]].
  assert (W4 : WF B q4).
  { split; [rewrite V4; apply seq_NoDup|]. split; [|rewrite T4, T3; discriminate].
    intros r Hr. rewrite V4 in Hr. apply in_seq in Hr. unfold B, nb. lia. }
  destruct (auto_wait_ok 0 (fun _ _ => false) B _ false q4 q5 W4 Hlat Haw) as [Hlpos [cw [G5 _]]]. cbv iota in G5.
  pose proof (Gen_WF _ _ _ _ _ G5 W4) as W5. pose proof (Gen_elapsed _ _ _ _ G5) as E5.
  assert (E4 : elapsed q4 = 0) by (unfold elapsed; rewrite T4, T3; reflexivity).
  destruct (with_loop_ok 0 (fun _ _ => false) B _ _ _ _ _ _ W5 Hreps HL) as [rr [rest [qb [qe [Hav [Hi [Hs [Hav2 [_ [HWb [Hpb _]]]]]]]]]]].
  cbv beta in Hpb. set (qa := emit (IRT RUpd MINOP) (emit (IParam PResetPh) qb)) in *.
  assert (Wa : WF B qa) by exact HWb.
  assert (Ea : elapsed qa = 0) by (unfold elapsed in *; cbn [qa emit stk]; rewrite Hs; cbn [fold_right]; lia).
  match type of Hpb with (do _ <- ?a; _) = _ => destruct a as [[u' qp]|e] eqn:HP; [|discriminate] end. clear Hpb.
  unfold ops in HP. rewrite flat_map_app in HP. cbn [flat_map] in HP. rewrite flat_map_app in HP. cbn [flat_map] in HP.
  rewrite forallb_app in Hok. cbn [forallb] in Hok. rewrite forallb_app in Hok. cbn [forallb] in Hok.
  rewrite !andb_true_iff in Hok. destruct Hok as [HokA [Hok1 [HokM [Hok2 HokC]]]].
  destruct (parse_Ok_prefix nb A _ _ qa _ HokA Wa ltac:(lia) HP) as [f1 [qA [WA [EA HA]]]].
  destruct f1 as [|f1]; [discriminate|]. cbn [flat app parse] in HA.
  destruct (wait_till t1 (is_idle k1) qA) as [q1|] eqn:Hw1; [|discriminate]. cbn [bind] in HA.
  destruct (do_op k1 q1) as [q2|] eqn:Ho1; [|discriminate]. cbn [bind] in HA.
  destruct (op_node_ok 0 (fun _ _ => false) nb t1 k1 qA q1 q2 Hok1 WA ltac:(lia) Hw1 Ho1) as [c1 [G1 [M1 [E1 _]]]].
  pose proof (Gen_WF _ _ _ _ _ G1 WA) as W2.
  destruct (parse_Ok_prefix nb M _ _ q2 _ HokM W2 ltac:(lia) HA) as [f2 [qM [WM [EM HM]]]].
  destruct f2 as [|f2]; [discriminate|]. cbn [flat app parse] in HM. rewrite Hid in HM.
  destruct (wait_till t2 false qM) as [q2'|] eqn:Hw2; [|discriminate].
  cbn [node_ok] in Hok2. apply andb_true_iff in Hok2. destruct Hok2 as [HT2 _]. apply Z.leb_le in HT2.
  destruct (wait_till_ok 0 (fun _ _ => false) nb t2 false qM q2' WM HT2 ltac:(lia) Hw2) as [Hd _]. specialize (Hd eq_refl). lia.
Qed.

(** the error raised for a late operation *)
Theorem C16_late_error : forall t idle q, t < elapsed q -> wait_till t idle q = if idle then Ok q else Err ValueError.
Proof.
  intros t idle q H. unfold wait_till. destruct (t - elapsed q >? 0) eqn:E; [rewrite Z.gtb_ltb in E; apply Z.ltb_lt in E; lia|].
  destruct (t - elapsed q <? 0) eqn:E1; [|apply Z.ltb_ge in E1; lia]. destruct idle; reflexivity.
Qed.

Example C16_example : generate 0 [] 0 1 100 [SOp 0 (KPulse (Some 0) (Some 1) 1 1); SOp 3 (KPulse (Some 0) (Some 1) 1 1)] = Err ValueError /\
  exists p, generate 0 [] 0 1 100 [SOp 0 (KPulse (Some 0) (Some 1) 1 1); SOp 4 (KPulse (Some 0) (Some 1) 1 1)] = Ok p.
Proof. split; [vm_compute; reflexivity|eexists; vm_compute; reflexivity]. Qed.
