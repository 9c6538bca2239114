(** Single operations: [do_op] emits code that produces exactly the events of the operation. *)
From Coq Require Import Permutation Arith.
From Verif Require Import Base Q1Model Q1Machine Q1Spec Q1Blk Q1Gen.
Open Scope Z_scope.

Definition eqon (B : nat -> Prop) (f g : Z -> sst -> list (Z * event) * sst) : Prop :=
  forall t s, fst (f t s) = fst (g t s) /\ kcond (snd (f t s)) = kcond (snd (g t s)) /\
              forall r, B r -> bins (snd (f t s)) r = bins (snd (g t s)) r.

Lemma Gen_conv q q' p p' code E :
  ins q = ins p -> av q = av p -> stk q = stk p -> ins q' = ins p' -> av q' = av p' -> stk q' = stk p' ->
  Gen q q' code E -> Gen p p' code E.
Proof. unfold Gen. intros -> -> -> -> -> ->. auto. Qed.

Lemma Gen_emit q i : stk q <> [] -> nolab i -> Gen q (emit i q) [i] 0.
Proof.
  intros Hs Hi. split; [reflexivity|]. split; [apply labs_nolab; repeat constructor; exact Hi|].
  split; [apply Permutation_refl|]. destruct (stk q) as [|x r] eqn:E; [contradiction|].
  exists x, r. simpl. rewrite E. split; [reflexivity|]. f_equal. lia.
Qed.

Lemma Gen_emit_d q i d : stk q <> [] -> nolab i -> Gen q (add_elapsed d (emit i q)) [i] d.
Proof.
  intros Hs Hi. destruct (stk q) as [|x r] eqn:E; [contradiction|]. unfold add_elapsed. simpl. rewrite E.
  split; [reflexivity|]. split; [apply labs_nolab; repeat constructor; exact Hi|].
  split; [apply Permutation_refl|]. exists x, r. simpl. rewrite E. auto.
Qed.

Lemma emit_nrt i q : nrt (emit i q) = nrt q. Proof. reflexivity. Qed.
Lemma add_elapsed_nrt d q : nrt (add_elapsed d q) = nrt q.
Proof. unfold add_elapsed. destruct (stk q); reflexivity. Qed.

Section Ops.
Variable S0 : nat.
Variable env : nat -> nat -> bool.

Definition BC (c : option (bool * Z)) (B : nat -> Prop) (q : qst) code D f : Prop :=
  Blk S0 c c (av q) B (List.length (ins q)) code env D f any.

Lemma BC_app c B q q1 c1 c2 E1 D1 D2 f g :
  Gen q q1 c1 E1 -> BC c B q c1 D1 f -> BC c B q1 c2 D2 g -> BC c B q (c1 ++ c2) (D1 + D2) (then_ D1 f g).
Proof.
  intros [A1 [_ [P1 _]]] H1 H2. unfold BC in *. apply blk_app with (c1 := c) (Q := any); [| exact H1 |].
  - intros; exact I.
  - rewrite A1, app_length in H2. eapply blk_weaken; [|exact H2]. intros x Hx. eapply Permutation_in; eauto.
Qed.

Lemma BC_ext c (B : nat -> Prop) q code D D' f g : D = D' -> eqon B f g -> BC c B q code D f -> BC c B q code D' g.
Proof. intros <- He H. eapply blk_ext; [intros s Hs; exact Hs | intros; apply He | exact H]. Qed.

(** go back to the state before a temporary register was taken *)
Lemma BC_temp c (B : nat -> Prop) q q1 r code D f :
  ins q1 = ins q -> av q = r :: av q1 -> ~ B r ->
  (forall (t : Z) (s : sst) z, eqon B (fun t s => f t (set_bin r z s)) f) ->
  BC c (fun x => B x \/ x = r) q1 code D f -> BC c B q code D f.
Proof.
  intros Hi Ha HB Hf H. unfold BC in *. rewrite Hi in H. apply (blk_scratch S0 c c (av q) B _ r).
  - exact HB.
  - rewrite Ha. left. reflexivity.
  - eapply blk_weaken; [|exact H]. intros x Hx. rewrite Ha. right. exact Hx.
  - intros; exact I.
  - intros t s z _. destruct (Hf t s z t s) as [H1 [H2 H3]]. auto.
Qed.

Lemma WF_temp B q q1 r : WF B q -> av q = r :: av q1 -> stk q1 = stk q -> WF (fun x => B x \/ x = r) q1 /\ ~ B r.
Proof.
  intros [Hn [HB Hs]] Ha Hst. rewrite Ha in Hn. inversion Hn; subst. split; [|apply HB; rewrite Ha; left; reflexivity].
  split; [assumption|]. split; [|rewrite Hst; exact Hs].
  intros x Hx [HBx| ->]; [|contradiction]. apply (HB x); [rewrite Ha; right; exact Hx | exact HBx].
Qed.

Lemma BC_wait c B q w code (count : bool) q' :
  active c -> WF B q -> True -> auto_wait w count q = Ok q' -> Run S0 env B q code w keep -> BC c B q code w keep.
Proof. intros Hc _ _ _ H. apply H; exact Hc. Qed.

Lemma BC_rt c B q o d : active c -> rt_regs B o -> BC c B q [IRT o d] d (rt_fun o).
Proof. intros; apply blk_rt; assumption. Qed.
Lemma BC_rt_skip B q o d : BC (Some (false, 4)) B q [IRT o d] 4 keep.
Proof. apply blk_rt_skip. Qed.
Lemma BC_param c B q p : active c -> BC c B q [IParam p] 0 (param_fun p).
Proof. intros; apply blk_param; assumption. Qed.
Lemma BC_param_skip B q p : BC (Some (false, 4)) B q [IParam p] 0 keep.
Proof. apply blk_param_skip. Qed.
Lemma BC_newline c B q : BC c B q [INewline] 0 keep.
Proof. apply blk_newline. Qed.
Lemma BC_nil c B q : BC c B q [] 0 keep.
Proof. apply blk_nil. Qed.
Lemma BC_move c (B : nat -> Prop) q z r : B r -> 0 <= z < M32 -> BC c B q [IMove z r] 0 (fun _ s => ([], set_bin r z s)).
Proof. intros; apply blk_move; assumption. Qed.
Lemma BC_add c (B : nat -> Prop) q r : B r -> BC c B q [IAdd r 1 r] 0 (bump_fun r).
Proof. intros; apply blk_add; assumption. Qed.

(** the two modes needed: executed, and skipped by a condition that is not met (with else duration 4) *)
Definition both (B : nat -> Prop) (q q' : qst) code E (f g : Z -> sst -> list (Z * event) * sst) : Prop :=
  Gen q q' code E /\ (forall c, active c -> BC c B q code E f) /\
  (BC (Some (false, 4)) B q code (4 * (nrt q' - nrt q)) g).

Lemma both_app B q q1 q2 c1 c2 E1 E2 f1 f2 g1 g2 :
  both B q q1 c1 E1 f1 g1 -> both B q1 q2 c2 E2 f2 g2 ->
  both B q q2 (c1 ++ c2) (E1 + E2) (then_ E1 f1 f2) (then_ (4 * (nrt q1 - nrt q)) g1 g2).
Proof.
  intros [G1 [R1 K1]] [G2 [R2 K2]]. split; [eapply Gen_trans; eauto|]. split.
  - intros c Hc. eapply BC_app; eauto.
  - replace (4 * (nrt q2 - nrt q)) with (4 * (nrt q1 - nrt q) + 4 * (nrt q2 - nrt q1)) by lia. eapply BC_app; eauto.
Qed.

Lemma both_ext (B : nat -> Prop) q q' code E E' f f' g g' :
  E = E' -> eqon B f f' -> eqon B g g' -> both B q q' code E f g -> both B q q' code E' f' g'.
Proof.
  intros <- Hf Hg [G [R K]]. split; [exact G|]. split.
  - intros c Hc. eapply BC_ext; eauto.
  - eapply BC_ext; eauto.
Qed.

Definition bin_ok (B : nat -> Prop) (b : binarg) : Prop := match b with BReg r => B r | BImm _ => True end.
Definition knd_ok (B : nat -> Prop) (k : kind) : Prop :=
  match k with
  | KAcq _ b p =>
      bin_ok B b /\
      match p with
      | ATTL d => d <= TMAX
      | ATags d f0 f1 _ => d <= TMAX /\ 0 <= f0 < M32 /\ 0 <= f1 < M32
      | AWeighted x y => 0 <= x < M32 /\ 0 <= y < M32
      | ASquare => True
      end
  | _ => True
  end.

Definition op_fun (k : kind) : Z -> sst -> list (Z * event) * sst := fun t s => (shift t (op_events k s), op_next k s).
Definition skip_fun (k : kind) : Z -> sst -> list (Z * event) * sst := fun t s => ([], op_next k s).

Definition OpOK (B : nat -> Prop) (k : kind) (q q' : qst) : Prop :=
  exists code, Gen q q' code (op_len k) /\ (forall c, active c -> BC c B q code (op_len k) (op_fun k)) /\
    (simple_kind k = true -> BC (Some (false, 4)) B q code (op_len k) (skip_fun k)).

Lemma WF_ne B q : WF B q -> stk q <> []. Proof. intros [_ [_ H]]; exact H. Qed.

Ltac ne := match goal with
  | H : WF _ ?q |- stk ?q <> [] => exact (WF_ne _ _ H)
  | H : WF _ ?q |- stk _ <> [] => exact (WF_ne _ _ H)
  end.

Lemma shift_0 t l : shift t ((0, l) :: []) = [(t, l)].
Proof. unfold shift. simpl. rewrite Z.add_0_r. reflexivity. Qed.

Ltac evs := unfold shift; cbn [map fst snd]; rewrite ?Z.add_0_r.

Lemma op_rt1 B k q o :
  WF B q -> rt_regs B o -> op_len k = 4 -> eqon B (rt_fun o) (op_fun k) -> eqon B keep (skip_fun k) ->
  OpOK B k q (emit_rt o q).
Proof.
  intros HW HR HL Hf Hg. exists [IRT o 4]. rewrite HL. split; [|split].
  - apply (Gen_emit_d q (IRT o MINOP) 4); [ne | exact I].
  - intros c Hc. eapply BC_ext; [reflexivity | exact Hf | apply BC_rt; assumption].
  - intros _. eapply BC_ext; [reflexivity | exact Hg | apply BC_rt_skip].
Qed.

Lemma WF_conv B q q' : av q' = av q -> stk q' = stk q -> WF B q -> WF B q'.
Proof. unfold WF. intros -> ->. auto. Qed.

Lemma OpOK_conv B k q q' p p' :
  ins q = ins p -> av q = av p -> stk q = stk p -> ins q' = ins p' -> av q' = av p' -> stk q' = stk p' ->
  OpOK B k q q' -> OpOK B k p p'.
Proof.
  intros H1 H2 H3 H4 H5 H6 [code [G [R K]]]. exists code. split; [eapply Gen_conv; eauto|].
  unfold BC in *. rewrite <- H1, <- H2. auto.
Qed.

Lemma play_gain_ok B k q g0 g1 a b :
  WF B q -> op_len k = 4 -> (forall s, op_events k s = [(0, EParam (PGain g0 g1)); (0, EPlay a b)]) -> (forall s, op_next k s = s) ->
  OpOK B k q (emit_rt (RPlay a b) (emit (IParam (PGain g0 g1)) q)).
Proof.
  intros HW HL He Hn. exists ([IParam (PGain g0 g1)] ++ [IRT (RPlay a b) 4]). rewrite HL.
  assert (G1 : Gen q (emit (IParam (PGain g0 g1)) q) [IParam (PGain g0 g1)] 0) by (apply Gen_emit; [ne|exact I]).
  split; [|split].
  - change 4 with (0 + 4). eapply Gen_trans; [exact G1|]. apply (Gen_emit_d _ (IRT (RPlay a b) MINOP) 4); [|exact I].
    exact (WF_ne _ _ HW).
  - intros c Hc. eapply BC_ext; [| | eapply BC_app; [exact G1 | apply BC_param; exact Hc | apply (BC_rt c B _ (RPlay a b) 4 Hc I)]]; [lia|].
    intros t s. unfold op_fun, then_, param_fun, rt_fun. rewrite He, Hn. cbn. rewrite !Z.add_0_r. auto.
  - intros _. eapply BC_ext; [| | eapply BC_app; [exact G1 | apply BC_param_skip | apply BC_rt_skip]]; [lia|].
    intros t s. unfold skip_fun, then_, keep. rewrite Hn. cbn. auto.
Qed.

Lemma insert_pulse_ok B w0 w1 g0 g1 q q' :
  WF B q -> insert_pulse w0 w1 g0 g1 q = Ok q' -> OpOK B (KPulse w0 w1 g0 g1) q q'.
Proof.
  intros HW H. unfold insert_pulse in H.
  destruct (negb _); [discriminate|].
  assert (HW1 : WF B (set_tpulse (Some (elapsed q)) q)) by (eapply WF_conv; [| |exact HW]; reflexivity).
  apply (OpOK_conv B _ (set_tpulse (Some (elapsed q)) q) q'); try reflexivity.
  destruct w0 as [a|], w1 as [b|]; injection H as <-.
  - apply play_gain_ok; try reflexivity; assumption.
  - apply play_gain_ok; try reflexivity; assumption.
  - apply play_gain_ok; try reflexivity; assumption.
  - apply op_rt1; [assumption | exact I | reflexivity | |].
    + intros t s. unfold op_fun, rt_fun. cbn. rewrite Z.add_0_r. auto.
    + intros t s. cbn. auto.
Qed.

Lemma val_opnd s b : val (bins s) (opnd_of b) = bin_of s b.
Proof. destruct b; reflexivity. Qed.

Lemma bump_ok B b q : WF B q -> bin_ok B b -> exists code, Gen q (bump b q) code 0 /\
  (forall c, BC c B q code 0 (fun t s => ([], bump_bin b s))).
Proof.
  intros HW Hb. destruct b as [z|r].
  - exists []. split; [apply Gen_refl; ne|]. intros c. eapply BC_ext; [reflexivity| |apply BC_nil]. intros t s. cbn. auto.
  - exists [IAdd r 1 r]. split; [apply Gen_emit; [ne|exact I]|]. intros c. eapply BC_ext; [reflexivity | |apply BC_add; exact Hb].
    intros t s. cbn. auto.
Qed.

Lemma bump_nrt b q : nrt (bump b q) = nrt q. Proof. destruct b; reflexivity. Qed.

Ltac evg := intros t s; unfold op_fun, skip_fun, then_, rt_fun, param_fun, bump_fun, keep; cbn; rewrite ?Z.add_0_r; auto.

Lemma acq_square_ok B i b q q' : WF B q -> bin_ok B b -> acq_square i b q = Ok q' -> OpOK B (KAcq i b ASquare) q q'.
Proof.
  intros HW Hb H. destruct b as [z|r]; simpl in H; injection H as <-.
  - apply op_rt1; [assumption|exact I|reflexivity|evg|evg].
  - exists ([INewline] ++ ([IRT (RAcquire i (Reg r)) 4] ++ ([IAdd r 1 r] ++ [INewline]))).
    pose proof (Gen_emit q INewline (WF_ne _ _ HW) I) as G1. pose proof (Gen_WF _ _ _ _ _ G1 HW) as W1.
    pose proof (Gen_emit_d _ (IRT (RAcquire i (Reg r)) 4) 4 (WF_ne _ _ W1) I) as G2. pose proof (Gen_WF _ _ _ _ _ G2 W1) as W2.
    pose proof (Gen_emit _ (IAdd r 1 r) (WF_ne _ _ W2) I) as G3. pose proof (Gen_WF _ _ _ _ _ G3 W2) as W3.
    pose proof (Gen_emit _ INewline (WF_ne _ _ W3) I) as G4.
    split; [|split].
    + change (op_len (KAcq i (BReg r) ASquare)) with (0 + (4 + (0 + 0))).
      eapply Gen_trans; [exact G1|]. eapply Gen_trans; [exact G2|]. eapply Gen_trans; [exact G3|]. exact G4.
    + intros c Hc. eapply BC_ext; [| | eapply BC_app; [exact G1 | apply BC_newline | eapply BC_app; [exact G2 | apply BC_rt; [exact Hc | exact Hb] | eapply BC_app; [exact G3 | apply BC_add; exact Hb | apply BC_newline]]]]; [reflexivity|]. evg.
    + intros _. eapply BC_ext; [| | eapply BC_app; [exact G1 | apply BC_newline | eapply BC_app; [exact G2 | apply BC_rt_skip | eapply BC_app; [exact G3 | apply BC_add; exact Hb | apply BC_newline]]]]; [reflexivity|]. evg.
Qed.

Lemma upd_same f r z : upd f r z r = z. Proof. unfold upd. rewrite Nat.eqb_refl. reflexivity. Qed.
Lemma upd_other f r z x : x <> r -> upd f r z x = f x.
Proof. intros H. unfold upd. destruct (Nat.eqb x r) eqn:E; [apply Nat.eqb_eq in E; contradiction|reflexivity]. Qed.

Lemma acq_weighted_ok B i b x y q q' :
  WF B q -> bin_ok B b -> 0 <= x < M32 -> 0 <= y < M32 -> acq_weighted i b x y q = Ok q' -> OpOK B (KAcq i b (AWeighted x y)) q q'.
Proof.
  intros HW Hb Hx Hy H. destruct b as [z|r]; simpl in H; [injection H as <-; apply op_rt1; [assumption|exact (conj I (conj I I))|reflexivity|evg|evg]|].
  destruct (alloc q) as [[r0 q1]|e] eqn:A0; [|discriminate]. cbn [bind] in H.
  destruct (alloc q1) as [[r1 q2]|e] eqn:A1; [|discriminate]. cbn [bind] in H.
  destruct (alloc_inv _ _ _ A0) as [Ha0 Hq1]. destruct (alloc_inv _ _ _ A1) as [Ha1 Hq2].
  assert (I1 : ins q1 = ins q) by (rewrite Hq1; reflexivity). assert (T1 : stk q1 = stk q) by (rewrite Hq1; reflexivity).
  assert (I2 : ins q2 = ins q1) by (rewrite Hq2; reflexivity). assert (T2 : stk q2 = stk q1) by (rewrite Hq2; reflexivity).
  destruct (WF_temp B q q1 r0 HW Ha0 T1) as [W1 Hr0].
  destruct (WF_temp _ q1 q2 r1 W1 Ha1 T2) as [W2 Hr1].
  set (B1 := fun x => B x \/ x = r0) in *. set (B2 := fun x => B1 x \/ x = r1) in *.
  assert (H01 : r0 <> r1) by (intros ->; apply Hr1; right; reflexivity).
  assert (Hbr0 : r <> r0) by (intros ->; apply Hr0; exact Hb).
  assert (Hbr1 : r <> r1) by (intros ->; apply Hr1; left; exact Hb).
  match type of H with (do q6 <- free r0 ?s; _) = _ => set (q5 := s) in *; destruct (free r0 q5) as [q6|e] eqn:F0; [|discriminate] end.
  cbn [bind] in H. destruct (free_inv _ _ _ F0) as [_ Hq6]. destruct (free_inv _ _ _ H) as [_ Hq'].
  pose proof (Gen_emit q2 INewline (WF_ne _ _ W2) I) as G1. pose proof (Gen_WF _ _ _ _ _ G1 W2) as V1.
  pose proof (Gen_emit _ (IMove x r0) (WF_ne _ _ V1) I) as G2. pose proof (Gen_WF _ _ _ _ _ G2 V1) as V2.
  pose proof (Gen_emit _ (IMove y r1) (WF_ne _ _ V2) I) as G3. pose proof (Gen_WF _ _ _ _ _ G3 V2) as V3.
  pose proof (Gen_emit _ (IRT (RAcqW i (Reg r) (Reg r0) (Reg r1)) MINOP) (WF_ne _ _ V3) I) as G4. pose proof (Gen_WF _ _ _ _ _ G4 V3) as V4.
  pose proof (Gen_emit _ (IAdd r 1 r) (WF_ne _ _ V4) I) as G5. pose proof (Gen_WF _ _ _ _ _ G5 V4) as V5.
  pose proof (Gen_emit_d _ INewline 4 (WF_ne _ _ V5) I) as G6.
  pose proof (Gen_trans _ _ _ _ _ _ _ G1 (Gen_trans _ _ _ _ _ _ _ G2 (Gen_trans _ _ _ _ _ _ _ G3 (Gen_trans _ _ _ _ _ _ _ G4 (Gen_trans _ _ _ _ _ _ _ G5 G6))))) as GG.
  match type of GG with Gen _ ?s ?code _ => change s with q5 in GG; exists code end.
  assert (HB2r : B2 r) by (left; left; exact Hb). assert (HB2r0 : B2 r0) by (left; right; reflexivity). assert (HB2r1 : B2 r1) by (right; reflexivity).
  split; [|split].
  - destruct GG as [g1 [g2 [g3 [v [rr [g4 g5]]]]]]. split; [rewrite Hq', Hq6; simpl; rewrite g1, I2, I1; reflexivity|].
    split; [rewrite I2, I1 in g2; exact g2|]. split.
    + rewrite Hq', Hq6. simpl. rewrite Ha0, Ha1. eapply Permutation_trans; [apply perm_swap|]. apply perm_skip, perm_skip. exact g3.
    + exists v, rr. rewrite <- T1, <- T2. split; [exact g4|]. rewrite Hq', Hq6. simpl. exact g5.
  - intros c Hc.
    assert (BB : BC c B2 q2 ([INewline] ++ [IMove x r0] ++ [IMove y r1] ++ [IRT (RAcqW i (Reg r) (Reg r0) (Reg r1)) MINOP] ++ [IAdd r 1 r] ++ [INewline]) 4
       (fun t s => ([(t, EAcqW i (bins s r) x y)], set_bin r1 y (set_bin r0 x (bump_bin (BReg r) s))))).
    { eapply BC_ext; [| | eapply BC_app; [exact G1 | apply BC_newline | eapply BC_app; [exact G2 | apply BC_move; [exact HB2r0|exact Hx] | eapply BC_app; [exact G3 | apply BC_move; [exact HB2r1|exact Hy] | eapply BC_app; [exact G4 | apply BC_rt; [exact Hc | exact (conj HB2r (conj HB2r0 HB2r1))] | eapply BC_app; [exact G5 | apply BC_add; exact HB2r | apply BC_newline]]]]]].
      - reflexivity.
      - intros t s. unfold then_, keep, rt_fun, bump_fun. cbn. rewrite !Z.add_0_r.
        rewrite !upd_same. rewrite !(upd_other _ r1 y r) by congruence. rewrite !(upd_other _ r0 x r) by congruence. rewrite (upd_other _ r1 y r0) by congruence. rewrite upd_same.
        split; [reflexivity|]. split; [reflexivity|].
        intros w Hw. unfold upd. destruct (Nat.eqb_spec w r); destruct (Nat.eqb_spec w r1); destruct (Nat.eqb_spec w r0); congruence. }
    assert (BB1 : BC c B q ([INewline] ++ [IMove x r0] ++ [IMove y r1] ++ [IRT (RAcqW i (Reg r) (Reg r0) (Reg r1)) MINOP] ++ [IAdd r 1 r] ++ [INewline]) 4
       (fun t s => ([(t, EAcqW i (bins s r) x y)], set_bin r1 y (set_bin r0 x (bump_bin (BReg r) s))))).
    { apply (BC_temp c B q q1 r0); [exact I1 | exact Ha0 | exact Hr0 | |apply (BC_temp c B1 q1 q2 r1); [exact I2 | exact Ha1 | exact Hr1 | |exact BB]].
      - intros _ _ z t s. cbn. rewrite !(upd_other _ r0 z r) by congruence. split; [reflexivity|]. split; [reflexivity|].
        intros w Hw. unfold upd. destruct (Nat.eqb_spec w r1); destruct (Nat.eqb_spec w r0); destruct (Nat.eqb_spec w r); congruence.
      - intros _ _ z t s. cbn. rewrite !(upd_other _ r1 z r) by congruence. split; [reflexivity|]. split; [reflexivity|].
        intros w Hw. unfold upd. destruct (Nat.eqb_spec w r1); destruct (Nat.eqb_spec w r0); destruct (Nat.eqb_spec w r); congruence. }
    eapply BC_ext; [reflexivity| |exact BB1]. intros t s. unfold op_fun. cbn. rewrite Z.add_0_r. split; [reflexivity|]. split; [reflexivity|].
    intros w Hw. assert (w <> r0) by (intros ->; contradiction). assert (w <> r1) by (intros ->; apply Hr1; left; exact Hw).
    rewrite (upd_other _ r1) by assumption. rewrite (upd_other _ r0) by assumption. reflexivity.
  - intros _.
    assert (BB : BC (Some (false,4)) B2 q2 ([INewline] ++ [IMove x r0] ++ [IMove y r1] ++ [IRT (RAcqW i (Reg r) (Reg r0) (Reg r1)) MINOP] ++ [IAdd r 1 r] ++ [INewline]) 4
       (fun t s => ([], set_bin r1 y (set_bin r0 x (bump_bin (BReg r) s))))).
    { eapply BC_ext; [| | eapply BC_app; [exact G1 | apply BC_newline | eapply BC_app; [exact G2 | apply BC_move; [exact HB2r0|exact Hx] | eapply BC_app; [exact G3 | apply BC_move; [exact HB2r1|exact Hy] | eapply BC_app; [exact G4 | apply BC_rt_skip | eapply BC_app; [exact G5 | apply BC_add; exact HB2r | apply BC_newline]]]]]].
      - reflexivity.
      - intros t s. unfold then_, keep, bump_fun. cbn.
        rewrite !(upd_other _ r1 y r) by congruence. rewrite !(upd_other _ r0 x r) by congruence.
        split; [reflexivity|]. split; [reflexivity|].
        intros w Hw. unfold upd. destruct (Nat.eqb_spec w r); destruct (Nat.eqb_spec w r1); destruct (Nat.eqb_spec w r0); congruence. }
    assert (BB1 : BC (Some (false,4)) B q ([INewline] ++ [IMove x r0] ++ [IMove y r1] ++ [IRT (RAcqW i (Reg r) (Reg r0) (Reg r1)) MINOP] ++ [IAdd r 1 r] ++ [INewline]) 4
       (fun t s => ([], set_bin r1 y (set_bin r0 x (bump_bin (BReg r) s))))).
    { apply (BC_temp (Some (false,4)) B q q1 r0); [exact I1 | exact Ha0 | exact Hr0 | |apply (BC_temp (Some (false,4)) B1 q1 q2 r1); [exact I2 | exact Ha1 | exact Hr1 | |exact BB]].
      - intros _ _ z t s. cbn. rewrite !(upd_other _ r0 z r) by congruence. split; [reflexivity|]. split; [reflexivity|].
        intros w Hw. unfold upd. destruct (Nat.eqb_spec w r1); destruct (Nat.eqb_spec w r0); destruct (Nat.eqb_spec w r); congruence.
      - intros _ _ z t s. cbn. rewrite !(upd_other _ r1 z r) by congruence. split; [reflexivity|]. split; [reflexivity|].
        intros w Hw. unfold upd. destruct (Nat.eqb_spec w r1); destruct (Nat.eqb_spec w r0); destruct (Nat.eqb_spec w r); congruence. }
    eapply BC_ext; [reflexivity| |exact BB1]. intros t s. unfold skip_fun. cbn. split; [reflexivity|]. split; [reflexivity|].
    intros w Hw. assert (w <> r0) by (intros ->; contradiction). assert (w <> r1) by (intros ->; apply Hr1; left; exact Hw).
    rewrite (upd_other _ r1) by assumption. rewrite (upd_other _ r0) by assumption. reflexivity.
Qed.

Lemma acq_ttl_ok B i b d q q' : WF B q -> bin_ok B b -> d <= TMAX -> acq_ttl i b d q = Ok q' -> OpOK B (KAcq i b (ATTL d)) q q'.
Proof.
  intros HW Hb Hd H. unfold acq_ttl in H.
  set (o1 := RAcqTTL i (opnd_of b) 1) in *. set (o0 := RAcqTTL i (opnd_of b) 0) in *.
  pose proof (Gen_emit_d q (IRT o1 MINOP) 4 (WF_ne _ _ HW) I) as G1. change (add_elapsed 4 (emit (IRT o1 MINOP) q)) with (emit_rt o1 q) in G1.
  pose proof (Gen_WF _ _ _ _ _ G1 HW) as W1. cbv zeta in H.
  destruct (auto_wait (d - 2 * MINOP) true (emit_rt o1 q)) as [q2|e] eqn:Aw; [|discriminate]. cbn [bind] in H. injection H as <-.
  assert (HT : d - 2 * MINOP <= TMAX) by (unfold MINOP; lia);
  destruct (auto_wait_ok S0 env B _ true _ _ W1 HT Aw) as [Hpos [cw [G2 [R2 _]]]]. cbv iota in G2.
  pose proof (Gen_WF _ _ _ _ _ G2 W1) as W2.
  pose proof (Gen_emit_d q2 (IRT o0 MINOP) 4 (WF_ne _ _ W2) I) as G3. change (add_elapsed 4 (emit (IRT o0 MINOP) q2)) with (emit_rt o0 q2) in G3.
  pose proof (Gen_WF _ _ _ _ _ G3 W2) as W3.
  destruct (bump_ok B b _ W3 Hb) as [cb [G4 R4]].
  exists ([IRT o1 MINOP] ++ cw ++ [IRT o0 MINOP] ++ cb). split; [|split; [|discriminate]].
  - replace (op_len (KAcq i b (ATTL d))) with (4 + (d - 2 * MINOP + (4 + 0))) by (unfold op_len, MINOP; lia).
    eapply Gen_trans; [exact G1|]. eapply Gen_trans; [exact G2|]. eapply Gen_trans; [exact G3|exact G4].
  - intros c Hc.
    assert (Hreg : forall e, rt_regs B (RAcqTTL i (opnd_of b) e)) by (intros e; destruct b; simpl; auto).
    eapply BC_ext; [| | eapply BC_app; [exact G1 | apply BC_rt; [exact Hc | apply Hreg] | eapply BC_app; [exact G2 | apply R2; exact Hc | eapply BC_app; [exact G3 | apply BC_rt; [exact Hc | apply Hreg] | apply R4]]]].
    + unfold op_len, MINOP. lia.
    + intros t s. unfold then_, rt_fun, keep, op_fun. cbn. rewrite !val_opnd. unfold MINOP, shift. cbn.
      rewrite Z.add_0_r. replace (t + 4 + (d - 8)) with (t + (d - 4)) by lia. auto.
Qed.

Lemma tags_core_ok B i b d o0 o1 q q' :
  WF B q -> bin_ok B b -> opnd_in B o0 -> opnd_in B o1 -> d <= TMAX -> acq_tags_core i b d o0 o1 q = Ok q' ->
  exists code, Gen q q' code d /\
    (forall c, active c -> BC c B q code d (fun t s =>
       ([(t, ETags i (bin_of s b) 1 (val (bins s) o0)); (t + (d - 4), ETags i (bin_of s b) 0 (val (bins s) o1))], s))).
Proof.
  intros HW Hb H0 H1 Hd H. unfold acq_tags_core in H.
  set (a1 := RAcqTags i (opnd_of b) 1 o0) in *. set (a0 := RAcqTags i (opnd_of b) 0 o1) in *.
  pose proof (Gen_emit_d q (IRT a1 MINOP) 4 (WF_ne _ _ HW) I) as G1. change (add_elapsed 4 (emit (IRT a1 MINOP) q)) with (emit_rt a1 q) in G1.
  pose proof (Gen_WF _ _ _ _ _ G1 HW) as W1. cbv zeta in H.
  destruct (auto_wait (d - 2 * MINOP) true (emit_rt a1 q)) as [q2|e] eqn:Aw; [|discriminate]. cbn [bind] in H. injection H as <-.
  assert (HT : d - 2 * MINOP <= TMAX) by (unfold MINOP; lia);
  destruct (auto_wait_ok S0 env B _ true _ _ W1 HT Aw) as [Hpos [cw [G2 [R2 _]]]]. cbv iota in G2.
  pose proof (Gen_WF _ _ _ _ _ G2 W1) as W2.
  pose proof (Gen_emit_d q2 (IRT a0 MINOP) 4 (WF_ne _ _ W2) I) as G3. change (add_elapsed 4 (emit (IRT a0 MINOP) q2)) with (emit_rt a0 q2) in G3.
  exists ([IRT a1 MINOP] ++ cw ++ [IRT a0 MINOP]). split.
  - replace d with (4 + (d - 2 * MINOP + 4)) by (unfold MINOP; lia).
    eapply Gen_trans; [exact G1|]. eapply Gen_trans; [exact G2|exact G3].
  - intros c Hc.
    assert (Hob : opnd_in B (opnd_of b)) by (destruct b; simpl; auto).
    eapply BC_ext; [| | eapply BC_app; [exact G1 | apply BC_rt; [exact Hc | split; assumption] | eapply BC_app; [exact G2 | apply R2; exact Hc | apply BC_rt; [exact Hc | split; assumption]]]].
    + unfold op_len, MINOP. lia.
    + intros t s. unfold then_, rt_fun, keep. cbn. rewrite !val_opnd. unfold MINOP. cbn.
      replace (t + 4 + (d - 8)) with (t + (d - 4)) by lia. auto.
Qed.

Lemma acq_tags_ok B i b d f0 f1 q q' :
  WF B q -> bin_ok B b -> d <= TMAX -> 0 <= f0 < M32 -> 0 <= f1 < M32 -> acq_tags i b d f0 f1 q = Ok q' ->
  exists code, Gen q q' code d /\ (forall c, active c -> BC c B q code d (op_fun (KAcq i b (ATags d f0 f1 false)))).
Proof.
  intros HW Hb Hd H0 H1 H. destruct b as [z|r]; cbn [acq_tags] in H.
  { destruct (tags_core_ok B i (BImm z) d (Imm f0) (Imm f1) q q' HW I I I Hd H) as [code [G R]].
    exists code. split; [exact G|]. intros c Hc. eapply BC_ext; [reflexivity| |apply R; exact Hc].
    intros t s. unfold op_fun. cbn. rewrite ?Z.add_0_r. auto. }
  destruct (f0 =? f1) eqn:E01.
  - apply Z.eqb_eq in E01. subst f1.
    destruct (alloc q) as [[r0 q1]|e] eqn:A0; [|discriminate]. cbn [bind] in H.
    destruct (alloc_inv _ _ _ A0) as [Ha0 Hq1].
    assert (I1 : ins q1 = ins q) by (rewrite Hq1; reflexivity). assert (T1 : stk q1 = stk q) by (rewrite Hq1; reflexivity).
    destruct (WF_temp B q q1 r0 HW Ha0 T1) as [W1 Hr0]. set (B1 := fun x => B x \/ x = r0) in *.
    assert (Hbr0 : r <> r0) by (intros ->; apply Hr0; exact Hb).
    pose proof (Gen_emit q1 (IMove f0 r0) (WF_ne _ _ W1) I) as G1. pose proof (Gen_WF _ _ _ _ _ G1 W1) as V1.
    destruct (acq_tags_core i (BReg r) d (Reg r0) (Reg r0) (emit (IMove f0 r0) q1)) as [q2|e] eqn:Hcore; [|discriminate]. cbn [bind] in H.
    destruct (tags_core_ok B1 i (BReg r) d (Reg r0) (Reg r0) _ q2 V1 (or_introl Hb) (or_intror eq_refl) (or_intror eq_refl) Hd Hcore) as [code [G2 R2]].
    destruct (free r0 q2) as [q3|e] eqn:F0; [|discriminate]. cbn [bind] in H. injection H as <-.
    destruct (free_inv _ _ _ F0) as [_ Hq3].
    pose proof (Gen_trans _ _ _ _ _ _ _ G1 G2) as G12.
    assert (G : Gen q q3 ([IMove f0 r0] ++ code) d).
    { destruct G12 as [g1 [g2 [g3 [v [rr [g4 g5]]]]]]. split; [rewrite Hq3; simpl; rewrite g1, I1; reflexivity|].
      split; [rewrite I1 in g2; exact g2|]. split; [rewrite Hq3; simpl; rewrite Ha0; apply perm_skip; exact g3|].
      exists v, rr. rewrite <- T1. split; [exact g4|]. rewrite Hq3. simpl. rewrite g5. f_equal; lia. }
    pose proof (Gen_WF _ _ _ _ _ G HW) as W3.
    destruct (bump_ok B (BReg r) q3 W3 Hb) as [cb [G4 R4]].
    exists (([IMove f0 r0] ++ code) ++ cb). split.
    { replace d with (d + 0) by lia. eapply Gen_trans; eauto. }
    intros c Hc.
    assert (BB : BC c B q ([IMove f0 r0] ++ code) d (fun t s =>
        ([(t, ETags i (bins s r) 1 f0); (t + (d - 4), ETags i (bins s r) 0 f0)], set_bin r0 f0 s))).
    { apply (BC_temp c B q q1 r0); [exact I1 | exact Ha0 | exact Hr0 | |].
      - intros _ _ z t s. cbn. rewrite !(upd_other _ r0 z r) by congruence. split; [reflexivity|]. split; [reflexivity|].
        intros w Hw. unfold upd. destruct (Nat.eqb_spec w r0); congruence.
      - eapply BC_ext; [| | eapply BC_app; [exact G1 | apply BC_move; [right; reflexivity | exact H0] | apply R2; exact Hc]]; [lia|].
        intros t s. unfold then_. cbn. rewrite upd_same, !(upd_other _ r0 f0 r) by congruence. rewrite Z.add_0_r. auto. }
    eapply BC_ext; [| | eapply BC_app; [exact G | exact BB | apply R4]]; [lia|].
    intros t s. unfold then_, op_fun. cbn. rewrite Z.add_0_r. split; [reflexivity|]. split; [reflexivity|].
    intros w Hw. unfold upd. destruct (Nat.eqb_spec w r0); destruct (Nat.eqb_spec w r); destruct (Nat.eqb_spec r r0); subst; try congruence.
  - destruct (alloc q) as [[r0 q1]|e] eqn:A0; [|discriminate]. cbn [bind] in H.
    destruct (alloc q1) as [[r1 q2]|e] eqn:A1; [|discriminate]. cbn [bind] in H.
    destruct (alloc_inv _ _ _ A0) as [Ha0 Hq1]. destruct (alloc_inv _ _ _ A1) as [Ha1 Hq2].
    assert (I1 : ins q1 = ins q) by (rewrite Hq1; reflexivity). assert (T1 : stk q1 = stk q) by (rewrite Hq1; reflexivity).
    assert (I2 : ins q2 = ins q1) by (rewrite Hq2; reflexivity). assert (T2 : stk q2 = stk q1) by (rewrite Hq2; reflexivity).
    destruct (WF_temp B q q1 r0 HW Ha0 T1) as [W1 Hr0].
    destruct (WF_temp _ q1 q2 r1 W1 Ha1 T2) as [W2 Hr1].
    set (B1 := fun x => B x \/ x = r0) in *. set (B2 := fun x => B1 x \/ x = r1) in *.
    assert (H01 : r0 <> r1) by (intros ->; apply Hr1; right; reflexivity).
    assert (Hbr0 : r <> r0) by (intros ->; apply Hr0; exact Hb).
    assert (Hbr1 : r <> r1) by (intros ->; apply Hr1; left; exact Hb).
    pose proof (Gen_emit q2 (IMove f0 r0) (WF_ne _ _ W2) I) as G1. pose proof (Gen_WF _ _ _ _ _ G1 W2) as V1.
    pose proof (Gen_emit _ (IMove f1 r1) (WF_ne _ _ V1) I) as G2. pose proof (Gen_WF _ _ _ _ _ G2 V1) as V2.
    destruct (acq_tags_core i (BReg r) d (Reg r0) (Reg r1) (emit (IMove f1 r1) (emit (IMove f0 r0) q2))) as [q3|e] eqn:Hcore; [|discriminate]. cbn [bind] in H.
    destruct (tags_core_ok B2 i (BReg r) d (Reg r0) (Reg r1) _ q3 V2 (or_introl (or_introl Hb)) (or_introl (or_intror eq_refl)) (or_intror eq_refl) Hd Hcore) as [code [G3 R3]].
    destruct (free r0 q3) as [q4|e] eqn:F0; [|discriminate]. cbn [bind] in H.
    destruct (free r1 q4) as [q5|e] eqn:F1; [|discriminate]. cbn [bind] in H. injection H as <-.
    destruct (free_inv _ _ _ F0) as [_ Hq4]. destruct (free_inv _ _ _ F1) as [_ Hq5].
    pose proof (Gen_trans _ _ _ _ _ _ _ G1 (Gen_trans _ _ _ _ _ _ _ G2 G3)) as G123.
    assert (G : Gen q q5 ([IMove f0 r0] ++ [IMove f1 r1] ++ code) d).
    { destruct G123 as [g1 [g2 [g3 [v [rr [g4 g5]]]]]]. split; [rewrite Hq5, Hq4; simpl; rewrite g1, I2, I1; reflexivity|].
      split; [rewrite I2, I1 in g2; exact g2|]. split.
      - rewrite Hq5, Hq4. simpl. rewrite Ha0, Ha1. eapply Permutation_trans; [apply perm_swap|]. apply perm_skip, perm_skip. exact g3.
      - exists v, rr. rewrite <- T1, <- T2. split; [exact g4|]. rewrite Hq5, Hq4. simpl. rewrite g5. f_equal; lia. }
    pose proof (Gen_WF _ _ _ _ _ G HW) as W5.
    destruct (bump_ok B (BReg r) q5 W5 Hb) as [cb [G4 R4]].
    exists (([IMove f0 r0] ++ [IMove f1 r1] ++ code) ++ cb). split.
    { replace d with (d + 0) by lia. eapply Gen_trans; eauto. }
    intros c Hc.
    assert (BB : BC c B q ([IMove f0 r0] ++ [IMove f1 r1] ++ code) d (fun t s =>
        ([(t, ETags i (bins s r) 1 f0); (t + (d - 4), ETags i (bins s r) 0 f1)], set_bin r1 f1 (set_bin r0 f0 s)))).
    { apply (BC_temp c B q q1 r0); [exact I1 | exact Ha0 | exact Hr0 | |apply (BC_temp c B1 q1 q2 r1); [exact I2 | exact Ha1 | exact Hr1 | |]].
      - intros _ _ z t s. cbn. rewrite !(upd_other _ r0 z r) by congruence. split; [reflexivity|]. split; [reflexivity|].
        intros w Hw. unfold upd. destruct (Nat.eqb_spec w r1); destruct (Nat.eqb_spec w r0); congruence.
      - intros _ _ z t s. cbn. rewrite !(upd_other _ r1 z r) by congruence. split; [reflexivity|]. split; [reflexivity|].
        intros w Hw. unfold upd. destruct (Nat.eqb_spec w r1); destruct (Nat.eqb_spec w r0); congruence.
      - eapply BC_ext; [| | eapply BC_app; [exact G1 | apply BC_move; [left; right; reflexivity | exact H0] | eapply BC_app; [exact G2 | apply BC_move; [right; reflexivity | exact H1] | apply R3; exact Hc]]]; [lia|].
        intros t s. unfold then_. cbn. rewrite !upd_same, !(upd_other _ r1 f1) by congruence. rewrite upd_same, !(upd_other _ r0 f0 r) by congruence. rewrite !Z.add_0_r. auto. }
    eapply BC_ext; [| | eapply BC_app; [exact G | exact BB | apply R4]]; [lia|].
    intros t s. unfold then_, op_fun. cbn. rewrite Z.add_0_r. split; [reflexivity|]. split; [reflexivity|].
    assert (Br1 : ~ B r1) by (intros HH; apply Hr1; left; exact HH).
    intros w Hw. assert (w <> r0) by (intros ->; contradiction). assert (w <> r1) by (intros ->; contradiction).
    unfold upd. destruct (Nat.eqb_spec w r0); destruct (Nat.eqb_spec w r1); destruct (Nat.eqb_spec w r); destruct (Nat.eqb_spec r r0); destruct (Nat.eqb_spec r r1); subst; try congruence.
Qed.

Lemma insert_acq_ok B i b p q q' :
  WF B q -> knd_ok B (KAcq i b p) -> insert_acq i b p q = Ok q' -> OpOK B (KAcq i b p) q q'.
Proof.
  intros HW [Hb Hp] H. unfold insert_acq in H. destruct (negb _); [discriminate|].
  set (q1 := set_tacq (Some (elapsed q)) q) in *.
  assert (HW1 : WF B q1) by (eapply WF_conv; [| |exact HW]; reflexivity).
  apply (OpOK_conv B _ q1 q'); try reflexivity.
  destruct p as [|x y|d|d f0 f1 [|]].
  - apply acq_square_ok; assumption.
  - apply acq_weighted_ok; tauto.
  - apply acq_ttl_ok; assumption.
  - destruct Hp as [Hd [H0 H1]].
    pose proof (Gen_emit q1 (IParam (PScopeEn 1)) (WF_ne _ _ HW1) I) as G1. pose proof (Gen_WF _ _ _ _ _ G1 HW1) as W1.
    destruct (acq_tags i b d f0 f1 (emit (IParam (PScopeEn 1)) q1)) as [q2|e] eqn:Ht; [|discriminate]. cbn [bind] in H. injection H as <-.
    destruct (acq_tags_ok B i b d f0 f1 _ _ W1 Hb Hd H0 H1 Ht) as [code [G2 R2]]. pose proof (Gen_WF _ _ _ _ _ G2 W1) as W2.
    pose proof (Gen_emit q2 (IParam (PScopeEn 0)) (WF_ne _ _ W2) I) as G3.
    exists ([IParam (PScopeEn 1)] ++ code ++ [IParam (PScopeEn 0)]). split; [|split; [|discriminate]].
    + replace (op_len (KAcq i b (ATags d f0 f1 true))) with (0 + (d + 0)) by (unfold op_len; lia).
      eapply Gen_trans; [exact G1|]. eapply Gen_trans; [exact G2|exact G3].
    + intros c Hc. eapply BC_ext; [| | eapply BC_app; [exact G1 | apply BC_param; exact Hc | eapply BC_app; [exact G2 | apply R2; exact Hc | apply BC_param; exact Hc]]].
      * unfold op_len; lia.
      * intros t s. unfold then_, op_fun, param_fun. cbn. rewrite !Z.add_0_r. auto.
  - destruct Hp as [Hd [H0 H1]]. destruct (acq_tags_ok B i b d f0 f1 _ _ HW1 Hb Hd H0 H1 H) as [code [G2 R2]].
    exists code. split; [exact G2|]. split; [exact R2|discriminate].
Qed.

Lemma insert_nrt k q q' : simple_kind k = true -> insert_qasm k q = Ok q' -> nrt q' = nrt q.
Proof.
  intros Hk H. destruct k as [|[p|]|w0 w1 g0 g1| |d|i b p]; simpl in H; try discriminate.
  - injection H as <-; reflexivity.
  - injection H as <-; reflexivity.
  - injection H as <-; reflexivity.
  - unfold insert_pulse in H. destruct (negb _); [discriminate|].
    destruct w0, w1; injection H as <-; unfold emit_rt; rewrite add_elapsed_nrt; reflexivity.
  - injection H as <-. unfold emit_rt. rewrite add_elapsed_nrt; reflexivity.
  - unfold insert_acq in H. destruct (negb _); [discriminate|]. destruct p as [|x y|d|d f0 f1 sc]; try discriminate.
    + destruct b; simpl in H; injection H as <-; unfold emit_rt; simpl; rewrite add_elapsed_nrt; reflexivity.
    + destruct b as [z|r]; simpl in H; [injection H as <-; unfold emit_rt; rewrite add_elapsed_nrt; reflexivity|].
      destruct (alloc _) as [[r0 q1]|e] eqn:A0; [|discriminate]. cbn [bind] in H.
      destruct (alloc q1) as [[r1 q2]|e] eqn:A1; [|discriminate]. cbn [bind] in H.
      match type of H with (do q6 <- free r0 ?s; _) = _ => destruct (free r0 s) as [q6|e] eqn:F0; [|discriminate] end.
      cbn [bind] in H. destruct (free_inv _ _ _ F0) as [_ Hq6]. destruct (free_inv _ _ _ H) as [_ Hq'].
      destruct (alloc_inv _ _ _ A0) as [_ Hq1]. destruct (alloc_inv _ _ _ A1) as [_ Hq2].
      rewrite Hq', Hq6. simpl. rewrite add_elapsed_nrt. simpl. rewrite Hq2, Hq1. reflexivity.
Qed.

Lemma do_op_ok B k q q' :
  WF B q -> knd_ok B k -> do_op k q = Ok q' ->
  OpOK B k q q' /\ (simple_kind k = true -> op_len k = 4 * (nrt q' - nrt q)).
Proof.
  intros HW Hk H. unfold do_op in H.
  set (q1 := if is_rt_io k then set_nrt (nrt q + 1) q else q) in *.
  assert (HW1 : WF B q1) by (eapply WF_conv; [| |exact HW]; unfold q1; destruct (is_rt_io k); reflexivity).
  split.
  - apply (OpOK_conv B _ q1 q'); try reflexivity; try (unfold q1; destruct (is_rt_io k); reflexivity).
    clearbody q1. destruct k as [|[p|]|w0 w1 g0 g1| |d|i b p]; simpl in H.
    + injection H as <-. exists []. split; [apply Gen_refl; ne|]. split.
      * intros c Hc. eapply BC_ext; [reflexivity| |apply BC_nil]. evg.
      * intros _. eapply BC_ext; [reflexivity| |apply BC_nil]. evg.
    + injection H as <-. exists [IParam p]. split; [apply Gen_emit; [ne|exact I]|]. split.
      * intros c Hc. eapply BC_ext; [reflexivity| |apply BC_param; exact Hc]. evg.
      * intros _. eapply BC_ext; [reflexivity| |apply BC_param_skip]. evg.
    + injection H as <-. exists []. split; [apply Gen_refl; ne|]. split.
      * intros c Hc. eapply BC_ext; [reflexivity| |apply BC_nil]. evg.
      * intros _. eapply BC_ext; [reflexivity| |apply BC_nil]. evg.
    + apply insert_pulse_ok; assumption.
    + injection H as <-. apply op_rt1; [assumption|exact I|reflexivity|evg|evg].
    + injection H as <-. exists [IRT RLatchRst d]. split; [apply Gen_emit_d; [ne|exact I]|]. split; [|discriminate].
      intros c Hc. eapply BC_ext; [reflexivity| |apply (BC_rt c B q1 RLatchRst d Hc I)]. evg.
    + apply insert_acq_ok; assumption.
  - intros Hs. rewrite (insert_nrt _ _ _ Hs H). unfold q1.
    destruct k as [|[p|]|w0 w1 g0 g1| |d|i b p]; try discriminate; [ | | | | |destruct p; try discriminate]; cbn [op_len is_rt_io]; cbn [nrt set_nrt]; lia.
Qed.

End Ops.
