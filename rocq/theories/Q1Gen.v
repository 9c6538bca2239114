(** The generator emits code blocks that do what the specification says: waits and single operations. *)
From Coq Require Import Permutation Arith.
From Verif Require Import Base Q1Model Q1Machine Q1Spec Q1Blk.
Open Scope Z_scope.

Definition labs (pos : nat) (code : list instr) : Prop :=
  forall i l, nth_error code i = Some (ILabel l) -> l <> LStart /\ LabAt 0 l (pos + i).

Lemma labs_nil pos : labs pos [].
Proof. intros i l H. destruct i; discriminate. Qed.

Lemma labs_app pos a b : labs pos a -> labs (pos + List.length a) b -> labs pos (a ++ b).
Proof.
  intros Ha Hb i l H. destruct (Nat.lt_ge_cases i (List.length a)) as [Hi|Hi].
  - rewrite nth_error_app1 in H by exact Hi. apply Ha; exact H.
  - rewrite nth_error_app2 in H by exact Hi. destruct (Hb _ _ H) as [H1 H2]. split; [exact H1|].
    replace (pos + i)%nat with (pos + List.length a + (i - List.length a))%nat by lia. exact H2.
Qed.

Definition nolab (i : instr) : Prop := match i with ILabel _ => False | _ => True end.
Lemma labs_nolab pos code : Forall nolab code -> labs pos code.
Proof.
  intros H i l Hi. apply nth_error_In in Hi. rewrite Forall_forall in H. specialize (H _ Hi). contradiction.
Qed.

Lemma labs_cons pos x code : nolab x -> labs (S pos) code -> labs pos (x :: code).
Proof.
  intros Hx Hc. apply (labs_app pos [x] code).
  - apply labs_nolab. constructor; [exact Hx|constructor].
  - simpl. rewrite Nat.add_1_r. exact Hc.
Qed.

Definition Gen (q q' : qst) (code : list instr) (E : Z) : Prop :=
  ins q' = ins q ++ code /\ labs (List.length (ins q)) code /\ Permutation (av q') (av q) /\
  exists x r, stk q = x :: r /\ stk q' = x + E :: r.

Definition WF (B : nat -> Prop) (q : qst) : Prop :=
  NoDup (av q) /\ (forall r, In r (av q) -> ~ B r) /\ stk q <> [].

Lemma Gen_WF B q q' code E : Gen q q' code E -> WF B q -> WF B q'.
Proof.
  intros [_ [_ [HP [x [r [_ Hs]]]]]] [Hn [Hb _]]. split; [|split].
  - eapply Permutation_NoDup; [apply Permutation_sym; exact HP | exact Hn].
  - intros y Hy. apply Hb. eapply Permutation_in; eauto.
  - rewrite Hs. discriminate.
Qed.

Lemma Gen_elapsed q q' code E : Gen q q' code E -> elapsed q' = elapsed q + E.
Proof. intros [_ [_ [_ [x [r [H1 H2]]]]]]. unfold elapsed. rewrite H1, H2. simpl. lia. Qed.

Lemma Gen_refl q : stk q <> [] -> Gen q q [] 0.
Proof.
  intros H. split; [rewrite app_nil_r; reflexivity|]. split; [apply labs_nil|]. split; [apply Permutation_refl|].
  destruct (stk q) as [|x r]; [contradiction|]. exists x, r. split; [reflexivity|]. f_equal. lia.
Qed.

Lemma Gen_trans q q1 q2 c1 c2 E1 E2 : Gen q q1 c1 E1 -> Gen q1 q2 c2 E2 -> Gen q q2 (c1 ++ c2) (E1 + E2).
Proof.
  intros [A1 [L1 [P1 [x [r [S1 T1]]]]]] [A2 [L2 [P2 [y [r' [S2 T2]]]]]].
  split; [rewrite A2, A1, app_assoc; reflexivity|]. split.
  - apply labs_app; [exact L1|]. rewrite A1, app_length in L2. exact L2.
  - split; [eapply Permutation_trans; eauto|]. exists x, r. split; [exact S1|].
    rewrite T1 in S2. injection S2 as <- <-. rewrite T2. f_equal. lia.
Qed.

Section Run.
Variable S0 : nat.
Variable env : nat -> nat -> bool.

Definition Run (B : nat -> Prop) (q : qst) code D f : Prop :=
  forall c, active c -> Blk S0 c c (av q) B (List.length (ins q)) code env D f any.
Definition Skip (B : nat -> Prop) (q : qst) code D f : Prop :=
  Blk S0 (Some (false, 4)) (Some (false, 4)) (av q) B (List.length (ins q)) code env D f any.

Lemma Run_app B q q1 c1 c2 E1 D1 D2 f g :
  Gen q q1 c1 E1 -> Run B q c1 D1 f -> Run B q1 c2 D2 g -> Run B q (c1 ++ c2) (D1 + D2) (then_ D1 f g).
Proof.
  intros [A1 [_ [P1 _]]] H1 H2 c Hc. apply blk_app with (c1 := c) (Q := any); [| apply H1; exact Hc |].
  - intros; exact I.
  - specialize (H2 c Hc). rewrite A1, app_length in H2. eapply blk_weaken; [|exact H2].
    intros x Hx. eapply Permutation_in; eauto.
Qed.

Lemma Skip_app B q q1 c1 c2 E1 D1 D2 f g :
  Gen q q1 c1 E1 -> Skip B q c1 D1 f -> Skip B q1 c2 D2 g -> Skip B q (c1 ++ c2) (D1 + D2) (then_ D1 f g).
Proof.
  intros [A1 [_ [P1 _]]] H1 H2. unfold Skip in *. apply blk_app with (c1 := Some (false, 4)) (Q := any); [| exact H1 |].
  - intros; exact I.
  - rewrite A1, app_length in H2. eapply blk_weaken; [|exact H2].
    intros x Hx. eapply Permutation_in; eauto.
Qed.

Lemma Run_ext (B : nat -> Prop) q code D D' f g :
  D = D' ->
  (forall t s, fst (f t s) = fst (g t s) /\ kcond (snd (f t s)) = kcond (snd (g t s)) /\
               forall r, B r -> bins (snd (f t s)) r = bins (snd (g t s)) r) ->
  Run B q code D f -> Run B q code D' g.
Proof. intros <- He H c Hc. eapply blk_ext; [intros s Hs; exact Hs | intros; apply He | apply H; exact Hc]. Qed.

Lemma Skip_ext (B : nat -> Prop) q code D D' f g :
  D = D' ->
  (forall t s, fst (f t s) = fst (g t s) /\ kcond (snd (f t s)) = kcond (snd (g t s)) /\
               forall r, B r -> bins (snd (f t s)) r = bins (snd (g t s)) r) ->
  Skip B q code D f -> Skip B q code D' g.
Proof. intros <- He H. eapply blk_ext; [intros s Hs; exact Hs | intros; apply He | exact H]. Qed.

Lemma Run_nil B q : Run B q [] 0 keep.
Proof. intros c _. apply blk_nil. Qed.
Lemma Skip_nil B q : Skip B q [] 0 keep.
Proof. apply blk_nil. Qed.

(** ** waits *)
Lemma Gen_wait q d (count : bool) : stk q <> [] -> Gen q (emit_wait d count q) [IRT RWait d] (if count then d else 0).
Proof.
  intros H. destruct (stk q) as [|x r] eqn:Hs; [contradiction|].
  unfold Gen, emit_wait, add_elapsed. destruct count; cbn [emit set_stk set_nrt ins stk av nrt]; rewrite Hs; cbn [emit set_stk set_nrt ins stk av nrt].
  - split; [reflexivity|]. split; [apply labs_nolab; repeat constructor|]. split; [apply Permutation_refl|].
    exists x, r. auto.
  - split; [reflexivity|]. split; [apply labs_nolab; repeat constructor|]. split; [apply Permutation_refl|].
    exists x, r. split; [reflexivity|]. rewrite ?Hs. f_equal. lia.
Qed.

Lemma keep_ext (B : nat -> Prop) D : forall t s, fst (then_ D keep keep t s) = fst (keep t s) /\
  kcond (snd (then_ D keep keep t s)) = kcond (snd (keep t s)) /\
  forall r, B r -> bins (snd (then_ D keep keep t s)) r = bins (snd (keep t s)) r.
Proof. intros t s. simpl. auto. Qed.

Lemma Run_wait B q d : Run B q [IRT RWait d] d keep.
Proof.
  intros c Hc. eapply blk_ext; [intros s Hs; exact Hs | | apply (blk_rt S0 c _ B _ RWait d env any Hc)].
  - intros t s _. simpl. auto.
  - exact I.
Qed.

Lemma Skip_wait B q d : Skip B q [IRT RWait d] 4 keep.
Proof. apply blk_rt_skip. Qed.

Lemma emit_wait_nrt d count q : nrt (emit_wait d count q) = nrt q + 1.
Proof. unfold emit_wait, add_elapsed. destruct count; simpl; [destruct (stk q)|]; reflexivity. Qed.

Lemma repeat_wait_ok B d (count : bool) n : forall q,
  stk q <> [] ->
  exists code, Gen q (repeat_wait n d count q) code (if count then d * Z.of_nat n else 0) /\
    Run B q code (d * Z.of_nat n) keep /\ Skip B q code (4 * Z.of_nat n) keep /\
    nrt (repeat_wait n d count q) = nrt q + Z.of_nat n.
Proof.
  induction n as [|n IH]; intros q Hs.
  - exists []. split; [|split; [|split]].
    + replace (if count then d * Z.of_nat 0 else 0) with 0 by (destruct count; lia). apply Gen_refl; exact Hs.
    + replace (d * Z.of_nat 0) with 0 by lia. apply Run_nil.
    + apply Skip_nil.
    + simpl. lia.
  - pose proof (Gen_wait q d count Hs) as G1.
    assert (Hs1 : stk (emit_wait d count q) <> []).
    { destruct G1 as [_ [_ [_ [x [r [_ H]]]]]]. rewrite H. discriminate. }
    destruct (IH _ Hs1) as [code [G2 [R2 [K2 N2]]]].
    exists ([IRT RWait d] ++ code). split; [|split; [|split]].
    + change (repeat_wait (S n) d count q) with (repeat_wait n d count (emit_wait d count q)).
      replace (if count then d * Z.of_nat (S n) else 0) with ((if count then d else 0) + (if count then d * Z.of_nat n else 0)) by (destruct count; lia).
      eapply Gen_trans; eauto.
    + eapply Run_ext; [| | eapply Run_app; [exact G1 | apply Run_wait | exact R2]]; [lia | apply keep_ext].
    + eapply Skip_ext; [| | eapply Skip_app; [exact G1 | apply Skip_wait | exact K2]]; [lia | apply keep_ext].
    + change (repeat_wait (S n) d count q) with (repeat_wait n d count (emit_wait d count q)).
      rewrite N2, emit_wait_nrt. lia.
Qed.

Lemma iterate_keep n : forall off D s, iterate keep n off D s = ([], s).
Proof. induction n as [|n IH]; intros off D s; [reflexivity|]. simpl. rewrite IH. reflexivity. Qed.

Lemma free_inv r q q' : free r q = Ok q' -> ~ In r (av q) /\ q' = set_av (r :: av q) q.
Proof.
  unfold free. destruct (Nat.ltb NREG r); [discriminate|]. destruct (existsb (Nat.eqb r) (av q)) eqn:E; [discriminate|].
  intros H. injection H as <-. split; [|reflexivity]. intros Hin.
  assert (existsb (Nat.eqb r) (av q) = true) by (apply existsb_exists; exists r; split; [exact Hin | apply Nat.eqb_refl]).
  congruence.
Qed.

Lemma alloc_inv q r q' : alloc q = Ok (r, q') -> av q = r :: av q' /\ q' = set_av (av q') q.
Proof.
  unfold alloc. destruct (av q) as [|x rest] eqn:E; [discriminate|]. intros H. injection H as <- <-. simpl. auto.
Qed.

(** general shape of [with_loop] with a body that satisfies [Gen]/[Run] *)
Lemma with_loop_ok {A} B lab n (body : qst -> result (A * qst)) q a q' :
  WF B q -> 1 <= n < M32 ->
  with_loop lab n body q = Ok (a, q') ->
  exists r rest q2 q3,
    av q = r :: rest /\ ins q2 = ins q ++ [IMove n r; ILabel lab] /\ stk q2 = 0 :: stk q /\ av q2 = rest /\ nrt q2 = nrt q /\
    WF B q2 /\ body q2 = Ok (a, q3) /\
    (forall code E D f, Gen q2 q3 code E ->
       ((forall m, lab = LLoop m \/ lab = LWait m -> m = List.length (ins q)) /\ lab <> LStart ->
        Gen q q' (IMove n r :: ILabel lab :: code ++ [ILoop r lab]) (E * n)) /\
       (ins q' = ins q ++ (IMove n r :: ILabel lab :: code ++ [ILoop r lab])) /\
       (forall c, Blk S0 c c (av q2) B (List.length (ins q2)) code env D f any ->
          Blk S0 c c (av q) B (List.length (ins q)) (IMove n r :: ILabel lab :: code ++ [ILoop r lab]) env (D * n)
            (fun t s => iterate f (Z.to_nat n) t D s) any)).
Proof.
  intros HWF Hn H. unfold with_loop in H.
  destruct (alloc q) as [[r q1]|e] eqn:Ha; [|discriminate]. cbn [bind] in H.
  destruct (alloc_inv _ _ _ Ha) as [Hav Hq1].
  set (q2 := emit (ILabel lab) (emit (IMove n r) (set_stk (0 :: stk q1) q1))) in *.
  destruct (body q2) as [[a' q3]|e] eqn:Hb; [|discriminate]. cbn [bind] in H.
  destruct (free r (emit (ILoop r lab) q3)) as [q4|e] eqn:Hf; [|discriminate]. cbn [bind] in H.
  destruct (free_inv _ _ _ Hf) as [Hnin Hq4].
  destruct (stk q4) as [|lst [|x rs]] eqn:Hs4; try discriminate. injection H as <- <-.
  assert (Hq2 : ins q2 = ins q ++ [IMove n r; ILabel lab]).
  { unfold q2. simpl. rewrite Hq1. simpl. rewrite <- app_assoc. reflexivity. }
  destruct HWF as [Hnd [HB Hne]]. rewrite Hav in Hnd. inversion Hnd as [|? ? Hrn Hnd']; subst x0 l.
  exists r, (av q1), q2, q3. split; [exact Hav|]. split; [exact Hq2|].
  split; [unfold q2; simpl; rewrite Hq1; reflexivity|]. split; [reflexivity|].
  split; [unfold q2; simpl; rewrite Hq1; reflexivity|]. split.
  { split; [exact Hnd'|]. split; [|unfold q2; simpl; discriminate].
    intros y Hy. apply HB. rewrite Hav. right. exact Hy. }
  split; [exact Hb|].
  intros code E D f HG.
  assert (Hins : ins (set_stk (x + lst * n :: rs) q4) = ins q ++ (IMove n r :: ILabel lab :: code ++ [ILoop r lab])).
  { rewrite Hq4. destruct HG as [G1 _]. simpl. rewrite G1, Hq2. rewrite <- !app_assoc. reflexivity. }
  assert (Hrn' : ~ In r (av q1)) by exact Hrn.
  split; [|split; [exact Hins|]].
  - intros [Hlab Hls]. destruct HG as [G1 [L1 [P1 [y [ry [S1 S2]]]]]].
    split; [exact Hins|]. split; [|split].
    + apply labs_cons; [exact I|].
      apply (labs_app _ [ILabel lab] (code ++ [ILoop r lab])).
      * intros i l Hi. destruct i as [|i]; [|destruct i; discriminate]. simpl in Hi. injection Hi as <-.
        split; [exact Hls|]. destruct lab as [|m|m]; [congruence| |]; simpl; rewrite (Hlab m) by auto; lia.
      * apply labs_app; [|apply labs_nolab; repeat constructor].
        replace (S (List.length (ins q)) + List.length [ILabel lab])%nat with (List.length (ins q2)); [exact L1|].
        rewrite Hq2, app_length. simpl. lia.
    + rewrite Hq4. simpl. rewrite Hav. apply perm_skip. exact P1.
    + assert (H2 : stk q2 = 0 :: stk q) by (unfold q2; simpl; rewrite Hq1; reflexivity).
      rewrite H2 in S1. injection S1 as <- <-.
      assert (H3 : stk q4 = stk q3) by (rewrite Hq4; reflexivity). rewrite Hs4, S2 in H3. injection H3 as -> Hst.
      exists x, rs. split; [symmetry; exact Hst|reflexivity].
  - intros c HR. apply (blk_loop S0 c (av q) (av q1) B (List.length (ins q)) r lab code env D f n).
    + rewrite Hav. left. reflexivity.
    + exact Hrn'.
    + intros y Hy. rewrite Hav. right. exact Hy.
    + apply HB. rewrite Hav. left. reflexivity.
    + exact Hn.
    + rewrite Hq2, app_length in HR. exact HR.
Qed.

Lemma auto_wait_ok B w (count : bool) q q' :
  WF B q -> w <= TMAX -> auto_wait w count q = Ok q' ->
  0 <= w /\
  exists code, Gen q q' code (if count then w else 0) /\ Run B q code w keep /\
    (w <= MAXW -> Skip B q code (4 * (nrt q' - nrt q)) keep /\ nrt q' = nrt q + (if w =? 0 then 0 else 1)).
Proof.
  intros HWF HT H. unfold auto_wait in H. destruct (w =? 0) eqn:E0.
  { apply Z.eqb_eq in E0. subst w. injection H as <-. split; [lia|]. exists [].
    split; [destruct count; apply Gen_refl; apply HWF|]. split; [apply Run_nil|].
    intros _. split; [|lia]. replace (4 * (nrt q - nrt q)) with 0 by lia. apply Skip_nil. }
  apply Z.eqb_neq in E0. destruct (w <? 0) eqn:E1; [discriminate|]. apply Z.ltb_ge in E1.
  split; [exact E1|].
  destruct (w >? MAXW) eqn:E2.
  2:{ cbn [bind] in H. rewrite Z.gtb_ltb in E2. apply Z.ltb_ge in E2.
      destruct (w >? 0) eqn:E3; [|rewrite Z.gtb_ltb in E3; apply Z.ltb_ge in E3; lia].
      injection H as <-. exists [IRT RWait w]. split; [apply Gen_wait; apply HWF|]. split; [apply Run_wait|].
      intros _. rewrite emit_wait_nrt. split; [|lia].
      replace (4 * (nrt q + 1 - nrt q)) with 4 by lia. apply Skip_wait. }
  rewrite Z.gtb_ltb in E2. apply Z.ltb_lt in E2.
  set (n := w / MAXW) in *. cbv zeta in H.
  assert (Hn1 : 1 <= n) by (unfold n; apply Z.div_le_lower_bound; unfold MAXW in *; lia).
  assert (Hn2 : n < M32).
  { unfold n, M32. apply Z.div_lt_upper_bound; unfold MAXW in *; [lia|]. unfold TMAX in HT.
    change (2 ^ 47) with 140737488355328 in HT. change (2 ^ 32) with 4294967296. lia. }
  assert (Hmid : exists q1 code, Gen q q1 code (if count then MAXW * n else 0) /\ Run B q code (MAXW * n) keep /\
            (if w mod MAXW >? 0 then Ok (emit_wait (w mod MAXW) count q1) else Ok q1) = Ok q').
  { destruct (n >? 4).
    - destruct (with_loop (LWait (List.length (ins q))) n (fun q0 => Ok (tt, emit_wait MAXW count q0)) q) as [[u q1]|e] eqn:HL; [|discriminate].
      cbn [bind] in H.
      destruct (with_loop_ok B _ _ _ _ _ _ HWF (conj Hn1 Hn2) HL) as [r [rest [q2 [q3 [Hav [Hi [Hs [Hav2 [Hnrt [HWF2 [Hbody Hall]]]]]]]]]]].
      injection Hbody as <- <-.
      destruct (Hall _ _ MAXW keep (Gen_wait q2 MAXW count (proj2 (proj2 HWF2)))) as [HG [_ HR0]].
      assert (HR : Run B q (IMove n r :: ILabel (LWait (List.length (ins q))) :: [IRT RWait MAXW] ++ [ILoop r (LWait (List.length (ins q)))])
         (MAXW * n) (fun t s => iterate keep (Z.to_nat n) t MAXW s)).
      { intros c Hc. apply HR0. apply Run_wait. exact Hc. }
      exists q1. eexists. split; [|split; [|exact H]].
      + replace (if count then MAXW * n else 0) with ((if count then MAXW else 0) * n) by (destruct count; lia).
        apply HG. split; [|discriminate]. intros m [Hm|Hm]; [discriminate|]. injection Hm as <-. reflexivity.
      + eapply Run_ext; [reflexivity | | exact HR]. intros t s. cbv beta. rewrite iterate_keep. simpl. auto.
    - cbn [bind] in H.
      destruct (repeat_wait_ok B MAXW count (Z.to_nat n) q (proj2 (proj2 HWF))) as [code [G [R _]]].
      rewrite Z2Nat.id in G, R by lia. eexists _, code. split; [exact G|]. split; [exact R|]. exact H. }
  destruct Hmid as [q1 [code [G1 [R1 Hq']]]].
  assert (Hw : w = MAXW * n + w mod MAXW) by (unfold n; apply Z.div_mod; unfold MAXW; lia).
  assert (Hm0 : 0 <= w mod MAXW) by (apply Z.mod_pos_bound; unfold MAXW; lia).
  destruct (w mod MAXW >? 0) eqn:E3.
  - injection Hq' as <-. exists (code ++ [IRT RWait (w mod MAXW)]).
    pose proof (Gen_WF _ _ _ _ _ G1 HWF) as HWF1.
    split; [|split].
    + replace (if count then w else 0) with ((if count then MAXW * n else 0) + (if count then w mod MAXW else 0)) by (destruct count; lia).
      eapply Gen_trans; [exact G1|]. apply Gen_wait. apply HWF1.
    + eapply Run_ext; [| | eapply Run_app; [exact G1 | exact R1 | apply Run_wait]]; [lia | apply keep_ext].
    + intros Hle. lia.
  - injection Hq' as <-. rewrite Z.gtb_ltb in E3. apply Z.ltb_ge in E3. exists code.
    assert (Hz : w = MAXW * n) by lia. rewrite Hz. split; [exact G1|]. split; [exact R1|]. intros Hle. lia.
Qed.

End Run.
