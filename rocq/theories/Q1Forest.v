(** Loops, conditionals and whole operation lists. *)
From Coq Require Import Permutation Arith.
From Verif Require Import Base Q1Model Q1Machine Q1Spec Q1Blk Q1Gen Q1Ops.
Open Scope Z_scope.

Section PnodeInd.
  Variable P : pnode -> Prop.
  Hypothesis HOp : forall t k, P (POp t k).
  Hypothesis HLoop : forall t n body te, Forall P body -> P (PLoop t n body te).
  Hypothesis HCond : forall t a body te, Forall P body -> P (PCond t a body te).
  Fixpoint pnode_ind2 (n : pnode) : P n :=
    let fl := fix fl (l : list pnode) : Forall P l :=
      match l with [] => Forall_nil P | x :: r => Forall_cons x (pnode_ind2 x) (fl r) end in
    match n with
    | POp t k => HOp t k
    | PLoop t n body te => HLoop t n body te (fl body)
    | PCond t a body te => HCond t a body te (fl body)
    end.
End PnodeInd.

Section Forest.
Variable S0 : nat.
Variable env : nat -> nat -> bool.
Variable nb : nat.
Let B (r : nat) : Prop := (r < nb)%nat.

Notation BC := (BC S0 env).

Lemma kind_ok_knd k : kind_ok nb k = true -> knd_ok B k /\ 0 <= op_len k \/ exists i b p, k = KAcq i b p /\ knd_ok B k.
Proof.
  destruct k as [|p|w0 w1 g0 g1| |d|i b p]; cbn; intros H; try (left; split; [exact I|lia]).
  right. exists i, b, p. split; [reflexivity|]. apply andb_true_iff in H. destruct H as [H1 H2]. split.
  - destruct b; simpl; [exact I|]. apply Nat.ltb_lt in H1. exact H1.
  - destruct p; [exact I| | |]; rewrite ?andb_true_iff, ?Z.leb_le, ?Z.ltb_lt in H2; intuition lia.
Qed.

Lemma kind_ok_prop k : kind_ok nb k = true -> knd_ok B k.
Proof. intros H. destruct (kind_ok_knd k H) as [[H1 _]|[i [b [p [_ H1]]]]]; exact H1. Qed.

Lemma auto_wait_nonneg w count q q' : auto_wait w count q = Ok q' -> 0 <= w.
Proof.
  unfold auto_wait. destruct (w =? 0) eqn:E; [apply Z.eqb_eq in E; lia|]. destruct (w <? 0) eqn:E1; [discriminate|].
  apply Z.ltb_ge in E1. auto.
Qed.

(** a successful operation takes a non-negative time *)
Lemma do_op_len k q q' : WF B q -> kind_ok nb k = true -> do_op k q = Ok q' -> 0 <= op_len k.
Proof.
  intros HW Hk H. destruct k as [|p|w0 w1 g0 g1| |d|i b p]; cbn; try lia.
  - cbn in Hk. apply Z.leb_le in Hk. exact Hk.
  - pose proof (kind_ok_prop _ Hk) as [Hb Hp].
    unfold do_op in H. cbn [is_rt_io] in H. set (q1 := set_nrt (nrt q + 1) q) in *.
    cbn [insert_qasm] in H. unfold insert_acq in H. destruct (negb _); [discriminate|].
    set (q2 := set_tacq (Some (elapsed q1)) q1) in *.
    assert (HW2 : WF B q2) by exact HW. clearbody q2.
    assert (HC : forall bb d o0 o1 s s', acq_tags_core i bb d o0 o1 s = Ok s' -> 0 <= d).
    { intros bb d o0 o1 s s' HH. unfold acq_tags_core in HH.
      match type of HH with (do _ <- ?a; _) = _ => destruct a eqn:Aw; [|discriminate] end.
      apply auto_wait_nonneg in Aw. unfold MINOP in Aw. lia. }
    assert (HA : forall f0 f1 d s s', acq_tags i b d f0 f1 s = Ok s' -> 0 <= d).
    { intros f0 f1 d s s' HH. destruct b as [z|r]; cbn [acq_tags] in HH; [eapply HC; eauto|].
      destruct (f0 =? f1).
      - destruct (alloc s) as [[r0 s1]|e] eqn:A0; [|discriminate]. cbn [bind] in HH.
        match type of HH with (do _ <- ?a; _) = _ => destruct a eqn:Aw; [|discriminate] end. eapply HC; eauto.
      - destruct (alloc s) as [[r0 s1]|e] eqn:A0; [|discriminate]. cbn [bind] in HH.
        destruct (alloc s1) as [[r1 s2]|e] eqn:A1; [|discriminate]. cbn [bind] in HH.
        match type of HH with (do _ <- ?a; _) = _ => destruct a eqn:Aw; [|discriminate] end. eapply HC; eauto. }
    destruct p as [|x y|d|d f0 f1 sc]; cbn; try lia.
    + unfold acq_ttl in H. match type of H with (do _ <- ?a; _) = _ => destruct a eqn:Aw; [|discriminate] end.
      apply auto_wait_nonneg in Aw. unfold MINOP in Aw. lia.
    + destruct sc.
      * match type of H with (do _ <- ?a; _) = _ => destruct a eqn:Aw; [|discriminate] end. eapply HA; eauto.
      * eapply HA; eauto.
Qed.

Lemma wait_till_ok t idle q q' :
  WF B q -> t <= TMAX -> 0 <= elapsed q -> wait_till t idle q = Ok q' ->
  (idle = false -> elapsed q <= t) /\
  exists code, Gen q q' code (Z.max 0 (t - elapsed q)) /\
    (forall c, active c -> BC c B q code (Z.max 0 (t - elapsed q)) keep) /\
    (t - elapsed q <= MAXW -> BC (Some (false, 4)) B q code (4 * (nrt q' - nrt q)) keep /\
       nrt q' = nrt q + (if t - elapsed q <=? 0 then 0 else 1)).
Proof.
  intros HW HT H0 H. unfold wait_till in H. set (w := t - elapsed q) in *.
  destruct (w >? 0) eqn:E.
  - rewrite Z.gtb_ltb in E. apply Z.ltb_lt in E. split; [unfold w in E; lia|].
    destruct (auto_wait_ok S0 env B w true q q' HW ltac:(unfold w; lia) H) as [Hw [code [G [R K]]]].
    exists code. rewrite Z.max_r by lia. split; [exact G|]. split; [exact R|].
    intros Hm. destruct (K Hm) as [K1 K2]. split; [exact K1|]. rewrite K2.
    destruct (w =? 0) eqn:E0; [apply Z.eqb_eq in E0; lia|]. destruct (w <=? 0) eqn:E1; [apply Z.leb_le in E1; lia|reflexivity].
  - rewrite Z.gtb_ltb in E. apply Z.ltb_ge in E.
    destruct ((w <? 0) && negb idle) eqn:E1; [discriminate|]. injection H as <-.
    split.
    { intros ->. rewrite andb_true_r in E1. apply Z.ltb_ge in E1. unfold w in E1. lia. }
    exists []. rewrite Z.max_l by lia. split; [apply Gen_refl; apply HW|].
    split; [intros; apply BC_nil|]. intros _. replace (4 * (nrt q - nrt q)) with 0 by lia. split; [apply BC_nil|].
    destruct (w <=? 0) eqn:E2; [lia|apply Z.leb_gt in E2; lia].
Qed.

(** one operation, including the wait before it *)
Lemma op_node_ok t k q q1 q2 :
  node_ok nb (POp t k) = true -> WF B q -> 0 <= elapsed q ->
  wait_till t (is_idle k) q = Ok q1 -> do_op k q1 = Ok q2 ->
  exists code, Gen q q2 code (elapsed q2 - elapsed q) /\ elapsed q <= elapsed q2 /\
    elapsed q2 = Z.max (elapsed q) t + op_len k /\
    (forall c, active c -> BC c B q code (elapsed q2 - elapsed q) (fun tm s => play env (POp t k) (tm - elapsed q) s)) /\
    (simple_kind k = true -> t - elapsed q <= MAXW ->
       BC (Some (false, 4)) B q code (4 * (nrt q2 - nrt q)) (fun _ s => ([], skip_node (POp t k) s)) /\
       nrt q2 - nrt q = (if t - elapsed q <=? 0 then 0 else 1) + op_len k / 4 /\ op_len k mod 4 = 0).
Proof.
  intros Hok HW H0 Hw Ho. cbn [node_ok] in Hok. apply andb_true_iff in Hok. destruct Hok as [HT Hk]. apply Z.leb_le in HT.
  destruct (wait_till_ok t _ q q1 HW HT H0 Hw) as [Hid [cw [G1 [R1 K1]]]].
  pose proof (Gen_WF _ _ _ _ _ G1 HW) as W1. pose proof (Gen_elapsed _ _ _ _ G1) as E1.
  destruct (do_op_ok S0 env B k q1 q2 W1 (kind_ok_prop k Hk) Ho) as [[co [G2 [R2 K2]]] Hn].
  pose proof (Gen_elapsed _ _ _ _ G2) as E2. pose proof (do_op_len k q1 q2 W1 Hk Ho) as HL.
  assert (ED : elapsed q2 - elapsed q = Z.max 0 (t - elapsed q) + op_len k) by lia.
  exists (cw ++ co). rewrite ED. split; [eapply Gen_trans; eauto|]. split; [lia|]. split; [lia|]. split.
  - intros c Hc. eapply BC_ext; [reflexivity| |eapply BC_app; [exact G1 | apply R1; exact Hc | apply R2; exact Hc]].
    intros tm s. unfold then_, keep, op_fun. cbn [play fst snd app].
    destruct (is_idle k) eqn:Ei.
    + destruct k; try discriminate. cbn. auto.
    + specialize (Hid eq_refl). rewrite Z.max_r by lia. replace (tm + (t - elapsed q)) with (tm - elapsed q + t) by lia. auto.
  - intros Hs Hm. destruct (K1 Hm) as [K11 K12]. specialize (Hn Hs). split; [|split].
    + eapply BC_ext; [| |eapply BC_app; [exact G1 | exact K11 | apply K2; exact Hs]]; [lia|].
      intros tm s. unfold then_, keep, skip_fun. cbn. auto.
    + rewrite Hn, Z.mul_comm, Z.div_mul by lia. lia.
    + rewrite Hn, Z.mul_comm, Z.mod_mul by lia. lia.
Qed.

(** the body of a conditional *)
Lemma cond_body_ok te : te <= TMAX -> forall body fuel r q res,
  forallb (fun x => match x with POp _ k => simple_kind k && node_ok nb x | _ => false end) body = true ->
  gaps_ok (elapsed q) body te = true ->
  te - elapsed q <= 65528 -> WF B q -> 0 <= elapsed q ->
  parse fuel (flat_map flat body ++ SRet te :: r) q = Ok res ->
  exists q' code, Gen q q' code (te - elapsed q) /\ res = (r, q') /\ elapsed q <= te /\
    (forall c, active c -> BC c B q code (te - elapsed q) (fun tm s => play_all env body (tm - elapsed q) s)) /\
    BC (Some (false, 4)) B q code (4 * (nrt q' - nrt q)) (fun _ s => ([], fold_left (fun s x => skip_node x s) body s)) /\
    4 * (nrt q' - nrt q) <= te - elapsed q /\ 0 <= nrt q' - nrt q.
Proof.
  intros HTe. induction body as [|x body IH]; intros fuel r q res Hb Hg Hl HW H0 H.
  - destruct fuel as [|f]; [discriminate|]. cbn [flat_map app parse] in H.
    destruct (wait_till te false q) as [q1|e] eqn:Hw; [|discriminate]. cbn [bind] in H. injection H as <-.
    destruct (wait_till_ok te false q q1 HW HTe H0 Hw) as [Hid [cw [G1 [R1 K1]]]]. specialize (Hid eq_refl).
    rewrite Z.max_r in G1, R1 by lia. destruct (K1 ltac:(unfold MAXW; lia)) as [K11 K12].
    exists q1, cw. split; [exact G1|]. split; [reflexivity|]. split; [exact Hid|]. split; [|split; [|split]].
    + intros c Hc. eapply BC_ext; [reflexivity| |apply R1; exact Hc]. intros tm s. cbn. auto.
    + eapply BC_ext; [reflexivity| |exact K11]. intros tm s. cbn. auto.
    + cbn [gaps_ok] in Hg. rewrite K12. destruct (te - elapsed q <=? 0) eqn:E; [lia|]. apply Z.leb_gt in E.
      apply orb_true_iff in Hg. rewrite !Z.leb_le in Hg. lia.
    + rewrite K12. destruct (te - elapsed q <=? 0); lia.
  - destruct x as [t k|t n b te'|t a b te']; cbn [forallb] in Hb; try discriminate.
    apply andb_true_iff in Hb. destruct Hb as [Hx Hb]. apply andb_true_iff in Hx. destruct Hx as [Hs Hok].
    cbn [gaps_ok] in Hg. apply andb_true_iff in Hg. destruct Hg as [Hg1 Hg].
    destruct fuel as [|f]; [discriminate|]. cbn [flat_map flat app parse] in H.
    destruct (wait_till t (is_idle k) q) as [q1|e] eqn:Hw; [|discriminate]. cbn [bind] in H.
    destruct (do_op k q1) as [q2|e] eqn:Ho; [|discriminate]. cbn [bind] in H.
    destruct (op_node_ok t k q q1 q2 Hok HW H0 Hw Ho) as [c1 [G1 [Hmono [HE [R1 K1]]]]].
    pose proof (Gen_WF _ _ _ _ _ G1 HW) as W2. rewrite <- HE in Hg.
    destruct (IH f r q2 res Hb Hg ltac:(lia) W2 ltac:(lia) H) as [q' [c2 [G2 [Hres [Hle [R2 [K2 [Hc1 Hc2]]]]]]]].
    assert (HLen : 0 <= op_len k).
    { apply (do_op_len k q1 q2); [|cbn [node_ok] in Hok; apply andb_true_iff in Hok; apply Hok|exact Ho].
      cbn [node_ok] in Hok. apply andb_true_iff in Hok. destruct Hok as [HT _]. apply Z.leb_le in HT.
      destruct (wait_till_ok t _ q q1 HW HT H0 Hw) as [_ [cw [Gw _]]]. eapply Gen_WF; eauto. }
    destruct (K1 Hs ltac:(unfold MAXW; lia)) as [K11 [K12 K13]].
    exists q', (c1 ++ c2). split; [|split; [exact Hres|split; [lia|split; [|split; [|split]]]]].
    + replace (te - elapsed q) with (elapsed q2 - elapsed q + (te - elapsed q2)) by lia. eapply Gen_trans; eauto.
    + intros c Hc. eapply BC_ext; [| |eapply BC_app; [exact G1 | apply R1; exact Hc | apply R2; exact Hc]]; [lia|].
      intros tm s. unfold then_, play_all. cbn [seq_play].
      destruct (play env (POp t k) (tm - elapsed q) s) as [e1 s1].
      replace (tm + (elapsed q2 - elapsed q) - elapsed q2) with (tm - elapsed q) by lia.
      destruct (seq_play (fun x s0 => play env x (tm - elapsed q) s0) body s1) as [e2 s2]. cbn. auto.
    + eapply BC_ext; [| |eapply BC_app; [exact G1 | exact K11 | exact K2]]; [lia|].
      intros tm s. unfold then_. cbn. auto.
    + assert (4 * (op_len k / 4) = op_len k) by (pose proof (Z.div_mod (op_len k) 4 ltac:(lia)); lia).
      apply orb_true_iff in Hg1. rewrite !Z.leb_le in Hg1.
      destruct (t - elapsed q <=? 0) eqn:E; [apply Z.leb_le in E | apply Z.leb_gt in E]; lia.
    + pose proof (Z.div_pos (op_len k) 4 HLen ltac:(lia)). destruct (t - elapsed q <=? 0); lia.
Qed.

Definition NodeP (n : pnode) : Prop := forall fuel r q res,
  node_ok nb n = true -> WF B q -> 0 <= elapsed q -> parse fuel (flat n ++ r) q = Ok res ->
  exists fuel' q' code, Gen q q' code (elapsed q' - elapsed q) /\ elapsed q <= elapsed q' /\
    BC None B q code (elapsed q' - elapsed q) (fun tm s => play env n (tm - elapsed q) s) /\
    parse fuel' r q' = Ok res.

Definition ForestP (l : list pnode) : Prop := forall fuel r q res,
  forallb (node_ok nb) l = true -> WF B q -> 0 <= elapsed q -> parse fuel (flat_map flat l ++ r) q = Ok res ->
  exists fuel' q' code, Gen q q' code (elapsed q' - elapsed q) /\ elapsed q <= elapsed q' /\
    BC None B q code (elapsed q' - elapsed q) (fun tm s => play_all env l (tm - elapsed q) s) /\
    parse fuel' r q' = Ok res.

Lemma forest_of l : Forall NodeP l -> ForestP l.
Proof.
  induction 1 as [|x l Hx _ IH]; intros fuel r q res Hok HW H0 H.
  - exists fuel, q, []. replace (elapsed q - elapsed q) with 0 by lia. split; [apply Gen_refl; apply HW|]. split; [lia|].
    split; [|exact H]. eapply BC_ext; [reflexivity| |apply BC_nil]. intros tm s. cbn. auto.
  - cbn [forallb] in Hok. apply andb_true_iff in Hok. destruct Hok as [Hk Hok].
    cbn [flat_map] in H. rewrite <- app_assoc in H.
    destruct (Hx fuel _ q res Hk HW H0 H) as [f1 [q1 [c1 [G1 [M1 [R1 H1]]]]]].
    destruct (IH f1 r q1 res Hok (Gen_WF _ _ _ _ _ G1 HW) ltac:(lia) H1) as [f2 [q2 [c2 [G2 [M2 [R2 H2]]]]]].
    exists f2, q2, (c1 ++ c2). split; [|split; [lia|split; [|exact H2]]].
    + replace (elapsed q2 - elapsed q) with (elapsed q1 - elapsed q + (elapsed q2 - elapsed q1)) by lia. eapply Gen_trans; eauto.
    + eapply BC_ext; [| |eapply BC_app; [exact G1|exact R1|exact R2]]; [lia|].
      intros tm s. unfold then_, play_all. cbn [seq_play].
      destruct (play env x (tm - elapsed q) s) as [e1 s1].
      replace (tm + (elapsed q1 - elapsed q) - elapsed q1) with (tm - elapsed q) by lia.
      destruct (seq_play (fun x s0 => play env x (tm - elapsed q) s0) l s1) as [e2 s2]. cbn. auto.
Qed.

Lemma iterate_shift F a n : forall off len s,
  iterate (fun o s => F (o - a) s) n off len s = iterate F n (off - a) len s.
Proof.
  induction n as [|n IH]; intros off len s; [reflexivity|]. cbn [iterate].
  destruct (F (off - a) s) as [e1 s1]. rewrite IH.
  replace (off + len - a) with (off - a + len) by lia. reflexivity.
Qed.

Lemma eqon_refl (Bp : nat -> Prop) f : eqon Bp f f.
Proof. intros t s. auto. Qed.

Lemma node_all : forall n, NodeP n.
Proof.
  apply pnode_ind2.
  - (* operation *)
    intros t k fuel r q res Hok HW H0 H. destruct fuel as [|f]; [discriminate|]. cbn [flat app parse] in H.
    destruct (wait_till t (is_idle k) q) as [q1|e] eqn:Hw; [|discriminate]. cbn [bind] in H.
    destruct (do_op k q1) as [q2|e] eqn:Ho; [|discriminate]. cbn [bind] in H.
    destruct (op_node_ok t k q q1 q2 Hok HW H0 Hw Ho) as [c1 [G1 [Hmono [HE [R1 _]]]]].
    exists f, q2, c1. split; [exact G1|]. split; [exact Hmono|]. split; [apply R1; exact I|exact H].
  - (* loop *)
    intros t n body te IHb fuel r q res Hok HW H0 H. apply forest_of in IHb.
    cbn [node_ok] in Hok. rewrite !andb_true_iff, !Z.leb_le, !Z.ltb_lt in Hok.
    destruct Hok as [[[[HT HTe] Hn1] Hn2] Hbody].
    destruct fuel as [|f]; [discriminate|]. cbn [flat app parse] in H.
    destruct (wait_till t false q) as [q1|e] eqn:Hw; [|discriminate]. cbn [bind] in H.
    destruct (wait_till_ok t false q q1 HW HT H0 Hw) as [Hid [cw [G1 [R1 _]]]]. specialize (Hid eq_refl).
    rewrite Z.max_r in G1, R1 by lia. pose proof (Gen_elapsed _ _ _ _ G1) as E1. pose proof (Gen_WF _ _ _ _ _ G1 HW) as W1.
    match type of H with (do _ <- ?a; _) = _ => destruct a as [[rest' q2]|e] eqn:HL; [|discriminate] end. cbn [bind] in H.
    destruct (with_loop_ok S0 env B _ _ _ _ _ _ W1 (conj Hn1 Hn2) HL) as [rr [rest [qb [qe [Hav [Hi [Hs [Hav2 [Hnrt [HWb [Hpb Hall]]]]]]]]]]].
    assert (Eb : elapsed qb = t) by (unfold elapsed in *; rewrite Hs; simpl; lia).
    rewrite <- app_assoc in Hpb.
    destruct (IHb f _ qb _ Hbody HWb ltac:(lia) Hpb) as [f1 [qm [cb [Gb [Mb [Rb Hm]]]]]].
    destruct f1 as [|f1]; [discriminate|]. cbn [parse app] in Hm.
    destruct (wait_till te false qm) as [qe'|e] eqn:Hwe; [|discriminate]. cbn [bind] in Hm. injection Hm as <- <-.
    pose proof (Gen_WF _ _ _ _ _ Gb HWb) as Wm.
    destruct (wait_till_ok te false qm qe' Wm HTe ltac:(lia) Hwe) as [Hide [ce [Ge [Re _]]]]. specialize (Hide eq_refl).
    rewrite Z.max_r in Ge, Re by lia.
    assert (GB : Gen qb qe' (cb ++ ce) (te - t)).
    { replace (te - t) with (elapsed qm - elapsed qb + (te - elapsed qm)) by lia. eapply Gen_trans; eauto. }
    assert (RB : BC None B qb (cb ++ ce) (te - t) (fun tm s => play_all env body (tm - t) s)).
    { eapply BC_ext; [| |eapply BC_app; [exact Gb|exact Rb|apply Re; exact I]]; [lia|].
      intros tm s. unfold then_, keep. rewrite Eb. destruct (play_all env body (tm - t) s) as [e1 s1]. cbn. rewrite app_nil_r. auto. }
    destruct (Hall (cb ++ ce) (te - t) (te - t) (fun tm s => play_all env body (tm - t) s) GB) as [HGL [_ HRL]].
    specialize (HRL None RB).
    assert (GL : Gen q1 q2 (IMove n rr :: ILabel (LLoop (List.length (ins q1))) :: (cb ++ ce) ++ [ILoop rr (LLoop (List.length (ins q1)))]) ((te - t) * n)).
    { apply HGL. split; [|discriminate]. intros m [Hm|Hm]; [injection Hm as <-; reflexivity|discriminate]. }
    pose proof (Gen_elapsed _ _ _ _ GL) as E2.
    assert (0 <= (te - t) * n) by (apply Z.mul_nonneg_nonneg; lia).
    exists f, q2. eexists. split; [|split; [lia|split; [|exact H]]].
    + replace (elapsed q2 - elapsed q) with ((t - elapsed q) + (te - t) * n) by lia. eapply Gen_trans; [exact G1|exact GL].
    + eapply BC_ext; [| |eapply BC_app; [exact G1|apply R1; exact I|exact HRL]]; [lia|].
      intros tm s. unfold then_, keep. cbn [play app].
      rewrite (iterate_shift (fun o s => play_all env body o s) t).
      replace (tm + (t - elapsed q) - t) with (tm - elapsed q) by lia. unfold play_all.
      destruct (iterate _ _ _ _ _) as [e2 s2]. cbn. auto.
  - (* conditional *)
    intros t a body te IHb fuel r q res Hok HW H0 H. clear IHb.
    cbn [node_ok] in Hok. rewrite !andb_true_iff, !Z.leb_le in Hok.
    rewrite !Nat.leb_le in Hok. destruct Hok as [[[[[[Ha1 Ha2] HT] HTe] Hlen] Hgaps] Hbody]. pose proof (conj Ha1 Ha2) as Ha.
    destruct fuel as [|f]; [discriminate|]. cbn [flat app parse] in H.
    destruct (wait_till t false q) as [q1|e] eqn:Hw; [|discriminate]. cbn [bind] in H.
    destruct (wait_till_ok t false q q1 HW HT H0 Hw) as [Hid [cw [G1 [R1 _]]]]. specialize (Hid eq_refl).
    rewrite Z.max_r in G1, R1 by lia. pose proof (Gen_elapsed _ _ _ _ G1) as E1. pose proof (Gen_WF _ _ _ _ _ G1 HW) as W1.
    match type of H with (do _ <- ?x; _) = _ => destruct x as [[rest' q2]|e] eqn:HC; [|discriminate] end. cbn [bind] in H.
    unfold with_conditional in HC. destruct (lock q1); [discriminate|].
    set (qs := set_nrt 0 (emit (ISetCond (cond_mask a) OpOR MINOP) (set_lock true q1))) in *. cbv zeta in HC.
    assert (Gs : Gen q1 qs [ISetCond (cond_mask a) OpOR MINOP] 0) by exact (Gen_emit q1 (ISetCond (cond_mask a) OpOR MINOP) (WF_ne _ _ W1) I).
    pose proof (Gen_WF _ _ _ _ _ Gs W1) as Ws. pose proof (Gen_elapsed _ _ _ _ Gs) as Es.
    match type of HC with (do _ <- ?x; _) = _ => destruct x as [[rest2 qb]|e] eqn:HB; [|discriminate] end. cbn [bind] in HC.
    rewrite <- app_assoc in HB. cbn [app] in HB.
    assert (Ets : elapsed qs = t) by lia.
    destruct (cond_body_ok te HTe body f r qs _ Hbody ltac:(rewrite Ets; exact Hgaps) ltac:(lia) Ws ltac:(lia) HB)
      as [qb' [cb [Gb [Hres [Hle [Rb [Kb [Hc1 Hc2]]]]]]]].
    injection Hres as -> <-. pose proof (Gen_WF _ _ _ _ _ Gb Ws) as Wb. pose proof (Gen_elapsed _ _ _ _ Gb) as Eb.
    assert (Hn0 : nrt qs = 0) by reflexivity. rewrite Hn0 in *.
    set (qi := emit (ISetCond (cond_mask a) (invert_op OpOR) MINOP) qb) in *.
    pose proof (Gen_emit qb (ISetCond (cond_mask a) (invert_op OpOR) MINOP) (WF_ne _ _ Wb) I) as Gi. fold qi in Gi.
    pose proof (Gen_WF _ _ _ _ _ Gi Wb) as Wi.
    set (dur := elapsed qb - elapsed qs - MINOP * nrt qb + MINOP) in *.
    destruct (auto_wait dur false qi) as [qw|e] eqn:Hdw; [|discriminate]. cbn [bind] in HC. injection HC as <- <-.
    assert (Hdur : dur = te - t - 4 * nrt qb + 4) by (unfold dur, MINOP; lia).
    destruct (auto_wait_ok S0 env B dur false qi qw Wi ltac:(unfold TMAX in *; lia) Hdw) as [_ [cd [Gd [Rd Kd]]]].
    destruct (Kd ltac:(unfold MAXW; lia)) as [Kd1 Kd2].
    destruct (dur =? 0) eqn:Ed0; [apply Z.eqb_eq in Ed0; lia|]. rewrite Kd2 in Kd1.
    replace (4 * (nrt qi + 1 - nrt qi)) with 4 in Kd1 by lia.
    pose proof (Gen_WF _ _ _ _ _ Gd Wi) as Ww.
    set (qf := set_lock false (set_nrt 0 (add_elapsed MINOP (emit ISetCondOff qw)))) in *.
    assert (Gf : Gen qw qf [ISetCondOff] 4).
    { eapply Gen_conv; [| | | | | |exact (Gen_emit_d qw ISetCondOff 4 (WF_ne _ _ Ww) I)]; reflexivity. }
    pose proof (Gen_trans _ _ _ _ _ _ _ G1 (Gen_trans _ _ _ _ _ _ _ Gs (Gen_trans _ _ _ _ _ _ _ Gb (Gen_trans _ _ _ _ _ _ _ Gi (Gen_trans _ _ _ _ _ _ _ Gd Gf))))) as GG.
    pose proof (Gen_elapsed _ _ _ _ GG) as EG.
    exists f, qf. eexists. split; [|split; [lia|split; [|exact H]]].
    + match type of GG with Gen _ _ _ ?E => replace (elapsed qf - elapsed q) with E by lia end. exact GG.
    + assert (HBr : forall b, Blk S0 None None (av q) B (List.length (ins q))
        (cw ++ [ISetCond (cond_mask a) OpOR MINOP] ++ cb ++ [ISetCond (cond_mask a) (invert_op OpOR) MINOP] ++ cd ++ [ISetCondOff]) env (elapsed qf - elapsed q)
        (fun tm s => play env (PCond t a body te) (tm - elapsed q) s) (fun s => env (kcond s) a = b)).
      { intros b.
        assert (A1 : ins q1 = ins q ++ cw) by apply G1.
        assert (As : ins qs = ins q1 ++ [ISetCond (cond_mask a) OpOR MINOP]) by apply Gs.
        assert (Ab : ins qb = ins qs ++ cb) by apply Gb.
        assert (Ai : ins qi = ins qb ++ [ISetCond (cond_mask a) (invert_op OpOR) MINOP]) by apply Gi.
        assert (Ad : ins qw = ins qi ++ cd) by apply Gd.
        assert (P1 : incl (av q1) (av q)) by (intros y Hy; eapply Permutation_in; [apply G1|exact Hy]).
        assert (Ps : incl (av qs) (av q)) by (intros y Hy; apply P1; exact Hy).
        assert (Pi : incl (av qi) (av q)) by (intros y Hy; apply Ps; eapply Permutation_in; [apply Gb|exact Hy]).
        set (Pb := fun s : sst => env (kcond s) a = b).
        assert (Hpe : forall (tm : Z) off s, Pb s -> kcond s = kcond (snd (if b then play_all env body off s else ([], fold_left (fun s x => skip_node x s) body s))) ).
        { intros _ off s _. clear - Hbody. revert s. assert (Hbm : forall bb s, kcond (bump_bin bb s) = kcond s) by (intros [z|z] s; reflexivity).
          assert (Hon : forall k s, kcond (op_next k s) = kcond s) by (intros k s; destruct k; cbn; auto).
          destruct b; cbn [snd].
          - unfold play_all. induction body as [|x body IH]; intros s; [reflexivity|].
            cbn [forallb] in Hbody. destruct x as [t k| |]; try discriminate. apply andb_true_iff in Hbody. destruct Hbody as [_ Hb].
            cbn [seq_play play]. specialize (IH Hb (op_next k s)). destruct (seq_play _ body (op_next k s)) as [e2 s2]. cbn in *. rewrite <- IH. symmetry. apply Hon.
          - induction body as [|x body IH]; intros s; [reflexivity|].
            cbn [forallb] in Hbody. destruct x as [t k| |]; try discriminate. apply andb_true_iff in Hbody. destruct Hbody as [_ Hb].
            cbn [fold_left skip_node]. rewrite <- (IH Hb). symmetry. apply Hon. }
        (* body block in the mode selected by b *)
        assert (HBody : Blk S0 (Some (b, 4)) (Some (b, 4)) (av q) B (List.length (ins qs)) cb env (if b then te - t else 4 * nrt qb)
                  (fun tm s => if b then play_all env body (tm - t) s else ([], fold_left (fun s x => skip_node x s) body s)) any).
        { destruct b.
          - rewrite <- Ets. eapply blk_weaken; [exact Ps|]. apply (Rb (Some (true, 4)) I).
          - eapply blk_weaken; [exact Ps|]. replace (4 * nrt qb) with (4 * (nrt qb - 0)) by lia. exact Kb. }
        assert (HWt : Blk S0 (Some (negb b, 4)) (Some (negb b, 4)) (av q) B (List.length (ins qi)) cd env (if b then 4 else dur) keep any).
        { destruct b; cbn [negb]; eapply blk_weaken; try exact Pi; [exact Kd1 | apply (Rd (Some (true, 4)) I)]. }
        eapply blk_ext; [intros s Hs; exact Hs| |].
        2:{ replace (elapsed qf - elapsed q) with ((t - elapsed q) + (0 + ((if b then te - t else 4 * nrt qb) + (0 + ((if b then 4 else dur) + 0))))) by (destruct b; lia).
            apply blk_app with (c1 := None) (Q := Pb) (P := Pb) (f := keep); [| |apply blk_app with (c1 := Some (b, 4)) (Q := Pb) (P := Pb) (f := keep); [| |apply blk_app with (c1 := Some (b, 4)) (Q := Pb) (P := Pb) (f := fun tm s => if b then play_all env body (tm - t) s else ([], fold_left (fun s x => skip_node x s) body s)); [| |apply blk_app with (c1 := Some (negb b, 4)) (Q := any) (P := Pb) (f := keep); [| |apply blk_app with (c1 := Some (negb b, 4)) (Q := any) (P := any) (f := keep)]]]].
            - intros tm s Hs. exact Hs.
            - eapply blk_ext; [| |apply (R1 None I)]; [intros s Hs; exact I|]. intros tm s _. apply (eqon_refl B keep).
            - intros tm s Hs. exact Hs.
            - rewrite <- (app_length (ins q) cw), <- A1. apply (blk_setcond S0 None (av q) B _ a OpOR MINOP env b Ha).
            - intros tm s Hs. unfold Pb in *. rewrite <- (Hpe tm (tm - t) s Hs). exact Hs.
            - rewrite <- (app_length (ins q) cw), <- A1, <- (app_length (ins q1)), <- As.
              eapply blk_ext; [| |exact HBody]; [intros s Hs; exact I|]. intros tm s _.
              split; [reflexivity|]. split; reflexivity.
            - intros tm s Hs. exact I.
            - rewrite <- (app_length (ins q) cw), <- A1, <- (app_length (ins q1)), <- As, <- (app_length (ins qs)), <- Ab.
              pose proof (blk_setcond S0 (Some (b, 4)) (av q) B (List.length (ins qb)) a (invert_op OpOR) MINOP env b Ha) as HSC.
              exact HSC.
            - intros tm s Hs. exact I.
            - rewrite <- (app_length (ins q) cw), <- A1, <- (app_length (ins q1)), <- As, <- (app_length (ins qs)), <- Ab, <- (app_length (ins qb)), <- Ai. exact HWt.
            - rewrite <- (app_length (ins q) cw), <- A1, <- (app_length (ins q1)), <- As, <- (app_length (ins qs)), <- Ab, <- (app_length (ins qb)), <- Ai, <- (app_length (ins qi)), <- Ad.
              apply blk_condoff. }
        intros tm s Hs. unfold then_, keep. cbn [play]. rewrite Hs.
        replace (tm + (t - elapsed q) + 0 - t) with (tm - elapsed q) by lia.
        unfold play_all. destruct b.
        - destruct (seq_play _ body s) as [e2 s2]. cbn. rewrite app_nil_r. auto.
        - cbn. auto. }
      intros pre post s st Hpre HLab Hpc Hcnd Hkc Hbins _.
      exact (HBr (env (kcond s) a) pre post s st Hpre HLab Hpc Hcnd Hkc Hbins eq_refl).
Qed.

Lemma forest_ok l : ForestP l.
Proof. apply forest_of. apply Forall_forall. intros x _. apply node_all. Qed.

End Forest.
