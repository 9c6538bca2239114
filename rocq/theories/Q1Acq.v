(** C35: at least 300 ns between the acquisitions of a sequencer, when the schedule has no loops or conditionals. *)
From Coq Require Import Permutation Arith.
From Verif Require Import Base Q1Model Q1Machine Q1Spec Q1Blk Q1Gen Q1Ops Q1Forest Q1Whole Q1Props Q1Props2.
Open Scope Z_scope.

(** what matters of the generator's state: the clock and the last acquisition *)
Definition ne (q : qst) : Prop := stk q <> [].

Lemma ne_add d q : ne q -> ne (add_elapsed d q). Proof. unfold ne, add_elapsed. destruct (stk q); cbn; congruence. Qed.
Lemma ne_emit i q : ne q -> ne (emit i q). Proof. auto. Qed.
Lemma tacq_add d q : tacq (add_elapsed d q) = tacq q. Proof. unfold add_elapsed. destruct (stk q); reflexivity. Qed.
Lemma tacq_rt o q : tacq (emit_rt o q) = tacq q. Proof. unfold emit_rt. rewrite tacq_add. reflexivity. Qed.
Lemma ne_rt o q : ne q -> ne (emit_rt o q). Proof. intros H. apply ne_add. exact H. Qed.
Lemma elapsed_add d q : ne q -> elapsed (add_elapsed d q) = elapsed q + d.
Proof. unfold ne, elapsed, add_elapsed. destruct (stk q) eqn:E; [congruence|]. cbn. intros _. lia. Qed.

Lemma emit_wait_stk d q : ne q -> ne (emit_wait d true q) /\ elapsed (emit_wait d true q) = elapsed q + d.
Proof.
  intros H. split.
  - unfold emit_wait. apply (ne_add d (emit _ q)). exact H.
  - exact (elapsed_add d (emit (IRT RWait d) q) H).
Qed.
Lemma repeat_wait_stk n d : forall q, ne q -> ne (repeat_wait n d true q) /\ elapsed (repeat_wait n d true q) = elapsed q + Z.of_nat n * d.
Proof.
  induction n as [|n IH]; intros q H; [split; [exact H|cbn; lia]|]. cbn [repeat_wait].
  destruct (emit_wait_stk d q H) as [H1 H2]. destruct (IH _ H1) as [H3 H4]. split; [exact H3|]. rewrite H4, H2. lia.
Qed.

Lemma auto_wait_clock w q q' : ne q -> auto_wait w true q = Ok q' -> ne q' /\ elapsed q' = elapsed q + w.
Proof.
  intros Hne. unfold auto_wait. assert (HM : 0 < MAXW) by reflexivity. set (M := MAXW) in *. clearbody M. destruct (w =? 0) eqn:E0.
  { apply Z.eqb_eq in E0. intros H. injection H as <-. split; [exact Hne|lia]. }
  destruct (w <? 0) eqn:E1; [discriminate|]. apply Z.ltb_ge in E1. intros H.
  match type of H with (do q1 <- ?a; _) = _ => destruct a as [q1|] eqn:Ea; [|discriminate] end. cbn [bind] in H.
  pose proof (Z.div_mod w M ltac:(lia)) as Hdm.
  assert (0 <= w / M) by (apply Z.div_pos; [lia|lia]).
  assert (H1 : ne q1 /\ elapsed q1 = elapsed q + (if w >? M then M * (w / M) else 0)).
  { destruct (w >? M); [|injection Ea as <-; split; [exact Hne|lia]]. cbv zeta in Ea. destruct (w / M >? 4).
    - unfold with_loop in Ea. destruct (alloc q) as [[r qa]|] eqn:Eal; [|discriminate]. cbn [bind] in Ea.
      destruct (alloc_inv _ _ _ Eal) as [_ Hqa]. assert (Hst : stk qa = stk q) by (rewrite Hqa; reflexivity).
      match type of Ea with (do _ <- (do _ <- ?f; _); _) = _ => destruct f as [q4|] eqn:Ef; [|discriminate] end. cbn [bind] in Ea.
      destruct (free_inv _ _ _ Ef) as [_ ->]. unfold ne in Hne. destruct (stk q) as [|b cc] eqn:Eq; [congruence|].
      unfold emit_wait, add_elapsed in Ea. cbn [stk set_av emit set_stk set_nrt] in Ea. rewrite Hst in Ea. cbn [stk set_av emit set_stk set_nrt bind] in Ea. injection Ea as <-.
      unfold ne, elapsed. cbn [set_stk stk]. rewrite Eq. cbn [fold_right]. split; [discriminate|]. lia.
    - injection Ea as <-. destruct (repeat_wait_stk (Z.to_nat (w / M)) M q Hne) as [A B]. split; [exact A|]. rewrite B, Z2Nat.id by assumption. lia. }
  destruct H1 as [H1 H2]. pose proof (Z.mod_pos_bound w M HM).
  destruct (w >? M) eqn:Eg.
  - destruct (w mod M >? 0) eqn:E3; rewrite Z.gtb_ltb in E3; injection H as <-.
    + destruct (emit_wait_stk (w mod M) q1 H1) as [A B]. split; [exact A|lia].
    + apply Z.ltb_ge in E3. split; [exact H1|lia].
  - destruct (w >? 0) eqn:E3; rewrite Z.gtb_ltb in E3; injection H as <-.
    + destruct (emit_wait_stk w q1 H1) as [A B]. split; [exact A|lia].
    + apply Z.ltb_ge in E3. split; [exact H1|]. apply Z.eqb_neq in E0. lia.
Qed.

Ltac res_step H := match type of H with
  | (do _ <- ?a; _) = Ok _ => let E := fresh "E" in destruct a as [?|] eqn:E; [cbn [bind] in H|discriminate]
  | (let (_, _) := ?a in _) = Ok _ => destruct a
  | Ok _ = Ok _ => injection H as <-
  end.

Lemma alloc_keeps q r q' : alloc q = Ok (r, q') -> ne q -> ne q' /\ tacq q' = tacq q.
Proof. intros H Hne. destruct (alloc_inv _ _ _ H) as [_ ->]. split; [exact Hne|reflexivity]. Qed.
Lemma free_keeps r q q' : free r q = Ok q' -> ne q -> ne q' /\ tacq q' = tacq q.
Proof. intros H Hne. destruct (free_inv _ _ _ H) as [_ ->]. split; [exact Hne|reflexivity]. Qed.
Lemma bump_keeps b q : ne q -> ne (bump b q) /\ tacq (bump b q) = tacq q.
Proof. intros H. destruct b; split; auto. Qed.

Lemma tags_core_keeps idx b dur f0 f1 q q' : acq_tags_core idx b dur f0 f1 q = Ok q' -> ne q -> ne q' /\ tacq q' = tacq q.
Proof.
  unfold acq_tags_core. intros H Hne. res_step H. res_step H. apply (ne_rt (RAcqTags idx (opnd_of b) 1 f0)) in Hne.
  destruct (auto_wait_clock _ _ _ Hne E) as [A _]. split; [apply ne_rt; exact A|]. rewrite tacq_rt, (auto_wait_tacq _ _ _ _ E), tacq_rt. reflexivity.
Qed.

Lemma tags_keeps idx b dur f0 f1 q q' : acq_tags idx b dur f0 f1 q = Ok q' -> ne q -> ne q' /\ tacq q' = tacq q.
Proof.
  unfold acq_tags. intros H Hne. destruct b as [z|r]; [eapply tags_core_keeps; eauto|]. destruct (f0 =? f1).
  - res_step H. destruct a as [r0 q1]. destruct (alloc_keeps _ _ _ E Hne) as [A1 A2].
    res_step H. destruct (tags_core_keeps _ _ _ _ _ _ _ E0 A1) as [B1 B2]. res_step H. destruct (free_keeps _ _ _ E1 B1) as [C1 C2]. res_step H.
    split; [exact C1|]. cbn. rewrite C2, B2. cbn. exact A2.
  - res_step H. destruct a as [r0 q1]. destruct (alloc_keeps _ _ _ E Hne) as [A1 A2].
    res_step H. destruct a as [r1 q2]. destruct (alloc_keeps _ _ _ E0 A1) as [D1 D2].
    res_step H. destruct (tags_core_keeps _ _ _ _ _ _ _ E1 D1) as [B1 B2]. res_step H. destruct (free_keeps _ _ _ E2 B1) as [C1 C2].
    res_step H. destruct (free_keeps _ _ _ E3 C1) as [F1 F2]. res_step H.
    split; [exact F1|]. cbn. rewrite F2, C2, B2. cbn. congruence.
Qed.

Lemma insert_acq_tacq idx b p q q' : insert_acq idx b p q = Ok q' -> ne q ->
  ne q' /\ tacq q' = Some (elapsed q) /\ (forall tl, tacq q = Some tl -> 300 <= elapsed q - tl).
Proof.
  unfold insert_acq. intros H Hne.
  match type of H with (if negb ?c then _ else _) = _ => destruct c eqn:Ec; [cbn [negb] in H|discriminate] end.
  assert (H1 : forall tl, tacq q = Some tl -> 300 <= elapsed q - tl).
  { intros tl Ht. rewrite Ht in Ec. apply negb_true_iff, Z.ltb_ge in Ec. exact Ec. }
  set (q1 := set_tacq (Some (elapsed q)) q) in *. assert (N1 : ne q1) by exact Hne. assert (T1 : tacq q1 = Some (elapsed q)) by reflexivity. clearbody q1.
  assert (H2 : ne q' /\ tacq q' = tacq q1); [|destruct H2 as [H2 H3]; split; [exact H2|]; split; [congruence|exact H1]].
  destruct p as [|i0 i1|dur|dur f0 f1 [|]].
  - unfold acq_square in H. destruct b as [z|r]; injection H as <-.
    + split; [apply ne_rt; exact N1|apply tacq_rt].
    + split; [apply (ne_rt _ (emit INewline q1)); exact N1|]. cbn [emit bump tacq]. rewrite tacq_rt. reflexivity.
  - unfold acq_weighted in H. destruct b as [z|r].
    + injection H as <-. split; [apply ne_rt; exact N1|apply tacq_rt].
    + res_step H. destruct a as [r0 qa]. destruct (alloc_keeps _ _ _ E N1) as [A1 A2].
      res_step H. destruct a as [r1 qb]. destruct (alloc_keeps _ _ _ E0 A1) as [B1 B2]. res_step H.
      match type of E1 with free _ ?x = _ => assert (X1 : ne x) by (apply ne_add; exact B1); assert (X2 : tacq x = tacq q1) by (rewrite tacq_add; cbn; congruence) end.
      destruct (free_keeps _ _ _ E1 X1) as [C1 C2]. destruct (free_keeps _ _ _ H C1) as [D1 D2]. split; [exact D1|]. congruence.
  - unfold acq_ttl in H. res_step H. res_step H. assert (N2 : ne (emit_rt (RAcqTTL idx (opnd_of b) 1) q1)) by (apply ne_rt; exact N1).
    destruct (auto_wait_clock _ _ _ N2 E) as [A _]. destruct (bump_keeps b (emit_rt (RAcqTTL idx (opnd_of b) 0) a) (ne_rt _ _ A)) as [B1 B2].
    split; [exact B1|]. rewrite B2, tacq_rt, (auto_wait_tacq _ _ _ _ E), tacq_rt. reflexivity.
  - res_step H. res_step H. destruct (tags_keeps _ _ _ _ _ _ _ E N1) as [A B]. split; [exact A|exact B].
  - eapply tags_keeps; eauto.
Qed.

Definition is_acq (k : kind) : bool := match k with KAcq _ _ _ => true | _ => false end.

Lemma insert_qasm_tacq k q q' : insert_qasm k q = Ok q' -> ne q ->
  ne q' /\ tacq q' = (if is_acq k then Some (elapsed q) else tacq q) /\ (is_acq k = true -> forall tl, tacq q = Some tl -> 300 <= elapsed q - tl).
Proof.
  intros H Hne. destruct k as [|[p|]|w0 w1 g0 g1| |d|i b p]; cbn [insert_qasm is_acq] in *; try (injection H as <-).
  - auto using diff_false_true. split; [exact Hne|]. split; [reflexivity|discriminate].
  - split; [exact Hne|]. split; [reflexivity|discriminate].
  - split; [exact Hne|]. split; [reflexivity|discriminate].
  - unfold insert_pulse in H. match type of H with (if ?c then _ else _) = _ => destruct c; [discriminate|] end.
    destruct w0, w1; injection H as <-; (split; [apply ne_rt; exact Hne|]); (split; [rewrite tacq_rt; reflexivity|discriminate]).
  - split; [apply ne_rt; exact Hne|]. split; [apply tacq_rt|discriminate].
  - split; [apply ne_add; exact Hne|]. split; [rewrite tacq_add; reflexivity|discriminate].
  - destruct (insert_acq_tacq _ _ _ _ _ H Hne) as [A [B C]]. split; [exact A|]. split; [exact B|]. intros _. exact C.
Qed.

(** acquisition start times in a list of operations *)
Definition acq_times (ops : list sop) : list Z :=
  flat_map (fun o => match o with SOp t k => if is_acq k then [t] else [] | _ => [] end) ops.
Definition straight (o : sop) : bool := match o with SOp _ _ => true | _ => false end.

Inductive apart : list Z -> Prop :=
| apart_nil : apart []
| apart_cons t l : (forall t', In t' l -> t + 300 <= t') -> apart l -> apart (t :: l).

Lemma parse_apart fuel : forall ops q r, forallb straight ops = true -> ne q -> parse fuel ops q = Ok r ->
  apart (acq_times ops) /\ forall tl, tacq q = Some tl -> forall t', In t' (acq_times ops) -> tl + 300 <= t'.
Proof.
  induction fuel as [|f IH]; intros ops q r Hs Hne H; [discriminate|]. destruct ops as [|[t k|t n|t a|t] rest]; try discriminate.
  { split; [constructor|intros ? ? ? []]. }
  cbn [parse] in H. res_step H. rename a into q1. res_step H. rename a into q2. cbn [forallb straight] in Hs.
  assert (N1 : ne q1 /\ tacq q1 = tacq q /\ (is_idle k = false -> elapsed q1 = t)).
  { unfold wait_till in E. destruct (t - elapsed q >? 0) eqn:Eg.
    - destruct (auto_wait_clock _ _ _ Hne E) as [A B]. split; [exact A|]. split; [exact (auto_wait_tacq _ _ _ _ E)|]. intros _. lia.
    - rewrite Z.gtb_ltb in Eg. apply Z.ltb_ge in Eg. destruct (t - elapsed q <? 0) eqn:El; cbn [andb] in E.
      + destruct (is_idle k); [|discriminate]. injection E as <-. split; [exact Hne|]. split; [reflexivity|discriminate].
      + injection E as <-. apply Z.ltb_ge in El. split; [exact Hne|]. split; [reflexivity|]. intros _. lia. }
  destruct N1 as [N1 [T1 L1]]. unfold do_op in E0.
  assert (N1' : ne (if is_rt_io k then set_nrt (nrt q1 + 1) q1 else q1)) by (destruct (is_rt_io k); exact N1).
  destruct (insert_qasm_tacq _ _ _ E0 N1') as [N2 [T2 C2]].
  assert (Hel : elapsed (if is_rt_io k then set_nrt (nrt q1 + 1) q1 else q1) = elapsed q1) by (destruct (is_rt_io k); reflexivity).
  assert (Hta : tacq (if is_rt_io k then set_nrt (nrt q1 + 1) q1 else q1) = tacq q1) by (destruct (is_rt_io k); reflexivity).
  rewrite Hel, Hta in *. destruct (IH _ _ _ Hs N2 H) as [A1 A2]. unfold acq_times in *. cbn [flat_map].
  destruct (is_acq k) eqn:Ek.
  - assert (Ht : elapsed q1 = t) by (apply L1; destruct k; try discriminate; reflexivity). rewrite Ht in *.
    cbn [app]. specialize (C2 eq_refl). rewrite T1 in C2. split.
    + constructor; [|exact A1]. intros t' Ht'. exact (A2 t T2 t' Ht').
    + intros tl Htl t' [<-|Ht']; [specialize (C2 tl Htl); lia|]. specialize (C2 tl Htl). specialize (A2 t T2 t' Ht'). lia.
  - cbn [app]. split; [exact A1|]. intros tl Htl. apply A2. congruence.
Qed.

(** In a schedule without control flow, a program is generated only if any two acquisitions of the sequencer
    are scheduled (hence, by C15, executed) at least 300 ns apart. *)
Theorem C35_straight_line_acquisitions_apart_partial : forall mrk offs lat reps total ops p,
  forallb straight ops = true -> generate mrk offs lat reps total ops = Ok p -> apart (acq_times ops).
Proof.
  intros mrk offs lat reps total ops p Hs H. unfold generate in H.
  assert (Hi : forall offs q q', init_bins offs q = Ok q' -> ne q -> ne q').
  { clear. induction offs as [|o r IH]; intros q q' H Hne; cbn in H; [injection H as <-; exact Hne|]. res_step H. destruct a as [x q1].
    destruct (alloc_keeps _ _ _ E Hne) as [A _]. eapply IH; [exact H|]. exact A. }
  set (q3 := emit (IRT RUpd MINOP) _) in H. assert (N3 : ne q3) by (unfold q3; destruct (uses_cond ops); discriminate).
  clearbody q3. res_step H. rename a into q4. res_step H. rename a into q5. res_step H. unfold with_loop in E1.
  res_step E1. destruct a0 as [r1 qa]. res_step E1. res_step E3. destruct a1 as [rest qb].
  eapply (parse_apart _ _ _ _ Hs); [|exact E4]. destruct (alloc_inv _ _ _ E2) as [_ ->]. discriminate.
Qed.

Example C35_example : exists p, generate 0 [] 0 1 1000 [SOp 0 (KAcq 0 (BImm 0) ASquare); SOp 100 (KPulse (Some 0) None 1 1); SOp 300 (KAcq 0 (BImm 1) ASquare)] = Ok p.
Proof. eexists. vm_compute. reflexivity. Qed.
Example C35_example_rejected : generate 0 [] 0 1 1000 [SOp 0 (KAcq 0 (BImm 0) ASquare); SOp 299 (KAcq 0 (BImm 1) ASquare)] = Err ValueError.
Proof. vm_compute. reflexivity. Qed.
