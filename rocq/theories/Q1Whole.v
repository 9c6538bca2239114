(** The whole generated program. *)
From Coq Require Import Permutation Arith.
From Verif Require Import Base Q1Model Q1Machine Q1Spec Q1Blk Q1Gen Q1Ops Q1Forest.
Open Scope Z_scope.

Fixpoint set_bins (k : nat) (offs : list Z) (s : sst) : sst :=
  match offs with [] => s | o :: r => set_bins (S k) r (set_bin k o s) end.

Lemma set_bins_kcond offs : forall k s, kcond (set_bins k offs s) = kcond s.
Proof. induction offs as [|o r IH]; intros k s; [reflexivity|]. cbn [set_bins]. rewrite IH. reflexivity. Qed.

Lemma set_bins_bins offs : forall k s x,
  bins (set_bins k offs s) x = if (Nat.leb k x && Nat.ltb x (k + List.length offs))%bool then nth (x - k) offs 0 else bins s x.
Proof.
  induction offs as [|o r IH]; intros k s x.
  - cbn [set_bins List.length]. destruct (Nat.leb_spec k x); destruct (Nat.ltb_spec x (k + 0)); cbn; try reflexivity. lia.
  - cbn [set_bins List.length]. rewrite IH. cbn [set_bin bins]. unfold upd.
    destruct (Nat.eqb_spec x k).
    + subst x. destruct (Nat.leb_spec (S k) k); [lia|]. cbn [andb]. destruct (Nat.leb_spec k k); [|lia].
      destruct (Nat.ltb_spec k (k + S (List.length r))); [|lia]. rewrite Nat.sub_diag. reflexivity.
    + destruct (Nat.leb_spec (S k) x); destruct (Nat.leb_spec k x); try lia; cbn [andb]; [|reflexivity].
      destruct (Nat.ltb_spec x (S k + List.length r)); destruct (Nat.ltb_spec x (k + S (List.length r))); try lia; try reflexivity.
      replace (x - k)%nat with (S (x - S k)) by lia. reflexivity.
Qed.

Lemma init_bins_ok S0 env nb offs : forall q q' k m,
  Forall (fun o => 0 <= o < M32) offs -> av q = seq k m -> (k + List.length offs <= nb)%nat ->
  init_bins offs q = Ok q' ->
  exists code, ins q' = ins q ++ code /\ Forall nolab code /\ stk q' = stk q /\
    av q' = seq (k + List.length offs) (m - List.length offs) /\ lock q' = lock q /\
    Blk S0 None None [] (fun r => (r < nb)%nat) (List.length (ins q)) code env 0 (fun _ s => ([], set_bins k offs s)) any.
Proof.
  induction offs as [|o r IH]; intros q q' k m Ho Ha Hk H; cbn [init_bins] in H.
  - injection H as <-. exists []. rewrite app_nil_r, Nat.add_0_r, Nat.sub_0_r. repeat split; auto.
    eapply blk_ext; [intros s Hs; exact Hs| |apply blk_nil]. intros t s _. cbn. auto.
  - unfold alloc in H. rewrite Ha in H. destruct m as [|m]; cbn [seq] in H; [discriminate|]. cbn [bind] in H.
    inversion Ho as [|? ? Ho1 Ho2]; subst.
    destruct (IH (emit (IMove o k) (set_av (seq (S k) m) q)) q' (S k) m Ho2 eq_refl ltac:(cbn [List.length] in Hk; lia) H) as [code [H1 [H2 [H3 [H4 [H5 H6]]]]]].
    cbn [set_av emit ins stk lock] in *.
    exists ([IMove o k] ++ code). rewrite <- app_assoc in H1. split; [exact H1|]. split; [constructor; [exact I|exact H2]|].
    split; [exact H3|]. split; [rewrite H4; cbn [List.length]; f_equal; lia|]. split; [exact H5|].
    rewrite app_length in H6.
    eapply (blk_ext S0) with (P := any) (f := then_ 0 (fun _ s => ([], set_bin k o s)) (fun _ s => ([], set_bins (S k) r s))); [intros s Hs; exact Hs| |].
    + intros t s _. cbn. auto.
    + apply (blk_app S0 None None None [] (fun r0 : nat => (r0 < nb)%nat) _ _ _ env 0 0) with (Q := any).
      * intros; exact I.
      * apply blk_move; [cbn [List.length] in Hk; lia | exact Ho1].
      * exact H6.
Qed.

Lemma uses_cond_flat forest : uses_cond (flat_map flat forest) = existsb has_cond forest.
Proof.
  unfold uses_cond. induction forest as [|x r IH]; [reflexivity|]. cbn [flat_map existsb]. rewrite existsb_app, IH. reflexivity.
Qed.

Lemma nth_labs S0 pre code post : (forall i l, nth_error code i = Some (ILabel l) -> l <> LStart /\ LabAt 0 l (List.length pre + i)) ->
  (forall i l, nth_error pre i = Some (ILabel l) -> LabAt S0 l i) ->
  (forall i l, nth_error post i = Some (ILabel l) -> LabAt S0 l (List.length pre + List.length code + i)) ->
  LabelsOK S0 (pre ++ code ++ post).
Proof.
  intros Hc Hp Hq i l H. destruct (Nat.lt_ge_cases i (List.length pre)) as [Hi|Hi].
  - rewrite nth_error_app1 in H by exact Hi. apply Hp; exact H.
  - rewrite nth_error_app2 in H by exact Hi.
    destruct (Nat.lt_ge_cases (i - List.length pre) (List.length code)) as [Hj|Hj].
    + rewrite nth_error_app1 in H by exact Hj. destruct (Hc _ _ H) as [H1 H2].
      replace (List.length pre + (i - List.length pre))%nat with i in H2 by lia.
      destruct l; [congruence|exact H2|exact H2].
    + rewrite nth_error_app2 in H by exact Hj. specialize (Hq _ _ H).
      replace (List.length pre + List.length code + (i - List.length pre - List.length code))%nat with i in Hq by lia. exact Hq.
Qed.

Lemma nth_nolab code i l : Forall nolab code -> nth_error code i = Some (ILabel l) -> False.
Proof. intros H Hn. rewrite Forall_forall in H. apply nth_error_In in Hn. exact (H _ Hn). Qed.

Theorem whole_ok env mrk offs lat reps total forest p t0 :
  Forall (fun o => 0 <= o < M32) offs -> 1 <= reps < M32 -> 4 + lat <= TMAX -> total <= TMAX ->
  forallb (node_ok (List.length offs)) forest = true ->
  generate mrk offs lat reps total (flat_map flat forest) = Ok p ->
  0 <= 4 + lat /\
  Runs env p t0 (full_trace env mrk offs lat reps total forest t0) (first_rep t0 lat + reps * (total + 4)).
Proof.
  intros Hoffs Hreps Hlat Htot Hok H. set (nb := List.length offs) in *. set (B := fun r : nat => (r < nb)%nat).
  unfold generate in H. rewrite uses_cond_flat in H. set (cnd := existsb has_cond forest) in *.
  set (q1 := emit (IParam (PMrk mrk)) q0) in *.
  set (q2 := if cnd then emit (IParam (PLatchEn 1 4)) q1 else q1) in *.
  set (q3 := emit (IRT RUpd MINOP) (emit (IRT RWaitSync MINOP) q2)) in *. cbv zeta in H.
  destruct (init_bins offs q3) as [q4|e] eqn:Hib; [|discriminate]. cbn [bind] in H.
  destruct (auto_wait (MINOP + lat) false q4) as [q5|e] eqn:Haw; [|discriminate]. cbn [bind] in H.
  match type of H with (do _ <- ?a; _) = _ => destruct a as [[u q6]|e] eqn:HL; [|discriminate] end. cbn [bind] in H.
  injection H as <-.
  set (S0 := S (List.length (ins q5))).
  set (hd := [IParam (PMrk mrk)] ++ (if cnd then [IParam (PLatchEn 1 4)] else []) ++ [IRT RWaitSync MINOP] ++ [IRT RUpd MINOP]).
  assert (I3 : ins q3 = hd) by (unfold q3, q2, hd; destruct cnd; reflexivity).
  assert (V3 : av q3 = seq 0 64) by (unfold q3, q2; destruct cnd; reflexivity).
  assert (T3 : stk q3 = [0]) by (unfold q3, q2; destruct cnd; reflexivity).
  destruct (init_bins_ok S0 env nb offs q3 q4 0 64 Hoffs V3 ltac:(unfold nb; lia) Hib) as [ci [I4 [N4 [T4 [V4 [_ R4]]]]]].
  set (fin := fun (_ : Z) s => ([] : list (Z * event), {| bins := fun r => nth r offs 0; kcond := kcond s |})).
  assert (R4' : Blk S0 None None [] B (List.length (ins q3)) ci env 0 fin any).
  { eapply blk_ext; [intros s Hs; exact Hs| |exact R4]. intros t s _. cbn [fin fst snd]. rewrite set_bins_kcond.
    split; [reflexivity|]. split; [reflexivity|]. intros r Hr. unfold B, nb in Hr. rewrite set_bins_bins. cbn [bins].
    destruct (Nat.ltb_spec r (0 + List.length offs)); [|lia]. cbn [Nat.leb andb]. rewrite Nat.sub_0_r. reflexivity. }
  assert (W4 : WF B q4).
  { split; [rewrite V4; apply seq_NoDup|]. split; [|rewrite T4, T3; discriminate].
    intros r Hr. rewrite V4 in Hr. apply in_seq in Hr. unfold B, nb. lia. }
  destruct (auto_wait_ok S0 env B _ false q4 q5 W4 Hlat Haw) as [Hlpos [cw [G5 [R5 _]]]]. cbv iota in G5.
  split; [exact Hlpos|].
  pose proof (Gen_WF _ _ _ _ _ G5 W4) as W5. pose proof (Gen_elapsed _ _ _ _ G5) as E5.
  assert (E4 : elapsed q4 = 0) by (unfold elapsed; rewrite T4, T3; reflexivity).
  destruct (with_loop_ok S0 env B _ _ _ _ _ _ W5 Hreps HL) as [rr [rest [qb [qe [Hav [Hi [Hs [Hav2 [_ [HWb [Hpb Hall]]]]]]]]]]].
  cbv beta in Hpb. set (qa := emit (IRT RUpd MINOP) (emit (IParam PResetPh) qb)) in *.
  assert (Ga : Gen qb qa ([IParam PResetPh] ++ [IRT RUpd MINOP]) (0 + 0)).
  { pose proof (Gen_emit qb (IParam PResetPh) (WF_ne _ _ HWb) I) as g1.
    eapply Gen_trans; [exact g1|]. apply (Gen_emit _ (IRT RUpd MINOP)); [|exact I]. exact (WF_ne _ _ HWb). }
  pose proof (Gen_WF _ _ _ _ _ Ga HWb) as Wa. pose proof (Gen_elapsed _ _ _ _ Ga) as Ea.
  assert (Eb : elapsed qb = 0) by (unfold elapsed in *; rewrite Hs; cbn [fold_right]; lia).
  match type of Hpb with (do _ <- ?a; _) = _ => destruct a as [[u' qp]|e] eqn:HP; [|discriminate] end. cbn [bind] in Hpb.
  assert (HP' : parse (S (List.length (flat_map flat forest))) (flat_map flat forest ++ []) qa = Ok (u', qp)) by (rewrite app_nil_r; exact HP).
  destruct (forest_ok S0 env nb forest _ [] qa _ Hok Wa ltac:(lia) HP') as [f' [qp' [cf [Gf [Mf [Rf Hf]]]]]].
  destruct f' as [|f']; [discriminate|]. cbn [parse] in Hf. injection Hf as <- <-.
  destruct (total - elapsed qp' <? 0) eqn:Et; [discriminate|]. apply Z.ltb_ge in Et.
  destruct (auto_wait (total - elapsed qp') true qp') as [qc|e] eqn:Hac; [|discriminate]. cbn [bind] in Hpb. injection Hpb as <- <-.
  pose proof (Gen_WF _ _ _ _ _ Gf Wa) as Wp.
  destruct (auto_wait_ok S0 env B (total - elapsed qp') true qp' qc Wp ltac:(lia) Hac) as [_ [cc [Gc [Rc _]]]]. cbv iota in Gc.
  set (body := ([IParam PResetPh] ++ [IRT RUpd MINOP]) ++ cf ++ cc).
  pose proof (Gen_trans _ _ _ _ _ _ _ Ga (Gen_trans _ _ _ _ _ _ _ Gf Gc)) as GB. fold body in GB.
  assert (RB : BC S0 env None B qb body (total + 4) (one_run env forest)).
  { eapply BC_ext; [| |eapply BC_app; [exact Ga| |eapply BC_app; [exact Gf|exact Rf|apply (Rc None I)]]].
    3:{ eapply BC_app; [apply (Gen_emit qb (IParam PResetPh) (WF_ne _ _ HWb) I) | apply BC_param; exact I | apply (BC_rt S0 env None B _ RUpd MINOP I I)]. }
    - unfold MINOP. lia.
    - intros t s. unfold then_, keep, one_run, param_fun, rt_fun. cbn [fst snd app rt_event map].
      replace (t + (0 + MINOP) - elapsed qa) with (t + 4) by (unfold MINOP; lia).
      destruct (play_all env forest (t + 4) s) as [e1 s1]. cbn. rewrite app_nil_r, Z.add_0_r. auto. }
  destruct (Hall body _ (total + 4) (one_run env forest) GB) as [_ [I6 HRL]]. specialize (HRL None RB).
  cbn [emit ins]. rewrite I6.
  assert (I5 : ins q5 = ins q4 ++ cw) by apply G5.
  set (lp := IMove reps rr :: ILabel LStart :: body ++ [ILoop rr LStart]) in *.
  set (p := (ins q5 ++ lp) ++ [IStop]).
  assert (Hlabs : LabelsOK S0 p).
  { unfold p, lp. replace ((ins q5 ++ IMove reps rr :: ILabel LStart :: body ++ [ILoop rr LStart]) ++ [IStop])
      with ((ins q5 ++ [IMove reps rr; ILabel LStart]) ++ body ++ [ILoop rr LStart; IStop])
      by (rewrite <- !app_assoc; cbn [app]; rewrite <- app_assoc; reflexivity).
    apply nth_labs.
    - destruct GB as [_ [LB _]]. rewrite <- Hi. exact LB.
    - intros i l Hn. destruct (Nat.lt_ge_cases i (List.length (ins q5))) as [Hlt|Hge].
      + rewrite nth_error_app1 in Hn by exact Hlt. rewrite I5, I4, I3 in Hn.
        destruct (Nat.lt_ge_cases i (List.length (hd ++ ci))) as [Hlt2|Hge2].
        * rewrite nth_error_app1 in Hn by exact Hlt2. exfalso. eapply (nth_nolab (hd ++ ci)); [|exact Hn].
          apply Forall_app. split; [|exact N4]. unfold hd. destruct cnd; repeat constructor.
        * rewrite nth_error_app2 in Hn by exact Hge2. destruct G5 as [_ [LW _]]. destruct (LW _ _ Hn) as [L1 L2].
          rewrite I4, I3 in L2. replace (List.length (hd ++ ci) + (i - List.length (hd ++ ci)))%nat with i in L2 by lia.
          destruct l; [congruence|exact L2|exact L2].
      + rewrite nth_error_app2 in Hn by exact Hge. destruct (i - List.length (ins q5))%nat as [|[|k]] eqn:Ek; cbn in Hn; try discriminate.
        * injection Hn as <-. unfold S0. cbn. lia.
        * destruct k; discriminate.
    - intros i l Hn. destruct i as [|[|i]]; cbn in Hn; try discriminate. destruct i; discriminate. }
  (* header *)
  assert (RH : Blk S0 None None (seq 0 64) B 0 hd env (0 + (0 + (4 + 4)))
     (then_ 0 (param_fun (PMrk mrk)) (then_ 0 (fun t s => ((if cnd then [(t, EParam (PLatchEn 1 4))] else []), s)) (then_ 4 (rt_fun RWaitSync) (rt_fun RUpd)))) any).
  { unfold hd. apply (blk_app S0 None None None) with (Q := any); [intros; exact I|apply blk_param; exact I|].
    apply (blk_app S0 None None None) with (Q := any); [intros; exact I| |].
    - destruct cnd; [apply (blk_ext S0) with (P := any) (f := param_fun (PLatchEn 1 4)) | apply (blk_ext S0) with (P := any) (f := keep)];
        try (intros s Hs'; exact Hs'); try (intros t s _; cbn; auto); [apply blk_param; exact I|apply blk_nil].
    - apply (blk_app S0 None None None) with (Q := any); [intros; exact I|apply (blk_rt S0 None _ B _ RWaitSync 4); exact I|].
      apply (blk_rt S0 None _ B _ RUpd 4); exact I. }
  assert (RALL : Blk S0 None None (seq 0 64) B 0 (hd ++ ci ++ cw ++ lp) env
      (0 + (0 + (4 + 4)) + (0 + (MINOP + lat + (total + 4) * reps)))
      (then_ (0 + (0 + (4 + 4))) (then_ 0 (param_fun (PMrk mrk)) (then_ 0 (fun t s => ((if cnd then [(t, EParam (PLatchEn 1 4))] else []), s)) (then_ 4 (rt_fun RWaitSync) (rt_fun RUpd))))
        (then_ 0 fin (then_ (MINOP + lat) keep (fun t s => iterate (one_run env forest) (Z.to_nat reps) t (total + 4) s)))) any).
  { assert (Hincl4 : incl (av q4) (seq 0 64)).
    { intros x Hx. rewrite V4 in Hx. apply in_seq in Hx. apply in_seq. lia. }
    apply (blk_app S0 None None None) with (Q := any); [intros; exact I|exact RH|].
    apply (blk_app S0 None None None) with (Q := any); [intros; exact I| |].
    - rewrite I3 in R4'. eapply blk_weaken; [|exact R4']. intros x [].
    - apply (blk_app S0 None None None) with (Q := any); [intros; exact I| |].
      + specialize (R5 None I). rewrite I4, app_length, I3 in R5. eapply blk_weaken; [exact Hincl4|exact R5].
      + rewrite I5, I4, I3, !app_length in HRL. eapply blk_weaken; [|exact HRL].
        intros x Hx. apply Hincl4. eapply Permutation_in; [apply G5|exact Hx]. }
  assert (Hpeq : p = [] ++ (hd ++ ci ++ cw ++ lp) ++ [IStop]).
  { unfold p. rewrite I5, I4, I3. rewrite <- !app_assoc. reflexivity. }
  destruct (RALL [] [IStop] {| bins := fun _ => 0; kcond := 0 |} (m0 t0)) as [s' [E1 [P1 [T1 _]]]]; try reflexivity.
  { rewrite <- Hpeq. exact Hlabs. }
  rewrite <- Hpeq in E1. exists s'. split; [|split].
  - match type of E1 with steps _ _ _ ?e _ => match goal with |- steps _ _ _ ?e' _ => replace e' with e; [exact E1|] end end.
    unfold then_, keep, param_fun, rt_fun, fin. cbn [tm m0 fst snd app rt_event map kcond].
    unfold full_trace, header_events, first_rep, start_state. fold cnd.
    replace (t0 + (0 + (0 + (4 + 4))) + 0 + (MINOP + lat)) with (t0 + 8 + (4 + lat)) by (unfold MINOP; lia).
    destruct (iterate _ _ _ _ _) as [e2 s2]. cbn [fst app]. rewrite !Z.add_0_r.
    destruct cnd; reflexivity.
  - rewrite P1. rewrite Hpeq. cbn [app]. rewrite Nat.add_0_l. rewrite nth_error_app2 by lia. rewrite Nat.sub_diag. reflexivity.
  - rewrite T1. cbn [tm m0]. unfold first_rep, MINOP. lia.
Qed.
