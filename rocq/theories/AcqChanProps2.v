(** C23, acceptance: which schedules get acquisition indices at all. *)
From Coq Require Import Permutation.
From Verif Require Import Base UpdModel UpdProps AcqChanModel AcqChanProps.
Open Scope Z_scope.

(** The documented combinations of protocol and bin mode (docs/source/reference/acquisition_protocols). *)
Inductive Supported : proto -> bmode -> Prop :=
| S_int : forall p b, In p [SSBIntegrationComplex; WeightedIntegratedSeparated; NumericalSeparatedWeightedIntegration;
                            NumericalWeightedIntegration; ThresholdedAcquisition; WeightedThresholdedAcquisition; Timetag] ->
    In b [AVERAGE; APPEND] -> Supported p b
| S_count : forall p b, In p [TriggerCount; ThresholdedTriggerCount; DualThresholdedTriggerCount] -> In b [SUM; APPEND] -> Supported p b
| S_hist : Supported TriggerCount DISTRIBUTION
| S_trace : forall b, In b [AVERAGE; FIRST] -> Supported Trace b
| S_tags : Supported TimetagTrace APPEND.

(** all repetitions stored in one place / every repetition stored separately *)
Definition averaged (p : proto) (b : bmode) : bool :=
  match p, b with Trace, _ => false | _, (AVERAGE | SUM) => true | _, _ => false end.
Definition appended (b : bmode) : bool := match b with APPEND => true | _ => false end.

Definition o_proto (o : occ) := i_proto (o_info o).
Definition o_mode (o : occ) := i_mode (o_info o).
Definition is_explicit (o : occ) : bool := match i_index (o_info o) with Some _ => true | None => false end.

(** What a schedule must satisfy: supported protocols, one protocol and bin mode per channel, explicit indices of an averaging
    channel count 0, 1, 2, ... in time order, and a trace is alone on its channel. *)
Record Acceptable (x : tree) : Prop := {
  A_supported : forall o, In o (acquisitions x) -> Supported (o_proto o) (o_mode o);
  A_same : forall o o', In o (acquisitions x) -> In o' (acquisitions x) -> o_chan o = o_chan o' ->
     o_proto o = o_proto o' /\ o_mode o = o_mode o';
  A_explicit : forall c, (exists o, In o (on c (acquisitions x)) /\ averaged (o_proto o) (o_mode o) = true) ->
     let e := filter is_explicit (on c (acquisitions x)) in
     map (fun o => i_index (o_info o)) e = map (fun k => Some (Z.of_nat k)) (seq 0 (List.length e));
  A_trace : forall o, In o (acquisitions x) -> o_proto o = Trace -> on (o_chan o) (acquisitions x) = [o]
}.

Lemma supported_kinds o : Supported (o_proto o) (o_mode o) ->
  averaging o = averaged (o_proto o) (o_mode o) /\ appending o = appended (o_mode o).
Proof.
  unfold averaging, appending, o_proto, o_mode. destruct o as [p r n a]. cbn [o_info]. destruct (i_proto a), (i_mode a); intros H; inversion H; subst; cbn in *;
    try (split; reflexivity); try (exfalso; intuition congruence).
Qed.

Lemma istep_supported s o s' : istep s o = Ok s' -> Supported (o_proto o) (o_mode o).
Proof.
  unfold istep, step, o_proto, o_mode. destruct o as [p r n a]. cbn [o_info o_path o_reps o_num].
  match goal with |- context [do _ <- ?c; _] => destruct c as [[]|e]; [|discriminate] end. cbn [bind].
  destruct (i_proto a), (i_mode a); cbn -[getc]; intros H; try discriminate H;
    first [ apply S_hist | apply S_tags
          | solve [apply S_int; cbn; tauto] | solve [apply S_count; cbn; tauto] | solve [apply S_trace; cbn; tauto] ].
Qed.

Definition Next (dn : list occ) (o : occ) : Prop :=
  Supported (o_proto o) (o_mode o) /\
  (forall o', In o' (on (o_chan o) dn) -> o_proto o' = o_proto o /\ o_mode o' = o_mode o) /\
  (averaging o = true -> forall i, i_index (o_info o) = Some i -> i = Z.of_nat (count (o_chan o) dn)) /\
  (o_proto o = Trace -> on (o_chan o) dn = []).

Lemma step_accepts dn s o : Inv dn s -> Next dn o -> exists s', istep s o = Ok s'.
Proof.
  intros HI [HS [HL [HE HT]]]. unfold istep, step. fold (o_chan o).
  assert (Hlike : forall d, getc (o_chan o) (chans s) = Some d -> like d o).
  { intros d Hd. destruct (I_some _ _ HI _ _ Hd) as [o0 [r [E0 [F0 _]]]]. rewrite E0 in F0. inversion F0 as [|? ? [L0 L1] _]; subst.
    destruct (HL o0) as [A B]; [rewrite E0; left; reflexivity|]. unfold o_proto, o_mode in A, B. split; congruence. }
  match goal with |- context [do _ <- ?c; _] => assert (Hchk : c = Ok tt) end.
  { destruct (getc (o_chan o) (chans s)) as [d|]; [|reflexivity]. destruct (Hlike d eq_refl) as [A B].
    destruct (proto_eq_dec _ _); [|congruence]. destruct (bmode_eq_dec _ _); [reflexivity|congruence]. }
  rewrite Hchk. cbn [bind]. fold (averaging o). fold (appending o).
  assert (Hlist : binned o = true -> (match getc (o_chan o) (chans s) with Some d => d_coords d | None => CList [] end) = CList (flat_map new_coords (on (o_chan o) dn))).
  { intros Hb. destruct (getc (o_chan o) (chans s)) as [d|] eqn:Ed.
    - destruct (I_some _ _ HI _ _ Ed) as [o0 [r [E0 [F0 C0]]]]. rewrite E0 in F0. inversion F0 as [|? ? L0 _]; subst.
      rewrite (proj1 (like_binned _ _ o L0 (Hlike d eq_refl))), Hb in C0. exact C0.
    - rewrite (I_none _ _ HI _ Ed). reflexivity. }
  destruct (averaging o) eqn:Ea.
  - rewrite Hlist by (unfold binned; rewrite Ea; reflexivity).
    destruct (match i_index (o_info o) with Some i => negb (i =? _) | None => false end) eqn:Ei; [|eexists; reflexivity].
    exfalso. destruct (i_index (o_info o)) as [i|]; [|discriminate]. rewrite (HE eq_refl i eq_refl) in Ei. unfold count in Ei. rewrite Z.eqb_refl in Ei. discriminate.
  - destruct (appending o) eqn:Ep.
    + rewrite Hlist by (unfold binned; rewrite Ep; apply orb_true_r). eexists. reflexivity.
    + unfold averaging in Ea. unfold appending in Ep. unfold o_proto, o_mode in *.
      destruct (i_proto (o_info o)), (i_mode (o_info o)); try discriminate; try (eexists; reflexivity);
        try (exfalso; inversion HS; subst; cbn in *; intuition congruence).
      * destruct (getc (o_chan o) (chans s)) as [d|] eqn:Ed; [|eexists; reflexivity]. exfalso. destruct (I_some _ _ HI _ _ Ed) as [o0 [r [E0 _]]]. rewrite (HT eq_refl) in E0. discriminate.
      * destruct (getc (o_chan o) (chans s)) as [d|] eqn:Ed; [|eexists; reflexivity]. exfalso. destruct (I_some _ _ HI _ _ Ed) as [o0 [r [E0 _]]]. rewrite (HT eq_refl) in E0. discriminate.
Qed.

Lemma NoDup_app_l {A} (l l' : list A) : NoDup (l ++ l') -> NoDup l.
Proof. induction l as [|a l IH]; intros H; [constructor|]. cbn in H. inversion H; subst. constructor; [intros Hi; apply H2; apply in_app_iff; auto|auto]. Qed.

Lemma fold_accepts l : forall dn s, Inv dn s -> NoDup (map o_key (dn ++ l)) ->
  (forall pre o post, l = pre ++ o :: post -> Next (dn ++ pre) o) -> exists s', foldM istep l s = Ok s'.
Proof.
  induction l as [|o l IH]; intros dn s HI Hn HN; [eexists; reflexivity|]. cbn [foldM].
  destruct (step_accepts dn s o HI) as [s1 E]; [rewrite <- (app_nil_r dn); apply (HN [] o l eq_refl)|]. rewrite E. cbn [bind].
  change (o :: l) with ([o] ++ l) in Hn. rewrite app_assoc in Hn. apply (IH (dn ++ [o])); [|exact Hn|].
  - eapply step_inv; eauto. rewrite map_app in Hn. apply NoDup_app_l in Hn. exact Hn.
  - intros pre o' post ->. rewrite <- app_assoc. apply (HN (o :: pre) o' post). reflexivity.
Qed.

Lemma is_explicit_sel o : sel true (o_info o) = is_explicit o.
Proof. unfold sel, is_explicit. destruct (i_index (o_info o)); reflexivity. Qed.

Lemma filter_swap {A} (f g : A -> bool) l : filter f (filter g l) = filter g (filter f l).
Proof. induction l as [|a l IH]; [reflexivity|]. cbn. destruct (f a) eqn:Ef, (g a) eqn:Eg; cbn; rewrite ?Ef, ?Eg, IH; reflexivity. Qed.

Lemma app_prefix {A} (a b l1 l2 : list A) : a ++ b = l1 ++ l2 ->
  (exists m, l1 = a ++ m /\ b = m ++ l2) \/ (exists m, a = l1 ++ m /\ l2 = m ++ b).
Proof.
  revert l1. induction a as [|x a IH]; intros [|y l1] H; cbn in *.
  - left. exists []. auto.
  - left. exists (y :: l1). auto.
  - right. exists (x :: a). auto.
  - injection H as -> H. destruct (IH l1 H) as [[m [-> ->]]|[m [-> ->]]]; [left|right]; exists m; auto.
Qed.

(** *** C23: exactly the acceptable schedules compile; all others are rejected with ValueError. *)
Theorem C23_accepted_iff : forall x, unique_labels x -> ((exists s, generate_acq x = Ok s) <-> Acceptable x).
Proof.
  intros x HU. pose proof (explicit_first_perm x) as HP.
  assert (Hnd : NoDup (map o_key (explicit_first x))).
  { eapply Permutation_NoDup; [apply Permutation_map; symmetry; exact HP|]. apply occs_nodup. exact HU. }
  split.
  - intros [s H].
    assert (HSup : forall o, In o (acquisitions x) -> Supported (o_proto o) (o_mode o)).
    { intros o Ho. rewrite generate_fold in H. assert (Hin : In o (explicit_first x)) by (eapply Permutation_in; [symmetry; exact HP|exact Ho]).
      clear - H Hin. revert H Hin. generalize state0. generalize (explicit_first x). intros l. induction l as [|o' l IH]; intros st H Hin; [destruct Hin|].
      cbn [foldM] in H. destruct (istep st o') as [s1|e] eqn:E; [|discriminate]. cbn [bind] in H. destruct Hin as [->|Hin]; [eapply istep_supported; exact E|eapply IH; eauto]. }
    destruct (C23_acquisition_indices x s HU H) as [C1 [_ [_ [_ C5]]]].
    split; [exact HSup|exact C1| |exact C5].
    intros c [o0 [Ho0 Ha0]] e. pose proof (generate_inv x s HU H) as HI.
    assert (Hav : forall o, In o (on c (acquisitions x)) -> averaging o = true).
    { intros o Ho. apply filter_In in Ho, Ho0. destruct Ho as [Ho Hc], Ho0 as [Ho0 Hc0]. apply Z.eqb_eq in Hc, Hc0.
      rewrite (proj1 (supported_kinds o (HSup o Ho))). destruct (C1 o o0 Ho Ho0 ltac:(congruence)) as [A B]. unfold o_proto, o_mode in *. rewrite A, B. exact Ha0. }
    assert (G : forall post pre, e = pre ++ post -> map (fun o => i_index (o_info o)) post = map (fun k => Some (Z.of_nat k)) (seq (List.length pre) (List.length post))).
    { induction post as [|o post IH]; intros pre He; [reflexivity|]. cbn [map List.length seq].
      assert (Hoe : In o e) by (rewrite He; apply in_app_iff; right; left; reflexivity).
      unfold e in Hoe. apply filter_In in Hoe. destruct Hoe as [Hon Hex].
      f_equal.
      - unfold is_explicit in Hex. destruct (i_index (o_info o)) as [i|] eqn:Ei; [|discriminate]. f_equal.
        assert (Hin : In o (explicit_first x)) by (eapply Permutation_in; [symmetry; exact HP|]; apply filter_In in Hon; tauto).
        (* locate o in the explicit part *)
        assert (Hloc : exists p q, filter is_explicit (acquisitions x) = p ++ o :: q /\ on c p = pre).
        { unfold e, on in He. rewrite filter_swap in He. clear - He.
          revert pre He. induction (filter is_explicit (acquisitions x)) as [|a l IHl]; intros pre He; [destruct pre; discriminate|].
          cbn [filter] in He. destruct (o_chan a =? c) eqn:Ec.
          - destruct pre as [|b pre]; cbn in He; injection He as -> He.
            + exists [], l. auto.
            + destruct (IHl pre He) as [p [q [-> Hp]]]. exists (b :: p), q. split; [reflexivity|]. unfold on. cbn [filter]. rewrite Ec. f_equal. exact Hp.
          - destruct (IHl pre He) as [p [q [-> Hp]]]. exists (a :: p), q. split; [reflexivity|]. unfold on. cbn [filter]. rewrite Ec. exact Hp. }
        destruct Hloc as [p [q [Hpq Hp]]].
        assert (Hef : explicit_first x = p ++ o :: (q ++ filter (fun o => sel false (o_info o)) (acquisitions x))).
        { unfold explicit_first. rewrite (filter_ext _ _ is_explicit_sel), Hpq, <- app_assoc. reflexivity. }
        rewrite (I_expl _ _ HI _ _ _ i Hef (Hav o Hon) Ei). f_equal. unfold count.
        assert (Hco : o_chan o = c) by (apply filter_In in Hon; destruct Hon as [_ Hon]; apply Z.eqb_eq in Hon; exact Hon).
        rewrite Hco, Hp.
        assert (Hpre : forall o', In o' pre -> averaging o' = true).
        { intros o' Ho'. apply Hav. assert (In o' e) by (rewrite He; apply in_app_iff; auto). unfold e in H0. apply filter_In in H0. tauto. }
        clear - Hpre. induction pre as [|a pre IHp]; [reflexivity|]. cbn [flat_map]. rewrite app_length, new_coords_length. unfold executions.
        rewrite (Hpre a (or_introl eq_refl)). cbn [List.length]. rewrite IHp; [reflexivity|]. intros o' Ho'. apply Hpre. right. exact Ho'.
      - specialize (IH (pre ++ [o]) ltac:(rewrite <- app_assoc; exact He)). rewrite app_length, Nat.add_1_r in IH. exact IH. }
    apply (G e []). reflexivity.
  - intros [A1 A2 A3 A4]. rewrite generate_fold. apply (fold_accepts _ [] _ Inv0 Hnd). cbn [app]. intros pre o post Hs.
    assert (Hmem : forall o', In o' (explicit_first x) -> In o' (acquisitions x)) by (intros o' Ho'; eapply Permutation_in; [exact HP|exact Ho']).
    assert (Ho : In o (acquisitions x)) by (apply Hmem; rewrite Hs; apply in_app_iff; right; left; reflexivity).
    assert (Hpre : forall o', In o' (on (o_chan o) pre) -> In o' (acquisitions x) /\ o_chan o' = o_chan o).
    { intros o' Ho'. apply filter_In in Ho'. destruct Ho' as [Ho' Hc]. apply Z.eqb_eq in Hc. split; [|exact Hc]. apply Hmem. rewrite Hs. apply in_app_iff. auto. }
    repeat apply conj.
    + exact (A1 o Ho).
    + intros o' Ho'. destruct (Hpre o' Ho') as [Hi Hc]. apply A2; assumption.
    + intros Ha i Hi.
      assert (Hav : averaged (o_proto o) (o_mode o) = true) by (rewrite <- (proj1 (supported_kinds o (A1 o Ho))); exact Ha).
      assert (HC : count (o_chan o) pre = List.length (on (o_chan o) pre)).
      { unfold count. assert (Hall : forall o', In o' (on (o_chan o) pre) -> averaging o' = true).
        { intros o' Ho'. destruct (Hpre o' Ho') as [Hi' Hc]. rewrite (proj1 (supported_kinds o' (A1 o' Hi'))). destruct (A2 o' o Hi' Ho Hc) as [-> ->]. exact Hav. }
        clear - Hall. induction (on (o_chan o) pre) as [|a l IHl]; [reflexivity|]. cbn [flat_map]. rewrite app_length, new_coords_length. unfold executions.
        rewrite (Hall a (or_introl eq_refl)). cbn [List.length]. rewrite IHl; [reflexivity|]. intros o' Ho'. apply Hall. right. exact Ho'. }
      rewrite HC.
      (* o is in the explicit part *)
      unfold explicit_first in Hs. rewrite (filter_ext _ _ is_explicit_sel) in Hs.
      destruct (app_prefix _ _ _ _ Hs) as [[m [Hm1 Hm2]]|[m [Hm1 Hm2]]].
      { exfalso. assert (In o (filter (fun o => sel false (o_info o)) (acquisitions x))) by (rewrite Hm2; apply in_app_iff; right; left; reflexivity).
        apply filter_In in H. destruct H as [_ H]. unfold sel in H. rewrite Hi in H. discriminate. }
      destruct m as [|o1 m]; cbn in Hm2.
      { exfalso. assert (In o (filter (fun o => sel false (o_info o)) (acquisitions x))) by (rewrite <- Hm2; left; reflexivity).
        apply filter_In in H. destruct H as [_ H]. unfold sel in H. rewrite Hi in H. discriminate. }
      injection Hm2 as <- Hm2.
      assert (He : filter is_explicit (on (o_chan o) (acquisitions x)) = on (o_chan o) pre ++ o :: on (o_chan o) m).
      { unfold on. rewrite filter_swap. change (filter (fun o0 : occ => o_chan o0 =? o_chan o) (filter is_explicit (acquisitions x))) with (on (o_chan o) (filter is_explicit (acquisitions x))).
        rewrite Hm1, on_app. change (o :: m) with ([o] ++ m). rewrite on_app, on_one_same. reflexivity. }
      pose proof (A3 (o_chan o)) as HA3. cbv zeta in HA3.
      assert (HA3' := HA3 ltac:(exists o; split; [apply filter_In; split; [exact Ho|apply Z.eqb_refl]|exact Hav])).
      rewrite He in HA3'.
      assert (E : nth_error (map (fun o0 => i_index (o_info o0)) (on (o_chan o) pre ++ o :: on (o_chan o) m)) (List.length (on (o_chan o) pre)) = Some (Some i)).
      { rewrite nth_error_map, nth_error_app2, Nat.sub_diag by lia. cbn. congruence. }
      rewrite HA3', nth_error_map, (nth_error_nth' _ 0%nat), seq_nth in E by (rewrite ?seq_length, app_length; cbn; lia). cbn in E. congruence.
    + intros Ht. pose proof (A4 o Ho Ht) as HA.
      assert (HPon : Permutation (on (o_chan o) (explicit_first x)) [o]) by (rewrite <- HA; apply perm_filter; exact HP).
      rewrite Hs, on_app in HPon. change (o :: post) with ([o] ++ post) in HPon. rewrite on_app, on_one_same in HPon.
      apply Permutation_length in HPon. rewrite !app_length in HPon. cbn [List.length] in HPon.
      destruct (on (o_chan o) pre); [reflexivity|]. cbn [List.length] in HPon. lia.
Qed.

Theorem C23_rejected_with_ValueError : forall x, unique_labels x -> ~ Acceptable x -> generate_acq x = Err ValueError.
Proof.
  intros x HU HN. destruct (generate_acq x) as [s|e] eqn:E.
  - exfalso. apply HN. apply C23_accepted_iff; eauto.
  - f_equal. rewrite generate_fold in E. apply (fold_error _ [] _ _ Inv0) in E; [exact E|]. cbn [app].
    eapply Permutation_NoDup; [apply Permutation_map; symmetry; apply explicit_first_perm|]. apply occs_nodup. exact HU.
Qed.

(** in an accepted schedule, "averaging" and "appending" acquisitions are those with the corresponding bin modes *)
Theorem C23_kinds : forall x s o, unique_labels x -> generate_acq x = Ok s -> In o (acquisitions x) ->
  averaging o = averaged (o_proto o) (o_mode o) /\ appending o = appended (o_mode o).
Proof.
  intros x s o HU H Ho. apply supported_kinds. apply (A_supported x); [|exact Ho]. apply C23_accepted_iff; eauto.
Qed.

Example C23_accepted_example :
  let x := TSched [(1, 500, TOp [ssb 0 APPEND None]); (2, 0, TLoop 2 (TSched [(1, 0, TLoop 3 (TOp [ssb 0 APPEND None]))]));
                   (3, 600, TOp [ssb 1 AVERAGE None]); (4, 700, TOp [ssb 1 AVERAGE (Some 0)]); (6, 650, TOp [ssb 1 AVERAGE None]); (7, 800, TOp [ssb 1 AVERAGE (Some 1)]);
                   (5, 900, TOp [{| i_chan := 2; i_proto := Trace; i_mode := AVERAGE; i_index := None; i_coords := 0 |}])] in
  Acceptable x.
Proof.
  cbv zeta. apply C23_accepted_iff; [|eexists; vm_compute; reflexivity].
  cbn. repeat split; repeat constructor; cbn; intuition lia.
Qed.
Print Assumptions C23_accepted_iff.
