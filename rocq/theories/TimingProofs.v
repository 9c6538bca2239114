From Coq Require Import Permutation Relations Arith.
From Verif Require Import Base TimingModel TimingSpec.
Open Scope Q_scope.

(** ** Generic helpers *)
Lemma bind_ok {A B} (x : result A) (f : A -> result B) b :
  bind x f = Ok b -> exists a, x = Ok a /\ f a = Ok b.
Proof. destruct x as [a|e]; simpl; intros H; [eauto | discriminate]. Qed.

Lemma Qlt_bool_true a b : Qlt_bool a b = true <-> a < b.
Proof.
  unfold Qlt_bool. rewrite negb_true_iff. split; intros H.
  - destruct (Qlt_le_dec a b) as [|Hle]; [assumption|].
    apply Qle_bool_iff in Hle. congruence.
  - apply not_true_iff_false. intros Hle. apply Qle_bool_iff in Hle. lra.
Qed.
Lemma Qlt_bool_false a b : Qlt_bool a b = false <-> b <= a.
Proof.
  unfold Qlt_bool. rewrite negb_false_iff. apply Qle_bool_iff.
Qed.

Lemma mem_str_In x l : mem_str x l = true <-> In x l.
Proof.
  unfold mem_str. rewrite existsb_exists. split.
  - intros [y [Hy He]]. apply String.eqb_eq in He. subst. exact Hy.
  - intros H. exists x. split; [exact H | apply String.eqb_refl].
Qed.

(** ** The dictionary of schedulables *)
Lemma get_sch_some l n s : get_sch l n = Some s -> In s l /\ s_name s = n.
Proof.
  unfold get_sch. intros H. apply find_some in H. destruct H as [H1 H2].
  apply String.eqb_eq in H2. auto.
Qed.

Lemma get_sch_in l s : keys_ok l -> In s l -> get_sch l (s_name s) = Some s.
Proof.
  unfold keys_ok, get_sch. induction l as [|x r IH]; simpl; intros Hk Hin; [contradiction|].
  inversion Hk as [|? ? Hnin Hk']; subst.
  destruct (String.eqb (s_name x) (s_name s)) eqn:E.
  - apply String.eqb_eq in E. destruct Hin as [->|Hin]; [reflexivity|].
    exfalso. apply Hnin. rewrite E. apply in_map. exact Hin.
  - destruct Hin as [->|Hin]; [rewrite String.eqb_refl in E; discriminate|]. auto.
Qed.

Lemma get_sch_in_names l n : In n (map s_name l) -> exists s, get_sch l n = Some s.
Proof.
  unfold get_sch. induction l as [|x r IH]; simpl; intros H; [contradiction|].
  destruct (String.eqb (s_name x) n) eqn:E; [eauto|].
  destruct H as [H|H]; [subst; rewrite String.eqb_refl in E; discriminate|]. auto.
Qed.

Lemma get_sch_not_none l n s : get_sch l n = Some s -> In n (map s_name l).
Proof. intros H. apply get_sch_some in H as [H1 <-]. apply in_map; exact H1. Qed.

Lemma put_names l s' : map s_name (put_sch l s') = map s_name l.
Proof.
  unfold put_sch. rewrite map_map. apply map_ext. intros s.
  destruct (String.eqb (s_name s) (s_name s')) eqn:E; [|reflexivity].
  apply String.eqb_eq in E. congruence.
Qed.

Lemma get_put_same l s' : In (s_name s') (map s_name l) -> get_sch (put_sch l s') (s_name s') = Some s'.
Proof.
  unfold get_sch, put_sch. induction l as [|x r IH]; simpl; intros H; [contradiction|].
  destruct (String.eqb (s_name x) (s_name s')) eqn:E.
  - rewrite String.eqb_refl. reflexivity.
  - rewrite E. apply IH. destruct H as [H|H]; [|exact H].
    rewrite H, String.eqb_refl in E. discriminate.
Qed.

Lemma get_put_other l s' n : n <> s_name s' -> get_sch (put_sch l s') n = get_sch l n.
Proof.
  unfold get_sch, put_sch. intros Hn. induction l as [|x r IH]; simpl; [reflexivity|].
  destruct (String.eqb (s_name x) (s_name s')) eqn:E.
  - apply String.eqb_eq in E.
    destruct (String.eqb (s_name s') n) eqn:E2.
    + apply String.eqb_eq in E2. congruence.
    + rewrite E, E2. exact IH.
  - destruct (String.eqb (s_name x) n); [reflexivity | exact IH].
Qed.

(** two dictionaries with the same keys and the same lookups are equal *)
Lemma sch_list_ext : forall l l',
  map s_name l = map s_name l' -> keys_ok l ->
  (forall n, In n (map s_name l) -> get_sch l n = get_sch l' n) -> l = l'.
Proof.
  induction l as [|x r IH]; intros l' Hn Hk Hg; destruct l' as [|y r']; simpl in Hn; try discriminate.
  - reflexivity.
  - injection Hn as Hxy Hr. unfold keys_ok in Hk. simpl in Hk.
    inversion Hk as [|? ? Hnin Hk']; subst.
    assert (Hx : x = y).
    { specialize (Hg (s_name x) (or_introl eq_refl)). unfold get_sch in Hg. simpl in Hg.
      rewrite <- Hxy, String.eqb_refl in Hg. congruence. }
    subst y. f_equal. apply IH; [exact Hr | exact Hk' |].
    intros n Hin. specialize (Hg n (or_intror Hin)). unfold get_sch in Hg |- *. simpl in Hg.
    destruct (String.eqb (s_name x) n) eqn:E; [|exact Hg].
    apply String.eqb_eq in E. subst n. contradiction.
Qed.

(** ** Making constraints explicit *)
Definition explicit_tcs (st : strategy) (dref : option string) (tcs : list tconstr) : list tconstr :=
  match tcs with
  | [] => []
  | c :: rest => {| tc_ref := or_else (tc_ref c) dref;
                    tc_pt := or_else (tc_pt c) (Some (default_pt st));
                    tc_ptnew := or_else (tc_ptnew c) (Some (default_ptnew st));
                    tc_rel := tc_rel c |} :: rest
  end.

Lemma explicit_one_ok st d s s' :
  explicit_one st d s = Ok s' ->
  s' = set_tcs s (explicit_tcs st d (s_tcs s)) /\ s_tcs s <> [] /\
  (st = ALAP -> List.length (s_tcs s) = 1%nat).
Proof.
  unfold explicit_one. destruct st; destruct (s_tcs s) as [|c [|c' r]] eqn:E; intros H;
    inversion H; subst; clear H; repeat split; try discriminate; auto.
Qed.

Lemma explicit_one_total st d s :
  s_tcs s <> [] -> (st = ALAP -> List.length (s_tcs s) = 1%nat) ->
  explicit_one st d s = Ok (set_tcs s (explicit_tcs st d (s_tcs s))).
Proof.
  unfold explicit_one. intros H1 H2. destruct (s_tcs s) as [|c [|c' r]] eqn:E; [congruence| |].
  - destruct st; reflexivity.
  - destruct st; [reflexivity|]. specialize (H2 eq_refl). discriminate.
Qed.

Definition spec_default (st : strategy) (l : list sch) (k : nat) : option string :=
  match st, k with
  | ASAP, O => None
  | ASAP, S k' => option_map s_name (nth_error l k')
  | ALAP, _ => option_map s_name (nth_error l (S k))
  end.

Lemma explicit_all_nth st : forall p l1,
  explicit_all st p = Ok l1 ->
  List.length l1 = List.length p /\
  forall k s d, nth_error p k = Some (s, d) ->
     nth_error l1 k = Some (set_tcs s (explicit_tcs st d (s_tcs s))) /\ s_tcs s <> [] /\
     (st = ALAP -> List.length (s_tcs s) = 1%nat).
Proof.
  induction p as [|[s d] r IH]; intros l1 H; simpl in H.
  - inversion H; subst. split; [reflexivity|]. intros k s d Hk. destruct k; discriminate.
  - apply bind_ok in H as [s' [H1 H]]. apply bind_ok in H as [r' [H2 H]].
    inversion H; subst; clear H. destruct (IH _ H2) as [Hlen Hn].
    apply explicit_one_ok in H1 as [-> [Ha Hb]].
    split; [simpl; congruence|].
    intros k s0 d0 Hk. destruct k as [|k]; simpl in Hk.
    + inversion Hk; subst. auto.
    + simpl. apply Hn. exact Hk.
Qed.

Lemma explicit_all_total st : forall p,
  (forall s d, In (s, d) p -> s_tcs s <> [] /\ (st = ALAP -> List.length (s_tcs s) = 1%nat)) ->
  exists l1, explicit_all st p = Ok l1.
Proof.
  induction p as [|[s d] r IH]; intros H; simpl; [eauto|].
  destruct (H s d (or_introl eq_refl)) as [Ha Hb].
  rewrite (explicit_one_total st d s Ha Hb). simpl.
  destruct IH as [r' Hr]; [intros; apply (H s0 d0); right; assumption|].
  rewrite Hr. simpl. eauto.
Qed.

Lemma default_refs_length st names : names <> [] -> List.length (default_refs st names) = List.length names.
Proof.
  destruct st; simpl; intros H.
  - rewrite map_length. destruct names as [|a r]; [congruence|].
    clear H. revert a. induction r as [|b r IH]; intros a; [reflexivity|].
    change (removelast (a :: b :: r)) with (a :: removelast (b :: r)). simpl. f_equal. apply IH.
  - rewrite app_length, map_length. destruct names; [congruence|]. simpl. lia.
Qed.

Lemma nth_error_removelast {A} (l : list A) k :
  (S k < List.length l)%nat -> nth_error (removelast l) k = nth_error l k.
Proof.
  revert k. induction l as [|a r IH]; intros k H; simpl in H; [lia|].
  destruct r as [|b r]; [simpl in H; lia|].
  change (removelast (a :: b :: r)) with (a :: removelast (b :: r)).
  destruct k; [reflexivity|]. simpl. apply IH. simpl in *. lia.
Qed.

Lemma default_refs_nth st (l : list sch) k :
  (k < List.length l)%nat ->
  nth_error (default_refs st (map s_name l)) k = Some (spec_default st l k).
Proof.
  intros H. destruct st; unfold default_refs, spec_default.
  - destruct k as [|k]; [reflexivity|]. cbn [nth_error].
    rewrite nth_error_map, nth_error_removelast by (rewrite map_length; lia).
    rewrite nth_error_map.
    destruct (nth_error l k) as [s|] eqn:E; [reflexivity|].
    apply nth_error_None in E. lia.
  - assert (Htl : forall m, nth_error (tl (map s_name l)) m = option_map s_name (nth_error l (S m))).
    { intros m. destruct l as [|a r]; [destruct m; reflexivity|]. simpl. apply nth_error_map. }
    assert (Hlen : List.length (map Some (tl (map s_name l))) = pred (List.length l)).
    { rewrite map_length. destruct l; simpl; [reflexivity|]. apply map_length. }
    destruct (Nat.lt_ge_cases (S k) (List.length l)) as [Hlt|Hge].
    + rewrite nth_error_app1 by lia. rewrite nth_error_map, Htl.
      destruct (nth_error l (S k)) as [s|] eqn:E; [reflexivity|].
      apply nth_error_None in E. lia.
    + rewrite nth_error_app2 by lia. rewrite Hlen.
      replace (k - pred (List.length l))%nat with 0%nat by lia.
      assert (Hnone : nth_error l (S k) = None) by (apply nth_error_None; lia).
      rewrite Hnone. reflexivity.
Qed.

Lemma nth_error_combine {A B} (l : list A) (l' : list B) k a b :
  nth_error (combine l l') k = Some (a, b) <-> nth_error l k = Some a /\ nth_error l' k = Some b.
Proof.
  revert l' k. induction l as [|x r IH]; intros l' k; simpl.
  - destruct k; simpl; split; intros H; try discriminate; destruct H; discriminate.
  - destruct l' as [|y r']; simpl.
    + destruct k; simpl; split; intros H; try discriminate; destruct H; discriminate.
    + destruct k; simpl; [|apply IH].
      split; [intros H; inversion H; auto | intros [H1 H2]; congruence].
Qed.

Lemma make_explicit_nth st l l1 :
  make_explicit st l = Ok l1 ->
  List.length l1 = List.length l /\
  forall k s, nth_error l k = Some s ->
     nth_error l1 k = Some (set_tcs s (explicit_tcs st (spec_default st l k) (s_tcs s))) /\ s_tcs s <> [] /\
     (st = ALAP -> List.length (s_tcs s) = 1%nat).
Proof.
  unfold make_explicit. intros H. destruct l as [|a r]; [simpl in H|].
  { inversion H; subst. split; [reflexivity|]. intros k s Hk; destruct k; discriminate. }
  remember (a :: r) as l eqn:El.
  destruct (explicit_all_nth _ _ _ H) as [Hlen Hn].
  assert (Hdl : List.length (default_refs st (map s_name l)) = List.length l).
  { rewrite default_refs_length, map_length; [reflexivity|]. subst; discriminate. }
  split; [rewrite Hlen, combine_length, Hdl; apply Nat.min_id|].
  intros k s Hk. apply Hn. apply nth_error_combine. split; [exact Hk|].
  apply default_refs_nth. apply nth_error_Some. congruence.
Qed.

Lemma make_explicit_total st l :
  (forall s, In s l -> s_tcs s <> [] /\ (st = ALAP -> List.length (s_tcs s) = 1%nat)) ->
  exists l1, make_explicit st l = Ok l1.
Proof.
  intros H. apply explicit_all_total. intros s d Hin. apply in_combine_l in Hin. auto.
Qed.

Lemma make_explicit_names st l l1 : make_explicit st l = Ok l1 -> map s_name l1 = map s_name l.
Proof.
  intros H. apply make_explicit_nth in H as [Hlen Hn].
  apply nth_ext with (d := EmptyString) (d' := EmptyString); [rewrite !map_length; exact Hlen|].
  intros k Hk. rewrite map_length in Hk.
  destruct (nth_error l k) as [s|] eqn:E; [|apply nth_error_None in E; lia].
  destruct (Hn _ _ E) as [H1 _].
  assert (E1 : nth_error (map s_name l1) k = Some (s_name s)).
  { rewrite nth_error_map, H1. reflexivity. }
  assert (E2 : nth_error (map s_name l) k = Some (s_name s)).
  { rewrite nth_error_map, E. reflexivity. }
  rewrite (nth_error_nth _ _ _ E1), (nth_error_nth _ _ _ E2). reflexivity.
Qed.

Lemma explicit_tcs_nth st d tcs j c :
  nth_error tcs j = Some c ->
  nth_error (explicit_tcs st d tcs) j =
    Some (match j with
          | O => {| tc_ref := or_else (tc_ref c) d;
                    tc_pt := or_else (tc_pt c) (Some (default_pt st));
                    tc_ptnew := or_else (tc_ptnew c) (Some (default_ptnew st));
                    tc_rel := tc_rel c |}
          | S _ => c
          end).
Proof. destruct tcs as [|c0 r]; destruct j; simpl; intros H; inversion H; subst; try reflexivity. Qed.

Lemma explicit_tcs_length st d tcs : List.length (explicit_tcs st d tcs) = List.length tcs.
Proof. destruct tcs; reflexivity. Qed.

Lemma refs_of_in s r : In r (refs_of s) <-> exists j c, nth_error (s_tcs s) j = Some c /\ tc_ref c = Some r.
Proof.
  unfold refs_of. rewrite in_flat_map. split.
  - intros [c [Hc Hr]]. apply In_nth_error in Hc as [j Hj]. exists j, c. split; [exact Hj|].
    destruct (tc_ref c); [|contradiction]. destruct Hr as [->|[]]. reflexivity.
  - intros [j [c [Hj Hr]]]. exists c. split; [eapply nth_error_In; eauto|]. rewrite Hr. left; reflexivity.
Qed.

(** references of the explicit schedule are the references of the specification *)
Lemma refs_explicit st l l1 k s s1 a :
  make_explicit st l = Ok l1 -> nth_error l k = Some s -> nth_error l1 k = Some s1 ->
  (In a (refs_of s1) <-> exists j c, nth_error (s_tcs s) j = Some c /\ the_ref st l k j c = Some a).
Proof.
  intros He Hk Hk1. destruct (make_explicit_nth _ _ _ He) as [_ Hn].
  destruct (Hn _ _ Hk) as [H1 _]. rewrite H1 in Hk1. inversion Hk1; subst s1; clear Hk1.
  rewrite refs_of_in. simpl. split.
  - intros [j [c [Hj Hr]]].
    assert (Hjl : (j < List.length (s_tcs s))%nat).
    { rewrite <- (explicit_tcs_length st (spec_default st l k)). apply nth_error_Some. congruence. }
    destruct (nth_error (s_tcs s) j) as [c0|] eqn:Ec; [|apply nth_error_None in Ec; lia].
    rewrite (explicit_tcs_nth _ _ _ _ _ Ec) in Hj. inversion Hj; subst c; clear Hj.
    exists j, c0. split; [exact Ec|]. unfold the_ref.
    destruct j; simpl in Hr.
    + destruct (tc_ref c0); [exact Hr|]. simpl in Hr. exact Hr.
    + rewrite Hr. reflexivity.
  - intros [j [c [Hj Hr]]]. eexists j, _. split; [apply explicit_tcs_nth; exact Hj|].
    unfold the_ref in Hr. destruct j; simpl.
    + destruct (tc_ref c); simpl; [exact Hr|]. exact Hr.
    + destruct (tc_ref c); [exact Hr|discriminate].
Qed.

(** ** Kahn's algorithm *)
Lemma pick_some {A} (p : A -> bool) l x r :
  pick p l = Some (x, r) -> p x = true /\ Permutation l (x :: r).
Proof.
  revert r. induction l as [|a l IH]; simpl; intros r H; [discriminate|].
  destruct (p a) eqn:E.
  - inversion H; subst. split; [exact E | reflexivity].
  - destruct (pick p l) as [[y r']|]; [|discriminate]. inversion H; subst.
    destruct (IH _ eq_refl) as [H1 H2]. split; [exact H1|].
    etransitivity; [apply perm_skip; exact H2 | apply perm_swap].
Qed.

Lemma pick_none {A} (p : A -> bool) l : pick p l = None -> forall x, In x l -> p x = false.
Proof.
  induction l as [|a l IH]; simpl; intros H x Hx; [contradiction|].
  destruct (p a) eqn:E; [discriminate|].
  destruct (pick p l) as [[y r']|]; [discriminate|].
  destruct Hx as [<-|Hx]; auto.
Qed.

(** a topological order of explicit schedulables *)
Definition TopoX (l : list sch) (o : list string) : Prop :=
  Permutation o (map s_name l) /\
  forall pre n post, o = pre ++ n :: post -> forall s, In s l -> s_name s = n -> incl (refs_of s) pre.

Lemma kahn_topo : forall fuel placed rest o,
  NoDup (map s_name rest) ->
  kahn fuel placed rest = Some o ->
  Permutation o (map s_name rest) /\
  forall pre n post, o = pre ++ n :: post ->
    forall s, In s rest -> s_name s = n -> incl (refs_of s) (placed ++ pre).
Proof.
  induction fuel as [|f IH]; intros placed rest o Hk H; simpl in H.
  - destruct rest; [|discriminate]. inversion H; subst. split; [reflexivity|].
    intros pre n post He. destruct pre; discriminate.
  - destruct rest as [|a r] eqn:Er.
    { inversion H; subst. split; [reflexivity|]. intros pre n post He. destruct pre; discriminate. }
    rewrite <- Er in *. clear Er.
    destruct (pick _ rest) as [[s rest']|] eqn:Ep; [|discriminate].
    destruct (kahn f (placed ++ [s_name s]) rest') as [o'|] eqn:Ek; [|discriminate].
    inversion H; subst o; clear H.
    apply pick_some in Ep as [Hp Hperm].
    assert (Hpn : Permutation (map s_name rest) (s_name s :: map s_name rest')).
    { change (s_name s :: map s_name rest') with (map s_name (s :: rest')). apply Permutation_map, Hperm. }
    assert (Hk' : NoDup (s_name s :: map s_name rest')) by (eapply Permutation_NoDup; eauto).
    inversion Hk' as [|? ? Hnin Hk'']; subst.
    destruct (IH _ _ _ Hk'' Ek) as [IHp IHo].
    split; [rewrite Hpn; apply perm_skip; exact IHp|].
    intros pre n post He s0 Hin Hname.
    assert (Hin' : In s0 (s :: rest')) by (eapply Permutation_in; eauto).
    destruct pre as [|b pre]; simpl in He.
    + inversion He; subst n post. clear He.
      destruct Hin' as [<-|Hin'].
      * rewrite app_nil_r. intros x Hx. apply mem_str_In.
        rewrite forallb_forall in Hp. apply Hp. exact Hx.
      * exfalso. apply Hnin. match goal with H : s_name s = s_name s0 |- _ => rewrite H | H : s_name s0 = s_name s |- _ => rewrite <- H end. apply in_map. exact Hin'.
    + inversion He; subst b. clear He.
      destruct Hin' as [<-|Hin'].
      * exfalso. apply Hnin.
        eapply Permutation_in; [exact IHp|]. rewrite H1, <- Hname. apply in_elt.
      * replace (placed ++ s_name s :: pre) with ((placed ++ [s_name s]) ++ pre)
          by (rewrite <- app_assoc; reflexivity).
        eapply IHo; eauto.
Qed.

Lemma topo_sort_topo l o : keys_ok l -> topo_sort l = Some o -> TopoX l o.
Proof.
  intros Hk H. destruct (kahn_topo _ _ _ _ Hk H) as [H1 H2]. split; [exact H1|].
  intros pre n post He s Hin Hn. specialize (H2 pre n post He s Hin Hn). exact H2.
Qed.

(** ** Acyclic references always have an order *)
Section Acyclic.
  Variable A : Type.
  Variable E : A -> A -> Prop.

  Lemma stuck_chain (l : list A) :
    (forall x, In x l -> exists y, In y l /\ E y x) ->
    forall n x, In x l ->
      exists ch, List.length ch = n /\ incl ch l /\
                 (forall y, In y ch -> clos_trans _ E y x) /\
                 ((forall z, ~ clos_trans _ E z z) -> NoDup ch).
  Proof.
    intros Hs n. induction n as [|n IH]; intros x Hx.
    - exists []. split; [reflexivity|]. split; [intros y []|]. split; [intros y []|]. intros _. constructor.
    - destruct (Hs x Hx) as [y [Hy Eyx]]. destruct (IH y Hy) as [ch [Hlen [Hincl [Hch Hnd]]]].
      exists (y :: ch). split; [simpl; congruence|]. split; [|split].
      + intros z [<-|Hz]; auto.
      + intros z [<-|Hz]; [apply t_step; exact Eyx|].
        eapply t_trans; [apply Hch; exact Hz | apply t_step; exact Eyx].
      + intros Hac. constructor; [|apply Hnd, Hac].
        intros Hin. apply (Hac y). apply Hch. exact Hin.
  Qed.

  Lemma stuck_cycle (l : list A) :
    l <> [] -> (forall x, In x l -> exists y, In y l /\ E y x) ->
    ~ (forall z, ~ clos_trans _ E z z).
  Proof.
    intros Hne Hs Hac. destruct l as [|x r] eqn:El; [congruence|]. rewrite <- El in *.
    assert (Hx : In x l) by (subst; left; reflexivity).
    destruct (stuck_chain l Hs (S (List.length l)) x Hx) as [ch [Hlen [Hincl [_ Hnd]]]].
    pose proof (NoDup_incl_length (Hnd Hac) Hincl). lia.
  Qed.
End Acyclic.

Definition RefX (l : list sch) (a b : string) : Prop := exists s, In s l /\ s_name s = b /\ In a (refs_of s).

Lemma kahn_complete : forall fuel placed rest l,
  (forall z, ~ clos_trans _ (RefX l) z z) ->
  incl rest l ->
  (forall s a, In s rest -> In a (refs_of s) -> In a placed \/ In a (map s_name rest)) ->
  (List.length rest <= fuel)%nat ->
  exists o, kahn fuel placed rest = Some o.
Proof.
  induction fuel as [|f IH]; intros placed rest l Hac Hincl Hcl Hlen.
  - destruct rest; simpl in Hlen; [exists []; reflexivity | lia].
  - destruct rest as [|a0 r0] eqn:Er; [exists []; reflexivity|]. rewrite <- Er in *.
    simpl. destruct rest as [|a1 r1] eqn:Er'; [exists []; reflexivity|]. rewrite <- Er' in *. clear Er'.
    destruct (pick _ rest) as [[s rest']|] eqn:Ep.
    + apply pick_some in Ep as [Hp Hperm].
      destruct (IH (placed ++ [s_name s]) rest' l Hac) as [o Ho].
      * intros x Hx. apply Hincl. eapply Permutation_in; [symmetry; exact Hperm | right; exact Hx].
      * intros x a Hx Ha.
        assert (Hx' : In x rest) by (eapply Permutation_in; [symmetry; exact Hperm | right; exact Hx]).
        destruct (Hcl x a Hx' Ha) as [H|H].
        -- left. apply in_or_app. left; exact H.
        -- assert (H' : In a (s_name s :: map s_name rest')).
           { change (s_name s :: map s_name rest') with (map s_name (s :: rest')).
             eapply Permutation_in; [apply Permutation_map; exact Hperm | exact H]. }
           destruct H' as [<-|H']; [left; apply in_or_app; right; left; reflexivity | right; exact H'].
      * apply Permutation_length in Hperm. simpl in Hperm. lia.
      * rewrite Ho. eauto.
    + exfalso. pose proof (pick_none _ _ Ep) as Hn.
      apply (stuck_cycle _ (RefX l) (map s_name rest)); [| |exact Hac].
      * rewrite Er. discriminate.
      * intros x Hx. apply in_map_iff in Hx as [s [<- Hs]].
        specialize (Hn s Hs).
        assert (Hex : exists a, In a (refs_of s) /\ ~ In a placed).
        { cbv beta in Hn. revert Hn. clear. generalize (refs_of s) as rs.
          induction rs as [|a r IH]; simpl; intros Hn; [discriminate|].
          destruct (mem_str a placed) eqn:E.
          - destruct IH as [b [Hb1 Hb2]]; [exact Hn|]. exists b. split; [right; exact Hb1 | exact Hb2].
          - exists a. split; [left; reflexivity|]. intros Hin. apply mem_str_In in Hin. congruence. }
        destruct Hex as [a [Ha Hna]]. exists a. split.
        -- destruct (Hcl s a Hs Ha) as [H|H]; [contradiction | exact H].
        -- exists s. split; [apply Hincl; exact Hs|]. split; [reflexivity | exact Ha].
Qed.

(** A topological order excludes cycles. *)
Lemma topo_no_cycle l o :
  keys_ok l -> TopoX l o -> forall z, ~ clos_trans _ (RefX l) z z.
Proof.
  intros Hk [Hp Ho].
  assert (Hnd : NoDup o) by (eapply Permutation_NoDup; [symmetry; exact Hp | exact Hk]).
  assert (Hstep : forall a b, RefX l a b -> exists p q r, o = p ++ a :: q ++ b :: r).
  { intros a b [s [Hin [Hn Ha]]].
    assert (Hb : In b o). { eapply Permutation_in; [symmetry; exact Hp|]. rewrite <- Hn. apply in_map; exact Hin. }
    apply in_split in Hb as [pre [post He]].
    specialize (Ho pre b post He s Hin Hn a Ha).
    apply in_split in Ho as [p [q Hpre]]. subst pre. exists p, q, post. rewrite He, <- app_assoc. reflexivity. }
  assert (Htr : forall a b, clos_trans _ (RefX l) a b -> exists p q r, o = p ++ a :: q ++ b :: r).
  { intros a b H. induction H as [a b H | a b c H1 IH1 H2 IH2]; [auto|].
    destruct IH1 as [p [q [r E1]]]. destruct IH2 as [p' [q' [r' E2]]].
    (* b occurs once in o *)
    assert (Hbb : exists x, r = q' ++ c :: r' \/ r = x) by (exists r; right; reflexivity).
    clear Hbb.
    assert (Hu : (p ++ a :: q) ++ b :: r = p' ++ b :: (q' ++ c :: r')).
    { rewrite <- app_assoc. simpl. rewrite <- E1. exact E2. }
    assert (Hnd1 : NoDup ((p ++ a :: q) ++ b :: r)).
    { rewrite <- app_assoc. simpl. rewrite <- E1. exact Hnd. }
    assert (Hsplit : forall (u v u' v' : list string), u ++ b :: v = u' ++ b :: v' -> NoDup (u ++ b :: v) -> u = u' /\ v = v').
    { clear. induction u as [|x u IH]; intros v u' v' H Hn; destruct u' as [|x' u']; simpl in *.
      - inversion H; auto.
      - inversion H; subst. inversion Hn; subst. exfalso. apply H2. apply in_elt.
      - inversion H; subst. inversion Hn; subst. exfalso. apply H2. apply in_elt.
      - inversion H; subst. inversion Hn; subst. destruct (IH _ _ _ H2 H4) as [-> ->]. auto. }
    destruct (Hsplit _ _ _ _ Hu Hnd1) as [_ Hr].
    exists p, (q ++ b :: q'), r'. rewrite E1, Hr. rewrite <- app_assoc. reflexivity. }
  intros z Hz. destruct (Htr _ _ Hz) as [p [q [r E]]]. rewrite E in Hnd.
  apply NoDup_remove_2 in Hnd. apply Hnd. apply in_or_app. right. apply in_or_app. right. left. reflexivity.
Qed.

(** ** The fixed point equations of [resolve] *)
Definition delay_in (l : list sch) (n : string) : option Q :=
  match get_sch l n with Some s => s_delay s | None => None end.

Definition delayed (l : list sch) (tcs : list tconstr) : list tconstr :=
  map (fun c =>
         match tc_ref c with
         | Some r => match delay_in l r with
                     | Some d => {| tc_ref := tc_ref c; tc_pt := tc_pt c; tc_ptnew := tc_ptnew c;
                                    tc_rel := tc_rel c + d |}
                     | None => c
                     end
         | None => c
         end) tcs.

Definition compute_abs (st : strategy) (cur : list sch) (s : sch) (tcs' : list tconstr) : result (option Q) :=
  match st with
  | ASAP => foldM (max_step cur (s_dur s)) tcs' (s_abs s)
  | ALAP => match tcs' with
            | [] => Err IndexError
            | c :: _ => do t <- get_start_time cur c (s_dur s); Ok (Some t)
            end
  end.

(** [F] is a solution of the timing equations for schedule [l] with root [h]. *)
Definition Solves (st : strategy) (l : list sch) (h : string) (F : list sch) : Prop :=
  map s_name F = map s_name l /\
  forall s, In s l -> exists a,
    get_sch F (s_name s) = Some (set_abs (set_tcs s (delayed l (s_tcs s))) a) /\
    (if String.eqb (s_name s) h then a = Some 0
     else compute_abs st F s (delayed l (s_tcs s)) = Ok a).

Lemma gst_ext l l' c d :
  (forall r, tc_ref c = Some r -> get_sch l r = get_sch l' r) ->
  get_start_time l c d = get_start_time l' c d.
Proof.
  intros H. unfold get_start_time. destruct (tc_ref c) as [r|]; [|reflexivity].
  rewrite (H r eq_refl). reflexivity.
Qed.

Lemma foldM_max_ext l l' d tcs cur :
  (forall c r, In c tcs -> tc_ref c = Some r -> get_sch l r = get_sch l' r) ->
  foldM (max_step l d) tcs cur = foldM (max_step l' d) tcs cur.
Proof.
  revert cur. induction tcs as [|c r IH]; intros cur H; simpl; [reflexivity|].
  unfold max_step at 1 3. rewrite (gst_ext l l' c d) by (intros; eapply H; eauto; left; reflexivity).
  destruct (get_start_time l' c d); simpl; [|reflexivity].
  apply IH. intros; eapply H; eauto; right; assumption.
Qed.

Lemma compute_abs_ext st l l' s tcs :
  (forall c r, In c tcs -> tc_ref c = Some r -> get_sch l r = get_sch l' r) ->
  compute_abs st l s tcs = compute_abs st l' s tcs.
Proof.
  intros H. unfold compute_abs. destruct st.
  - apply foldM_max_ext. exact H.
  - destruct tcs as [|c r]; [reflexivity|].
    rewrite (gst_ext l l' c) by (intros; eapply H; eauto; left; reflexivity). reflexivity.
Qed.

Lemma delayed_ref l tcs c r : In c (delayed l tcs) -> tc_ref c = Some r ->
  exists c0, In c0 tcs /\ tc_ref c0 = Some r.
Proof.
  unfold delayed. rewrite in_map_iff. intros [c0 [He Hin]] Hr. exists c0. split; [exact Hin|].
  destruct (tc_ref c0) as [r0|] eqn:E; [|subst c; congruence].
  destruct (delay_in l r0); subst c; simpl in Hr; congruence.
Qed.

Lemma in_refs s c r : In c (s_tcs s) -> tc_ref c = Some r -> In r (refs_of s).
Proof.
  intros H1 H2. unfold refs_of. apply in_flat_map. exists c. split; [exact H1|]. rewrite H2. left; reflexivity.
Qed.

Lemma apply_delays_delayed delays l tcs :
  (forall c r, In c tcs -> tc_ref c = Some r -> lookup_delay delays r = delay_in l r) ->
  apply_delays delays tcs = delayed l tcs.
Proof.
  intros H. unfold apply_delays, delayed. apply map_ext_in. intros c Hc.
  destruct (tc_ref c) as [r|] eqn:E; [|reflexivity]. rewrite (H c r Hc E). reflexivity.
Qed.

(** State invariant after the schedulables in [done] were processed. *)
Record ResInv (st : strategy) (l : list sch) (h : string) (done : list string)
       (state : list sch * list (string * Q)) : Prop := {
  ri_names : map s_name (fst state) = map s_name l;
  ri_todo : forall n, ~ In n done -> get_sch (fst state) n = get_sch l n;
  ri_refs : forall s, In s l -> In (s_name s) done -> incl (refs_of s) done;
  ri_done : forall s, In s l -> In (s_name s) done -> exists a,
      get_sch (fst state) (s_name s) = Some (set_abs (set_tcs s (delayed l (s_tcs s))) a) /\
      (if String.eqb (s_name s) h then a = Some 0
       else compute_abs st (fst state) s (delayed l (s_tcs s)) = Ok a);
  ri_delays : forall n, In n done -> lookup_delay (snd state) n = delay_in l n;
  ri_keys : incl (map fst (snd state)) done
}.

Lemma delay_cons l n s delays m :
  get_sch l n = Some s ->
  (m <> n -> lookup_delay delays m = delay_in l m) ->
  (m = n -> lookup_delay delays m = None) ->
  lookup_delay (match s_delay s with Some d => (n, d) :: delays | None => delays end) m = delay_in l m.
Proof.
  intros Hg H1 H2. unfold delay_in in *. destruct (String.eqb n m) eqn:E.
  - apply String.eqb_eq in E. subst m. rewrite Hg in *.
    destruct (s_delay s) as [d|]; simpl; [rewrite String.eqb_refl; reflexivity|].
    apply H2; reflexivity.
  - assert (m <> n). { intros ->. rewrite String.eqb_refl in E. discriminate. }
    destruct (s_delay s); simpl; [rewrite E|]; auto.
Qed.

Lemma lookup_delay_keys delays n :
  ~ In n (map fst delays) -> lookup_delay delays n = None.
Proof.
  induction delays as [|[m q] r IH]; simpl; intros H; [reflexivity|].
  destruct (String.eqb m n) eqn:E; [apply String.eqb_eq in E; subst; exfalso; apply H; left; reflexivity|].
  apply IH. intros Hin. apply H. right; exact Hin.
Qed.

(** One step, both directions: it succeeds iff the equation of [n] can be evaluated. *)
Lemma resolve_step_eq st l h done state n s (first : bool) :
  ResInv st l h done state ->
  ~ In n done -> get_sch l n = Some s -> incl (refs_of s) done ->
  resolve_step st first state n =
    (do a <- (if first then Ok (Some 0) else compute_abs st (fst state) s (delayed l (s_tcs s)));
     Ok (put_sch (fst state) (set_abs (set_tcs s (delayed l (s_tcs s))) a),
         match s_delay s with Some d => (n, d) :: snd state | None => snd state end)).
Proof.
  intros [Rn Rt Rr Rd Rdel Rk] Hnd Hg Hrefs.
  destruct state as [cur delays]. cbn [fst snd] in *. unfold resolve_step.
  rewrite Rt by exact Hnd. rewrite Hg.
  set (delays' := match s_delay s with Some d => (n, d) :: delays | None => delays end) in *.
  assert (Happ : apply_delays delays' (s_tcs s) = delayed l (s_tcs s)).
  { apply apply_delays_delayed. intros c r Hc Hr. apply delay_cons; [exact Hg| |].
    - intros Hrn. apply Rdel. apply Hrefs. eapply in_refs; eauto.
    - intros ->. apply lookup_delay_keys. intros Hin. apply Hnd, Rk, Hin. }
  rewrite Happ. unfold compute_abs. destruct first, st; reflexivity.
Qed.

Lemma resolve_step_inv st l h done state n s a :
  keys_ok l ->
  ResInv st l h done state ->
  ~ In n done -> get_sch l n = Some s -> incl (refs_of s) done ->
  (if String.eqb n h then a = Some 0
   else compute_abs st (fst state) s (delayed l (s_tcs s)) = Ok a) ->
  ResInv st l h (done ++ [n])
    (put_sch (fst state) (set_abs (set_tcs s (delayed l (s_tcs s))) a),
     match s_delay s with Some d => (n, d) :: snd state | None => snd state end).
Proof.
  intros Hk [Rn Rt Rr Rd Rdel Rk] Hnd Hg Hrefs Ha.
  destruct state as [cur delays]. cbn [fst snd] in *.
  assert (Hsn : s_name s = n) by (apply get_sch_some in Hg; tauto).
  assert (Hsl : In s l) by (apply get_sch_some in Hg; tauto).
  set (s' := set_abs (set_tcs s (delayed l (s_tcs s))) a) in *.
  assert (Hs'n : s_name s' = n) by exact Hsn.
  assert (Hin_n : In (s_name s') (map s_name cur)).
  { rewrite Hs'n, Rn. eapply get_sch_not_none; eauto. }
  assert (Hext : forall s0, incl (refs_of s0) done ->
            compute_abs st (put_sch cur s') s0 (delayed l (s_tcs s0)) =
            compute_abs st cur s0 (delayed l (s_tcs s0))).
  { intros s0 Hs0. apply compute_abs_ext. intros c r Hc Hr. apply get_put_other.
    rewrite Hs'n. intros ->. apply Hnd. apply Hs0.
    destruct (delayed_ref _ _ _ _ Hc Hr) as [c0 [Hc0 Hr0]]. eapply in_refs; eauto. }
  constructor; cbn [fst snd].
  - rewrite put_names. exact Rn.
  - intros m Hm. rewrite get_put_other.
    + apply Rt. intros Hin. apply Hm. apply in_or_app. left; exact Hin.
    + rewrite Hs'n. intros ->. apply Hm. apply in_or_app. right; left; reflexivity.
  - intros s0 Hs0 Hdone x Hx. apply in_or_app. left.
    apply in_app_or in Hdone as [Hdone|[Hdone|[]]].
    + apply (Rr s0 Hs0 Hdone x Hx).
    + assert (s0 = s). { apply get_sch_in in Hs0; [|exact Hk]. rewrite <- Hdone, Hg in Hs0. congruence. }
      subst s0. apply Hrefs, Hx.
  - intros s0 Hs0 Hdone. apply in_app_or in Hdone as [Hdone|[Hdone|[]]].
    + destruct (Rd s0 Hs0 Hdone) as [a0 [Ha0 Hc0]]. exists a0.
      assert (Hne : s_name s0 <> n) by (intros He; apply Hnd; rewrite <- He; exact Hdone).
      split; [rewrite get_put_other by (rewrite Hs'n; exact Hne); exact Ha0|].
      destruct (String.eqb (s_name s0) h) eqn:Eh; [exact Hc0|].
      rewrite Hext; [exact Hc0 | apply Rr; assumption].
    + assert (s0 = s). { apply get_sch_in in Hs0; [|exact Hk]. rewrite <- Hdone, Hg in Hs0. congruence. }
      subst s0. exists a. split; [rewrite Hsn, <- Hs'n; apply get_put_same; exact Hin_n|].
      rewrite Hsn. destruct (String.eqb n h); [exact Ha|]. rewrite Hext; assumption.
  - intros m Hm. apply delay_cons; [exact Hg| |].
    + intros Hmn. apply Rdel. apply in_app_or in Hm as [Hm|[Hm|[]]]; [exact Hm|congruence].
    + intros ->. apply lookup_delay_keys. intros Hin. apply Hnd, Rk, Hin.
  - destruct (s_delay s); simpl; intros m Hm.
    + destruct Hm as [<-|Hm]; apply in_or_app; [right; left; reflexivity | left; apply Rk; exact Hm].
    + apply in_or_app; left; apply Rk; exact Hm.
Qed.

Lemma ResInv_init st l h : ResInv st l h [] (l, []).
Proof. constructor; simpl; try tauto; try (intros; contradiction). intros x []. Qed.

Lemma ResInv_solves st l h o state :
  Permutation o (map s_name l) -> ResInv st l h o state -> Solves st l h (fst state).
Proof.
  intros Hp [Rn Rt Rr Rd Rdel Rk]. split; [exact Rn|]. intros s Hs. apply Rd; [exact Hs|].
  eapply Permutation_in; [symmetry; exact Hp|]. apply in_map; exact Hs.
Qed.

(** forward: a successful fold yields the invariant *)
Lemma fold_resolve_inv st l h : forall rest done state state',
  keys_ok l -> ResInv st l h done state ->
  NoDup (done ++ rest) -> incl rest (map s_name l) -> ~ In h rest ->
  (forall pre n post, rest = pre ++ n :: post -> forall s, In s l -> s_name s = n -> incl (refs_of s) (done ++ pre)) ->
  foldM (resolve_step st false) rest state = Ok state' ->
  ResInv st l h (done ++ rest) state'.
Proof.
  induction rest as [|n rest IH]; intros done state state' Hk HI Hnd Hincl Hh Ho H.
  - simpl in H. inversion H; subst. rewrite app_nil_r. exact HI.
  - cbn [foldM] in H. apply bind_ok in H as [state1 [H1 H2]].
    assert (Hn : ~ In n done).
    { intros Hin. apply NoDup_remove_2 in Hnd. apply Hnd. apply in_or_app. left; exact Hin. }
    destruct (get_sch_in_names l n (Hincl n (or_introl eq_refl))) as [s Hs].
    pose proof (get_sch_some _ _ _ Hs) as [Hsl Hsn].
    assert (Hrefs : incl (refs_of s) done).
    { specialize (Ho [] n rest eq_refl s Hsl Hsn). rewrite app_nil_r in Ho. exact Ho. }
    rewrite (resolve_step_eq st l h done state n s false HI Hn Hs Hrefs) in H1.
    apply bind_ok in H1 as [a [Ha H1]]. inversion H1; subst state1; clear H1.
    assert (Hnh : String.eqb n h = false).
    { apply String.eqb_neq. intros ->. apply Hh. left; reflexivity. }
    replace (done ++ n :: rest) with ((done ++ [n]) ++ rest) in * by (rewrite <- app_assoc; reflexivity).
    eapply IH; [exact Hk| |exact Hnd| | | |exact H2].
    + apply resolve_step_inv; try assumption. rewrite Hnh. exact Ha.
    + intros x Hx. apply Hincl. right; exact Hx.
    + intros Hin. apply Hh. right; exact Hin.
    + intros pre m post He s0 Hs0 Hm.
      specialize (Ho (n :: pre) m post). rewrite He in Ho. specialize (Ho eq_refl s0 Hs0 Hm).
      rewrite <- app_assoc. exact Ho.
Qed.

Definition is_head (h : string) (o : list string) : Prop := exists r, o = h :: r.

Lemma resolve_solves st l h o F :
  keys_ok l -> TopoX l o -> is_head h o -> resolve st o l = Ok F -> Solves st l h F.
Proof.
  intros Hk [Hp Ho] [r ->] H. cbn [resolve] in H.
  apply bind_ok in H as [s1 [H1 H]]. apply bind_ok in H as [s2 [H2 H]]. inversion H; subst F; clear H.
  assert (Hnd : NoDup (h :: r)) by (eapply Permutation_NoDup; [symmetry; exact Hp | exact Hk]).
  assert (Hin : forall x, In x (h :: r) -> In x (map s_name l)).
  { intros x Hx. eapply Permutation_in; eauto. }
  destruct (get_sch_in_names l h (Hin h (or_introl eq_refl))) as [s Hs].
  pose proof (get_sch_some _ _ _ Hs) as [Hsl Hsn].
  assert (Hrefs : incl (refs_of s) []) by (apply (Ho [] h r eq_refl s Hsl Hsn)).
  rewrite (resolve_step_eq st l h [] (l, []) h s true (ResInv_init _ _ _) (fun x => x) Hs Hrefs) in H1.
  cbn [bind] in H1. inversion H1; subst s1; clear H1.
  assert (HI : ResInv st l h [h] (put_sch l (set_abs (set_tcs s (delayed l (s_tcs s))) (Some 0)),
     match s_delay s with Some d => [(h, d)] | None => [] end)).
  { apply (resolve_step_inv st l h [] (l, []) h s (Some 0) Hk (ResInv_init _ _ _) (fun x => x) Hs Hrefs).
    rewrite String.eqb_refl. reflexivity. }
  apply (ResInv_solves st l h (h :: r)); [exact Hp|].
  change (h :: r) with ([h] ++ r).
  eapply fold_resolve_inv; [exact Hk | exact HI | exact Hnd | | | | exact H2].
  - intros x Hx. apply Hin. right; exact Hx.
  - inversion Hnd; assumption.
  - intros pre n post He s0 Hs0 Hn0. specialize (Ho (h :: pre) n post). simpl in Ho. rewrite He in Ho.
    apply Ho; auto.
Qed.

(** Along a topological order, the state agrees with any solution on the processed part. *)
Lemma state_agrees st l h F done state :
  keys_ok l -> Solves st l h F -> ResInv st l h done state ->
  (forall n, In n done -> In n (map s_name l)) ->
  (forall s, In s l -> In (s_name s) done -> get_sch (fst state) (s_name s) = get_sch F (s_name s)) ->
  forall s, In s l -> incl (refs_of s) done ->
    compute_abs st (fst state) s (delayed l (s_tcs s)) = compute_abs st F s (delayed l (s_tcs s)).
Proof.
  intros Hk HF HI Hdone Hag s Hs Hrefs. apply compute_abs_ext. intros c r Hc Hr.
  destruct (delayed_ref _ _ _ _ Hc Hr) as [c0 [Hc0 Hr0]].
  assert (Hrd : In r done) by (apply Hrefs; eapply in_refs; eauto).
  destruct (get_sch_in_names l r (Hdone r Hrd)) as [sr Hsr]. apply get_sch_some in Hsr as [Hsr <-].
  apply Hag; assumption.
Qed.

Lemma fold_resolve_complete st l h F : forall rest done state,
  keys_ok l -> Solves st l h F -> ResInv st l h done state ->
  (forall n, In n done -> In n (map s_name l)) ->
  (forall s, In s l -> In (s_name s) done -> get_sch (fst state) (s_name s) = get_sch F (s_name s)) ->
  NoDup (done ++ rest) -> incl rest (map s_name l) -> ~ In h rest ->
  (forall pre n post, rest = pre ++ n :: post -> forall s, In s l -> s_name s = n -> incl (refs_of s) (done ++ pre)) ->
  exists state', foldM (resolve_step st false) rest state = Ok state' /\ ResInv st l h (done ++ rest) state' /\
    (forall s, In s l -> In (s_name s) (done ++ rest) -> get_sch (fst state') (s_name s) = get_sch F (s_name s)).
Proof.
  induction rest as [|n rest IH]; intros done state Hk HF HI Hdone Hag Hnd Hincl Hh Ho.
  - exists state. rewrite app_nil_r. split; [reflexivity|]. split; assumption.
  - assert (Hn : ~ In n done).
    { intros Hin. apply NoDup_remove_2 in Hnd. apply Hnd. apply in_or_app. left; exact Hin. }
    destruct (get_sch_in_names l n (Hincl n (or_introl eq_refl))) as [s Hs].
    pose proof (get_sch_some _ _ _ Hs) as [Hsl Hsn].
    assert (Hrefs : incl (refs_of s) done).
    { specialize (Ho [] n rest eq_refl s Hsl Hsn). rewrite app_nil_r in Ho. exact Ho. }
    assert (Hnh : String.eqb n h = false).
    { apply String.eqb_neq. intros ->. apply Hh. left; reflexivity. }
    destruct (proj2 HF s Hsl) as [a [HFa HFc]]. rewrite Hsn, Hnh in HFc.
    assert (Hcomp : compute_abs st (fst state) s (delayed l (s_tcs s)) = Ok a).
    { rewrite (state_agrees st l h F done state Hk HF HI Hdone Hag s Hsl Hrefs). exact HFc. }
    cbn [foldM]. rewrite (resolve_step_eq st l h done state n s false HI Hn Hs Hrefs).
    rewrite Hcomp. cbn [bind].
    replace (done ++ n :: rest) with ((done ++ [n]) ++ rest) in * by (rewrite <- app_assoc; reflexivity).
    apply IH; try assumption.
    + apply resolve_step_inv; try assumption. rewrite Hnh. exact Hcomp.
    + intros m Hm. apply in_app_or in Hm as [Hm|[<-|[]]]; [auto | apply Hincl; left; reflexivity].
    + cbn [fst]. intros s0 Hs0 Hd0.
      destruct (string_dec (s_name s0) n) as [He|Hne].
      * assert (s0 = s). { apply get_sch_in in Hs0; [|exact Hk]. rewrite He, Hs in Hs0. congruence. }
        subst s0. rewrite HFa.
        change (s_name s) with (s_name (set_abs (set_tcs s (delayed l (s_tcs s))) a)).
        apply get_put_same. simpl. rewrite (ri_names _ _ _ _ _ HI). apply in_map; exact Hsl.
      * rewrite get_put_other by (simpl; congruence).
        apply Hag; [exact Hs0|]. apply in_app_or in Hd0 as [Hd0|[Hd0|[]]]; [exact Hd0 | congruence].
    + intros x Hx. apply Hincl. right; exact Hx.
    + intros Hin. apply Hh. right; exact Hin.
    + intros pre m post He s0 Hs0 Hm.
      specialize (Ho (n :: pre) m post). rewrite He in Ho. specialize (Ho eq_refl s0 Hs0 Hm).
      rewrite <- app_assoc. exact Ho.
Qed.

(** The solution is unique and every topological order computes it. *)
Lemma solves_resolve st l h o F :
  keys_ok l -> TopoX l o -> is_head h o -> Solves st l h F -> resolve st o l = Ok F.
Proof.
  intros Hk [Hp Ho] [r ->] HF. cbn [resolve].
  assert (Hnd : NoDup (h :: r)) by (eapply Permutation_NoDup; [symmetry; exact Hp | exact Hk]).
  assert (Hin : forall x, In x (h :: r) -> In x (map s_name l)).
  { intros x Hx. eapply Permutation_in; eauto. }
  destruct (get_sch_in_names l h (Hin h (or_introl eq_refl))) as [s Hs].
  pose proof (get_sch_some _ _ _ Hs) as [Hsl Hsn].
  assert (Hrefs : incl (refs_of s) []) by (apply (Ho [] h r eq_refl s Hsl Hsn)).
  rewrite (resolve_step_eq st l h [] (l, []) h s true (ResInv_init _ _ _) (fun x => x) Hs Hrefs).
  cbn [bind fst snd].
  assert (HI : ResInv st l h [h] (put_sch l (set_abs (set_tcs s (delayed l (s_tcs s))) (Some 0)),
     match s_delay s with Some d => [(h, d)] | None => [] end)).
  { apply (resolve_step_inv st l h [] (l, []) h s (Some 0) Hk (ResInv_init _ _ _) (fun x => x) Hs Hrefs).
    rewrite String.eqb_refl. reflexivity. }
  destruct (fold_resolve_complete st l h F r [h] _ Hk HF HI) as [state' [H1 [H2 H3]]].
  - intros n [<-|[]]. apply Hin. left; reflexivity.
  - cbn [fst]. intros s0 Hs0 [He|[]].
    assert (s0 = s). { apply get_sch_in in Hs0; [|exact Hk]. rewrite <- He, Hs in Hs0. congruence. }
    subst s0. destruct (proj2 HF s Hsl) as [a [HFa HFc]]. rewrite Hsn, String.eqb_refl in HFc. subst a.
    rewrite HFa.
    change (s_name s) with (s_name (set_abs (set_tcs s (delayed l (s_tcs s))) (Some 0))).
    apply get_put_same. simpl. apply in_map; exact Hsl.
  - exact Hnd.
  - intros x Hx. apply Hin. right; exact Hx.
  - inversion Hnd; assumption.
  - intros pre n post He s0 Hs0 Hn0. specialize (Ho (h :: pre) n post). simpl in Ho. rewrite He in Ho.
    apply Ho; auto.
  - rewrite H1. cbn [bind]. f_equal.
    apply sch_list_ext.
    + rewrite (ri_names _ _ _ _ _ H2). symmetry. apply (proj1 HF).
    + unfold keys_ok. rewrite (ri_names _ _ _ _ _ H2). exact Hk.
    + intros n Hn. rewrite (ri_names _ _ _ _ _ H2) in Hn.
      destruct (get_sch_in_names l n Hn) as [s0 Hs0]. apply get_sch_some in Hs0 as [Hs0 <-].
      apply H3; [exact Hs0|]. change ([h] ++ r) with (h :: r). eapply Permutation_in; [symmetry; exact Hp|]. exact Hn.
Qed.

(** ** Explicit schedule versus the specification *)
Lemma make_explicit_inv st l l1 k s1 :
  make_explicit st l = Ok l1 -> nth_error l1 k = Some s1 ->
  exists s, nth_error l k = Some s /\ s1 = set_tcs s (explicit_tcs st (spec_default st l k) (s_tcs s)) /\
            s_tcs s <> [].
Proof.
  intros He Hk1. destruct (make_explicit_nth _ _ _ He) as [Hlen Hn].
  destruct (nth_error l k) as [s|] eqn:E.
  - exists s. destruct (Hn _ _ E) as [H1 [H2 _]]. split; [reflexivity|]. split; [congruence | exact H2].
  - apply nth_error_None in E. assert (k < List.length l1)%nat by (apply nth_error_Some; congruence). lia.
Qed.

Lemma refX_iff st l l1 a b :
  make_explicit st l = Ok l1 -> (RefX l1 a b <-> RefersTo st l a b).
Proof.
  intros He. split.
  - intros [s1 [Hin [Hn Ha]]]. apply In_nth_error in Hin as [k Hk].
    destruct (make_explicit_inv _ _ _ _ _ He Hk) as [s [Hs [Hs1 _]]].
    destruct (proj1 (refs_explicit st l l1 k s s1 a He Hs Hk) Ha) as [j [c [Hj Hr]]].
    exists k, j, s, c. subst s1. simpl in Hn. auto.
  - intros [k [j [s [c [Hk [Hn [Hj Hr]]]]]]].
    destruct (make_explicit_nth _ _ _ He) as [_ Hnth]. destruct (Hnth _ _ Hk) as [H1 _].
    eexists. split; [eapply nth_error_In; exact H1|]. split; [exact Hn|].
    apply (refs_explicit st l l1 k s _ a He Hk H1). eauto.
Qed.

Lemma clos_trans_iff {A} (R R' : A -> A -> Prop) :
  (forall a b, R a b <-> R' a b) -> forall a b, clos_trans _ R a b <-> clos_trans _ R' a b.
Proof.
  intros H a b. split; intros HC; induction HC as [x y HC|x y z _ IH1 _ IH2];
    try (eapply t_trans; eassumption); apply t_step, H, HC.
Qed.

Lemma topoX_iff st l l1 o :
  make_explicit st l = Ok l1 -> keys_ok l ->
  (TopoX l1 o <-> Topological st l o).
Proof.
  intros He Hk. pose proof (make_explicit_names _ _ _ He) as Hn. unfold TopoX, Topological. rewrite Hn.
  split; intros [H1 H2]; (split; [exact H1|]); intros pre n post Ho.
  - intros a Ha. destruct (proj2 (refX_iff st l l1 a n He) Ha) as [s1 [Hin [Hs Hr]]].
    eapply H2; eauto.
  - intros s Hin Hs x Hx. eapply H2; [exact Ho|]. apply (refX_iff st l l1 x n He).
    exists s. auto.
Qed.

(** Only the root has no reference. *)
Lemma nonroot_has_ref st l l1 k s1 :
  make_explicit st l = Ok l1 -> nth_error l1 k = Some s1 -> k <> root_pos st l -> refs_of s1 <> [].
Proof.
  intros He Hk1 Hroot.
  assert (Hkl : (k < List.length l)%nat).
  { destruct (make_explicit_nth _ _ _ He) as [Hlen _]. rewrite <- Hlen. apply nth_error_Some. congruence. }
  destruct (make_explicit_inv _ _ _ _ _ He Hk1) as [s [Hs [-> Hne]]].
  destruct (s_tcs s) as [|c r] eqn:Et; [congruence|].
  unfold refs_of. simpl. destruct (tc_ref c); simpl; [discriminate|].
  unfold spec_default. destruct st; simpl in Hroot.
  - destruct k as [|k]; [congruence|].
    destruct (nth_error l k) eqn:E; simpl; [discriminate|]. apply nth_error_None in E. lia.
  - destruct (nth_error l (S k)) eqn:E; [simpl; discriminate|]. apply nth_error_None in E.
    destruct l; simpl in *; lia.
Qed.

Lemma topo_head_root st l l1 o :
  make_explicit st l = Ok l1 -> keys_ok l -> l <> [] -> TopoX l1 o ->
  exists s, nth_error l (root_pos st l) = Some s /\ is_head (s_name s) o.
Proof.
  intros He Hk Hne [Hp Ho]. pose proof (make_explicit_names _ _ _ He) as Hn.
  destruct o as [|h r].
  { apply Permutation_nil in Hp. rewrite Hn in Hp. destruct l; [congruence | discriminate]. }
  assert (Hin : In h (map s_name l1)) by (eapply Permutation_in; [exact Hp | left; reflexivity]).
  apply in_map_iff in Hin as [s1 [Hs1 Hin]].
  specialize (Ho [] h r eq_refl s1 Hin Hs1).
  apply In_nth_error in Hin as [k Hk1].
  destruct (Nat.eq_dec k (root_pos st l)) as [->|Hneq].
  - destruct (make_explicit_inv _ _ _ _ _ He Hk1) as [s [Hs [-> _]]].
    exists s. split; [exact Hs|]. exists r. simpl in Hs1. congruence.
  - exfalso. apply (nonroot_has_ref _ _ _ _ _ He Hk1 Hneq).
    destruct (refs_of s1) as [|x xs]; [reflexivity|]. destruct (Ho x (or_introl eq_refl)).
Qed.

Lemma keys_explicit st l l1 : make_explicit st l = Ok l1 -> keys_ok l -> keys_ok l1.
Proof. unfold keys_ok. intros He. rewrite (make_explicit_names _ _ _ He). auto. Qed.

(** ** Decomposition of a successful level *)
Lemma determine_level_ok st reps l out d :
  keys_ok l -> determine_level st reps l = Ok (out, d) ->
  exists l1 o F root,
    make_explicit st l = Ok l1 /\ refs_known l1 = true /\ TopoX l1 o /\
    nth_error l (root_pos st l) = Some root /\ is_head (s_name root) o /\
    resolve st o l1 = Ok F /\ Solves st l1 (s_name root) F /\
    out = normalize F /\ d = schedule_duration reps out.
Proof.
  intros Hk H. unfold determine_level in H. destruct l as [|a r] eqn:El; [discriminate|]. rewrite <- El in *.
  apply bind_ok in H as [l1 [He H]].
  destruct (refs_known l1) eqn:Er; simpl in H; [|discriminate].
  destruct (topo_sort l1) as [o|] eqn:Eo; [|discriminate].
  apply bind_ok in H as [F [HF H]]. inversion H; subst out d; clear H.
  assert (Hk1 : keys_ok l1) by (eapply keys_explicit; eauto).
  pose proof (topo_sort_topo _ _ Hk1 Eo) as Ht.
  destruct (topo_head_root st l l1 o He Hk ltac:(subst; discriminate) Ht) as [root [Hroot Hhead]].
  exists l1, o, F, root. repeat split; try assumption; try (apply Ht).
  - eapply resolve_solves; eauto.
  - eapply resolve_solves; eauto.
Qed.

Lemma get_starts F n s t : get_sch F n = Some s -> s_abs s = Some t -> Starts F n t.
Proof. intros H1 H2. apply get_sch_some in H1 as [H1 H3]. exists s. auto. Qed.

Lemma starts_unique F n t t' : keys_ok F -> Starts F n t -> Starts F n t' -> t = t'.
Proof.
  intros Hk [s [H1 [H2 H3]]] [s' [H1' [H2' H3']]].
  apply get_sch_in in H1; [|exact Hk]. apply get_sch_in in H1'; [|exact Hk].
  rewrite H2 in H1. rewrite H2' in H1'. congruence.
Qed.

(** A successful [get_start_time] for a constraint after defaults and delays means what the
    specification says. *)
Lemma gst_implied st l l1 F h k s j c t :
  keys_ok l -> make_explicit st l = Ok l1 -> Solves st l1 h F ->
  nth_error l k = Some s -> nth_error (s_tcs s) j = Some c ->
  forall c2, nth_error (delayed l1 (explicit_tcs st (spec_default st l k) (s_tcs s))) j = Some c2 ->
  get_start_time F c2 (s_dur s) = Ok t ->
  exists q, Implied st l F k j c q /\ q == t.
Proof.
  intros Hk He [HFn HFe] Hs Hj c2 Hj2 Hgst.
  unfold delayed in Hj2. rewrite nth_error_map, (explicit_tcs_nth _ _ _ _ _ Hj) in Hj2. simpl in Hj2.
  set (c1 := match j with O => _ | S _ => c end) in Hj2.
  assert (Hc1ref : tc_ref c1 = the_ref st l k j c).
  { unfold c1, the_ref. destruct j; simpl; [|destruct (tc_ref c); reflexivity].
    destruct (tc_ref c); simpl; [reflexivity|]. unfold spec_default. destruct st, k; reflexivity. }
  assert (Hc1rel : tc_rel c1 = tc_rel c) by (unfold c1; destruct j; reflexivity).
  assert (Hc1pt : or_else (tc_pt c1) (Some PtEnd) = Some (the_pt st j c)).
  { unfold c1, the_pt. destruct j; simpl; destruct (tc_pt c), st; reflexivity. }
  assert (Hc1ptn : or_else (tc_ptnew c1) (Some PtStart) = Some (the_ptnew st j c)).
  { unfold c1, the_ptnew. destruct j; simpl; destruct (tc_ptnew c), st; reflexivity. }
  clearbody c1.
  destruct (tc_ref c1) as [r|] eqn:Er1.
  2:{ inversion Hj2; subst c2. unfold get_start_time in Hgst. rewrite Er1 in Hgst. discriminate. }
  assert (Hc2 : tc_ref c2 = Some r /\ tc_pt c2 = tc_pt c1 /\ tc_ptnew c2 = tc_ptnew c1 /\
                tc_rel c2 == tc_rel c1 + match delay_in l1 r with Some d => d | None => 0 end).
  { destruct (delay_in l1 r); inversion Hj2; subst c2; simpl; repeat split; try assumption; lra. }
  destruct Hc2 as [Hr2 [Hp2 [Hpn2 Hrel2]]].
  unfold get_start_time in Hgst. rewrite Hr2 in Hgst.
  destruct (get_sch F r) as [rs|] eqn:Egr; [|discriminate].
  destruct (s_abs rs) as [tr|] eqn:Ea; [|discriminate].
  assert (Hrin : In r (map s_name l)).
  { rewrite <- (make_explicit_names _ _ _ He), <- HFn. eapply get_sch_not_none; eauto. }
  apply in_map_iff in Hrin as [sr [Hsrn Hsr]].
  assert (Hsr1 : exists x, get_sch l1 r = Some (set_tcs sr x)).
  { apply In_nth_error in Hsr as [kr Hkr].
    destruct (make_explicit_nth _ _ _ He) as [_ Hnth]. destruct (Hnth _ _ Hkr) as [Hkr1 _].
    eexists. subst r. change (s_name sr) with (s_name (set_tcs sr (explicit_tcs st (spec_default st l kr) (s_tcs sr)))).
    apply get_sch_in; [eapply keys_explicit; eauto | eapply nth_error_In; eauto]. }
  destruct Hsr1 as [x Hsr1].
  assert (Hdur : s_dur rs = s_dur sr).
  { pose proof (get_sch_some _ _ _ Hsr1) as [Hin1 Hnm1].
    destruct (HFe _ Hin1) as [a [Hga _]]. simpl in Hga. rewrite Hsrn, Egr in Hga. inversion Hga. reflexivity. }
  assert (Hdel : delay_in l1 r = s_delay sr).
  { unfold delay_in. rewrite Hsr1. reflexivity. }
  rewrite Hp2, Hpn2, Hc1pt, Hc1ptn, Hdur in Hgst. rewrite Hdel, Hc1rel in Hrel2.
  apply bind_ok in Hgst as [t0 [Ht0 Hgst]].
  assert (Hoff : exists off, pt_offset (the_pt st j c) (s_dur sr) = Some off /\ t0 == tr + off).
  { destruct (the_pt st j c); simpl in *; inversion Ht0; subst; eexists; (split; [reflexivity|]); lra. }
  destruct Hoff as [off [Hoff Ht0']].
  assert (Hoffn : exists offn, pt_offset (the_ptnew st j c) (s_dur s) = Some offn /\ t == t0 + tc_rel c2 - offn).
  { destruct (the_ptnew st j c); simpl in *; inversion Hgst; subst; eexists; (split; [reflexivity|]); lra. }
  destruct Hoffn as [offn [Hoffn Ht']].
  exists (tr + off + tc_rel c + delay_or_0 sr - offn). split.
  - eapply Implied_intro with (s := s); eauto. eapply get_starts; eauto.
  - unfold delay_or_0. rewrite Ht', Ht0', Hrel2. destruct (s_delay sr); lra.
Qed.

(** the running maximum *)
Lemma fold_max_spec F d : forall cs cur r,
  foldM (max_step F d) cs cur = Ok r ->
  match r with
  | None => cs = [] /\ cur = None
  | Some m =>
      (forall c, In c cs -> exists t, get_start_time F c d = Ok t /\ t <= m) /\
      (match cur with Some old => old <= m | None => True end) /\
      ((exists c, In c cs /\ get_start_time F c d = Ok m) \/ cur = Some m)
  end.
Proof.
  induction cs as [|c cs IH]; intros cur r H; simpl in H.
  - inversion H; subst. destruct r; [|auto]. split; [intros c []|]. split; [lra | right; reflexivity].
  - apply bind_ok in H as [cur' [H1 H2]]. unfold max_step in H1. apply bind_ok in H1 as [t [Ht H1]].
    inversion H1; subst cur'; clear H1. specialize (IH _ _ H2).
    destruct r as [m|].
    2:{ destruct IH as [_ IH]. destruct cur; [destruct (Qlt_bool _ _)|]; discriminate. }
    destruct IH as [IH1 [IH2 IH3]].
    assert (Htm : t <= m).
    { destruct cur as [old|]; [|exact IH2]. destruct (Qlt_bool old t) eqn:E; [exact IH2|].
      apply Qlt_bool_false in E. lra. }
    split; [|split].
    + intros c' [<-|Hin]; [exists t; auto | apply IH1; exact Hin].
    + destruct cur as [old|]; [|exact I]. destruct (Qlt_bool old t) eqn:E; [|exact IH2].
      apply Qlt_bool_true in E. lra.
    + destruct IH3 as [[c' [Hc' Hm]]|Heq].
      * left. exists c'. split; [right; exact Hc' | exact Hm].
      * destruct cur as [old|].
        -- destruct (Qlt_bool old t); inversion Heq; subst.
           ++ left. exists c. split; [left; reflexivity | exact Ht].
           ++ right; reflexivity.
        -- inversion Heq; subst. left. exists c. split; [left; reflexivity | exact Ht].
Qed.

(** ** Normalisation *)
Lemma min_list_spec : forall l d,
  min_list d l <= d /\ (forall x, In x l -> min_list d l <= x) /\ (min_list d l = d \/ In (min_list d l) l).
Proof.
  induction l as [|x r IH]; intros d; simpl.
  - split; [lra|]. split; [intros x []|]. left; reflexivity.
  - destruct (IH (if Qlt_bool x d then x else d)) as [H1 [H2 H3]].
    destruct (Qlt_bool x d) eqn:E.
    + apply Qlt_bool_true in E. split; [lra|]. split; [intros y [<-|Hy]; [exact H1 | auto]|].
      destruct H3 as [->|H3]; [right; left; reflexivity | right; right; exact H3].
    + apply Qlt_bool_false in E. split; [exact H1|]. split; [intros y [<-|Hy]; [lra | auto]|].
      destruct H3 as [H3|H3]; [left; exact H3 | right; right; exact H3].
Qed.


(** Normalisation is a common shift. *)
Lemma normalize_shift l :
  timed l ->
  exists d, 0 <= d /\
    (normalize l = l /\ d == 0 /\ (forall s, In s l -> 0 <= abs_of s)
     \/ 0 < d /\ normalize l = map (fun s => set_abs s (Some (abs_of s + d))) l /\
        (forall s, In s l -> 0 <= abs_of s + d) /\ (exists s, In s l /\ abs_of s + d == 0)).
Proof.
  intros Ht. destruct l as [|s r]; [exists 0; split; [lra|]; left; split; [reflexivity|]; split; [lra|]; intros s []|].
  unfold normalize. set (m := min_list (abs_of s) (map abs_of r)).
  destruct (min_list_spec (map abs_of r) (abs_of s)) as [H1 [H2 H3]]. fold m in H1, H2, H3.
  assert (Hall : forall x, In x (s :: r) -> m <= abs_of x).
  { intros x [<-|Hx]; [exact H1|]. apply H2. apply in_map; exact Hx. }
  destruct (Qlt_bool m 0) eqn:E.
  - apply Qlt_bool_true in E. exists (- m). split; [lra|]. right.
    split; [lra|]. split; [reflexivity|]. split.
    + intros x Hx. specialize (Hall x Hx). lra.
    + destruct H3 as [H3|H3].
      * exists s. split; [left; reflexivity|]. rewrite H3. lra.
      * apply in_map_iff in H3 as [x [Hx1 Hx2]]. exists x. split; [right; exact Hx2|]. rewrite Hx1. lra.
  - apply Qlt_bool_false in E. exists 0. split; [lra|]. left. split; [reflexivity|]. split; [lra|].
    intros x Hx. specialize (Hall x Hx). lra.
Qed.

Lemma normalize_names l : map s_name (normalize l) = map s_name l.
Proof.
  destruct l as [|s r]; [reflexivity|]. unfold normalize.
  destruct (Qlt_bool _ _); [|reflexivity]. rewrite map_map. reflexivity.
Qed.

Lemma normalize_starts l : timed l -> exists d, 0 <= d /\
  forall n t, Starts l n t -> exists t', Starts (normalize l) n t' /\ t' == t + d.
Proof.
  intros Ht. destruct (normalize_shift l Ht) as [d [Hd [[Heq [Hd0 _]]|[Hd1 [Heq _]]]]]; exists d; (split; [exact Hd|]);
    rewrite Heq; intros n t [s [H1 [H2 H3]]].
  - exists t. split; [exists s; auto | lra].
  - exists (t + d). split; [|lra]. eexists. split; [apply in_map_iff; exists s; split; [reflexivity|exact H1]|].
    simpl. split; [exact H2|]. unfold abs_of. rewrite H3. reflexivity.
Qed.

Lemma normalize_starts_inv l n t' : timed l -> Starts (normalize l) n t' -> exists t, Starts l n t.
Proof.
  intros Ht [s [H1 [H2 H3]]].
  assert (Hin : In n (map s_name l)). { rewrite <- (normalize_names l), <- H2. apply in_map; exact H1. }
  apply in_map_iff in Hin as [s0 [Hn Hin]]. destruct (Ht s0 Hin) as [t Ht0]. exists t, s0. auto.
Qed.

Lemma implied_shift st l F out k j c q d :
  (forall n t, Starts F n t -> exists t', Starts out n t' /\ t' == t + d) ->
  Implied st l F k j c q -> exists q', Implied st l out k j c q' /\ q' == q + d.
Proof.
  intros Hsh H. destruct H as [s r sr tr off offn H1 H2 H3 H4 H5 H6 H7].
  destruct (Hsh _ _ H5) as [tr' [H5' Heq]].
  eexists. split; [eapply Implied_intro; eauto|]. lra.
Qed.

(** Every schedulable gets a start time. *)
Lemma solves_timed st l l1 h F :
  keys_ok l -> make_explicit st l = Ok l1 -> Solves st l1 h F -> timed F.
Proof.
  intros Hk He [HFn HFe] s Hs.
  assert (HkF : keys_ok F). { unfold keys_ok. rewrite HFn. eapply keys_explicit; eauto. }
  assert (Hin : In (s_name s) (map s_name l1)) by (rewrite <- HFn; apply in_map; exact Hs).
  apply in_map_iff in Hin as [s1 [Hn1 Hin1]].
  destruct (HFe _ Hin1) as [a [Hg Hc]].
  rewrite Hn1, (get_sch_in F s HkF Hs) in Hg.
  assert (Hg' : s_abs s = a) by (assert (Hs' : s = set_abs (set_tcs s1 (delayed l1 (s_tcs s1))) a) by congruence; rewrite Hs'; reflexivity).
  rewrite Hg'. clear Hg Hg'.
  destruct (String.eqb (s_name s1) h); [subst a; eauto|].
  apply In_nth_error in Hin1 as [k Hk1].
  destruct (make_explicit_inv _ _ _ _ _ He Hk1) as [s0 [Hs0 [Hs1 Hne]]].
  assert (Hne1 : delayed l1 (s_tcs s1) <> []).
  { subst s1. simpl. destruct (s_tcs s0); [congruence|]. simpl. discriminate. }
  unfold compute_abs in Hc. destruct st.
  - apply fold_max_spec in Hc. destruct a as [m|]; [eauto|]. destruct Hc as [Hc _]. contradiction.
  - destruct (delayed l1 (s_tcs s1)); [congruence|]. apply bind_ok in Hc as [tt0 [_ Hc]]. inversion Hc. eauto.
Qed.
