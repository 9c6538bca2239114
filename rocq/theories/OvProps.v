(** Lemmas for C61. *)
From Coq Require Import Permutation.
From Verif Require Import Base QSort OvModel OvSpec.
Local Open Scope Q_scope.
Local Open Scope string_scope.

Lemma qlt : forall a b, Qlt_bool a b = true <-> a < b.
Proof. intros. unfold Qlt_bool. rewrite negb_true_iff. split; intros H; [destruct (Qlt_le_dec a b) as [L|L]; auto; apply Qle_bool_iff in L; congruence | destruct (Qle_bool b a) eqn:E; auto; apply Qle_bool_iff in E; lra]. Qed.
Lemma qlt_not : forall a b, Qlt_bool a b = false <-> b <= a.
Proof. intros. unfold Qlt_bool. rewrite negb_false_iff. apply Qle_bool_iff. Qed.

Section Ind.
  Variable P : item -> Prop.
  Hypothesis H1 : forall l, Forall (fun sx => P (snd sx)) l -> P (Sched l).
  Hypothesis H2 : forall n b, P b -> P (Loop n b).
  Hypothesis H3 : forall b, P b -> P (Cond b).
  Hypothesis H4 : forall o, P (Leaf o).
  Fixpoint item_ind' (x : item) : P x :=
    match x with
    | Sched l => H1 l ((fix go l : Forall (fun sx => P (snd sx)) l := match l with [] => Forall_nil _ | (s, y) :: r => Forall_cons (s, y) (item_ind' y) (go r) end) l)
    | Loop n b => H2 n b (item_ind' b) | Cond b => H3 b (item_ind' b) | Leaf o => H4 o
    end.
End Ind.

Lemma offset_valid : forall o, has_voltage_offset o = true -> valid_pulse o = true.
Proof. intros o H. unfold has_voltage_offset in H. unfold valid_pulse. destruct (oinfos o); [discriminate H|reflexivity]. Qed.
Lemma offset_spec : forall o, has_voltage_offset o = true <-> with_offset o.
Proof.
  intros o. unfold has_voltage_offset, with_offset. rewrite existsb_exists. split; intros [i [I H]]; exists i; (split; [exact I|]); unfold has_offset_key in *; destruct (ioffI i); auto.
  - left. discriminate.
  - destruct H as [H|H]; [now destruct H | exact H].
Qed.
(** what is checked: every operation with pulse information, at every time it occurs *)
Lemma collected : forall x t u o, In (u, o) (collect x t) <-> occurs x t u o /\ oinfos o <> [].
Proof.
  induction x as [l IH|n b IH|b IH|o'] using item_ind'; intros t u o; cbn [collect].
  - induction l as [|[s y] l IHl]; [cbn [In]; split; [intros [] | intros [H _]; inversion H; subst; contradiction]|].
    inversion IH as [|? ? Hy Hl]; subst. cbn [snd] in Hy. rewrite in_app_iff, Hy, (IHl Hl). split.
    + intros [[H E]|[H E]]; (split; [|exact E]).
      * eapply occurs_sched; [left; reflexivity | exact H].
      * inversion H as [|l0 s0 x t0 u0 o0 I Q| |]; subst. eapply occurs_sched; [right; exact I | exact Q].
    + intros [H E]. inversion H as [|l0 s0 x t0 u0 o0 I Q| |]; subst; destruct I as [I|I]; [injection I as <- <-; left; auto | right; split; auto; eapply occurs_sched; eauto].
  - rewrite IH. split; intros [H E]; (split; [|exact E]); [now constructor | now inversion H].
  - rewrite IH. split; intros [H E]; (split; [|exact E]); [now constructor | now inversion H].
  - unfold valid_pulse at 1. destruct (oinfos o') as [|i r] eqn:E.
    + unfold has_voltage_offset. rewrite E. cbn. split; [intros [] | intros [H N]; inversion H; subst; auto].
    + cbn [orb]. split; [intros [H|[]]; injection H as <- <-; split; [constructor | congruence] | intros [H N]; inversion H; subst; now left].
Qed.
Lemma collected_valid : forall x t, Forall (fun y => valid_pulse (snd y) = true) (collect x t).
Proof.
  intros x t. apply Forall_forall. intros [u o] H. apply collected in H. destruct H as [_ H]. unfold valid_pulse. cbn. destruct (oinfos o); [congruence|reflexivity].
Qed.
Lemma insertq_perm : forall A (f : A -> Q) x l, Permutation (insertq f x l) (x :: l).
Proof. intros A f x. induction l as [|y l IH]; cbn; [reflexivity|]. destruct (Qle_bool (f x) (f y)); [reflexivity|]. rewrite IH. apply perm_swap. Qed.
Lemma sortq_perm : forall A (f : A -> Q) l, Permutation (sortq f l) l.
Proof. intros A f. induction l as [|x l IH]; [reflexivity|]. rewrite sortq_cons, insertq_perm. now constructor. Qed.
Lemma two_perm : forall A (l m : list A) a b, Permutation l m -> two l a b -> two m a b.
Proof. intros A l m a b P [r H]. exists r. now rewrite <- P. Qed.
Lemma two_sym : forall A (l : list A) a b, two l a b -> two l b a.
Proof. intros A l a b [r H]. exists r. rewrite H. apply perm_swap. Qed.
Lemma two_split : forall A (l1 l2 l3 : list A) a b, two (l1 ++ a :: l2 ++ b :: l3) a b.
Proof.
  intros A l1 l2 l3 a b. exists (l1 ++ l2 ++ l3)%list. rewrite <- Permutation_middle. constructor.
  rewrite app_assoc. rewrite <- Permutation_middle. now rewrite <- app_assoc.
Qed.
Lemma two_in : forall A (l : list A) a b, two l a b -> In a l /\ In b l.
Proof. intros A l a b [r H]. split; (eapply Permutation_in; [symmetry; exact H|]); cbn; auto. Qed.
(** two entries of a list are one before the other *)
Lemma two_order : forall A (l : list A) a b, two l a b -> exists l1 l2 l3, l = (l1 ++ a :: l2 ++ b :: l3)%list \/ l = (l1 ++ b :: l2 ++ a :: l3)%list.
Proof.
  intros A l a b [r H]. assert (I : In a l) by (eapply Permutation_in; [symmetry; exact H | now left]). apply in_split in I. destruct I as [p [q ->]].
  assert (P : Permutation (p ++ q) (b :: r)) by (apply (Permutation_cons_inv (a := a)); rewrite Permutation_middle; exact H).
  assert (J : In b (p ++ q)) by (eapply Permutation_in; [symmetry; exact P | now left]). apply in_app_or in J. destruct J as [J|J]; apply in_split in J; destruct J as [x [y ->]].
  - exists x, y, q. right. now rewrite <- app_assoc.
  - exists p, x, y. now left.
Qed.

(** the extents *)
Lemma lookup_insert : forall A k k' (v : A) l, lookup k (insert k' v l) = if k =? k' then Some v else lookup k l.
Proof.
  intros A k k' v. induction l as [|[h w] l IH]; cbn; [reflexivity|]. destruct (k' =? h) eqn:E; cbn.
  - apply String.eqb_eq in E. subst h. destruct (k =? k'); reflexivity.
  - rewrite IH. destruct (k =? h) eqn:F, (k =? k') eqn:G; auto. apply String.eqb_eq in F, G. subst. rewrite String.eqb_refl in E. discriminate E.
Qed.
Lemma lookup_key : forall A k (v : A) l, lookup k l = Some v -> In k (map fst l).
Proof. intros A k v. induction l as [|[h w] l IH]; cbn; [easy|]. destruct (k =? h) eqn:E; [apply String.eqb_eq in E; auto | auto]. Qed.
Definition sounding (i : info) : bool := negb (negb (iwf i) && match ioffI i with Some (Some _) => false | _ => true end).
Lemma sounding_spec : forall i, sounding i = true <-> sounds i.
Proof.
  intros i. unfold sounding, sounds. destruct (iwf i), (ioffI i) as [[v|]|]; cbn; split; auto; try discriminate; try (intros _; right; eauto); intros [H|[v' H]]; discriminate H.
Qed.
(** extent of a part of the pulse information *)
Definition extent_of (t : Q) (l : list info) (k : string) (s e : Q) : Prop :=
  (exists i, In i l /\ sounds i /\ key i = k /\ s == t + it0 i) /\ (exists i, In i l /\ sounds i /\ key i = k /\ e == t + it0 i + idur i) /\
  forall i, In i l -> sounds i -> key i = k -> s <= t + it0 i /\ t + it0 i + idur i <= e.
Definition sane (t : Q) (l : list info) (d : list (string * (Q * Q))) : Prop :=
  forall k, match lookup k d with Some (s, e) => extent_of t l k s e | None => forall i, In i l -> sounds i -> key i <> k end.
Lemma start_ends_sane : forall t l done d, sane t done d ->
  sane t (done ++ l) (fold_left (fun d i =>
    if negb (iwf i) && match ioffI i with Some (Some _) => false | _ => true end then d else
    let s := t + it0 i in let e := s + idur i in
    insert (key i) (match lookup (key i) d with None => (s, e) | Some (ps, pe) => (Qmin s ps, Qmax e pe) end) d) l d).
Proof.
  intros t. induction l as [|i l IH]; intros done d S; [now rewrite app_nil_r|]. cbn [fold_left].
  replace (done ++ i :: l)%list with ((done ++ [i]) ++ l)%list by now rewrite <- app_assoc. apply IH. clear IH. intros k. pose proof (S k) as Sk.
  assert (Si : sounding i = negb (negb (iwf i) && match ioffI i with Some (Some _) => false | _ => true end)) by reflexivity.
  destruct (negb (iwf i) && match ioffI i with Some (Some _) => false | _ => true end) eqn:E; cbn [negb] in Si.
  - assert (N : ~ sounds i) by (rewrite <- sounding_spec; congruence). destruct (lookup k d) as [[s e]|].
    + destruct Sk as [[a [A1 A2]] [[b [B1 B2]] C]]. split; [exists a; split; [apply in_or_app; now left | exact A2]|]. split; [exists b; split; [apply in_or_app; now left | exact B2]|].
      intros j Hj Sj Kj. apply in_app_or in Hj. destruct Hj as [Hj|[<-|[]]]; [auto | now destruct N].
    + intros j Hj Sj. apply in_app_or in Hj. destruct Hj as [Hj|[<-|[]]]; [auto | now destruct N].
  - apply sounding_spec in Si. rewrite lookup_insert. destruct (k =? key i) eqn:K.
    + apply String.eqb_eq in K. subst k. destruct (lookup (key i) d) as [[s e]|].
      * destruct Sk as [[a [A1 [A2 [A3 A4]]]] [[b [B1 [B2 [B3 B4]]]] C]]. split; [|split].
        -- destruct (Q.min_spec (t + it0 i) s) as [[_ M]|[_ M]]; [exists i | exists a]; (split; [apply in_or_app; cbn; auto|]); (split; [assumption|]); (split; [auto|]); rewrite M; first [reflexivity | exact A4].
        -- destruct (Q.max_spec (t + it0 i + idur i) e) as [[_ M]|[_ M]]; [exists b | exists i]; (split; [apply in_or_app; cbn; auto|]); (split; [assumption|]); (split; [auto|]); rewrite M; first [exact B4 | reflexivity].
        -- intros j Hj Sj Kj. apply in_app_or in Hj. pose proof (Q.le_min_l (t + it0 i) s). pose proof (Q.le_min_r (t + it0 i) s).
           pose proof (Q.le_max_l (t + it0 i + idur i) e). pose proof (Q.le_max_r (t + it0 i + idur i) e). destruct Hj as [Hj|[<-|[]]]; [destruct (C j Hj Sj Kj); split; lra | split; lra].
      * split; [|split].
        -- exists i. split; [apply in_or_app; cbn; auto|]. (split; [assumption|]); (split; [auto|]). reflexivity.
        -- exists i. split; [apply in_or_app; cbn; auto|]. (split; [assumption|]); (split; [auto|]). reflexivity.
        -- intros j Hj Sj Kj. apply in_app_or in Hj. destruct Hj as [Hj|[<-|[]]]; [now destruct (Sk j Hj Sj) | split; lra].
    + apply String.eqb_neq in K. destruct (lookup k d) as [[s e]|].
      * destruct Sk as [[a [A1 A2]] [[b [B1 B2]] C]]. split; [exists a; split; [apply in_or_app; now left | exact A2]|]. split; [exists b; split; [apply in_or_app; now left | exact B2]|].
        intros j Hj Sj Kj. apply in_app_or in Hj. destruct Hj as [Hj|[<-|[]]]; [auto | congruence].
      * intros j Hj Sj. apply in_app_or in Hj. destruct Hj as [Hj|[<-|[]]]; [auto | congruence].
Qed.
Lemma start_ends_spec : forall x k, match lookup k (start_ends (fst x) (snd x)) with Some (s, e) => extent x k s e | None => forall s e, ~ extent x k s e end.
Proof.
  intros [t o] k. cbn [fst snd]. assert (S : sane t [] []) by (intros h; cbn; easy). pose proof (start_ends_sane t (oinfos o) [] [] S k) as H. cbn [app] in H. unfold start_ends.
  match goal with |- match ?X with _ => _ end => change (match X with Some (s, e) => extent_of t (oinfos o) k s e | None => forall i, In i (oinfos o) -> sounds i -> key i <> k end) in H; destruct X as [[s e]|] end; [exact H|].
  intros s e [[i [A [B [C _]]]] _]. exact (H i A B C).
Qed.
Lemma extent_unique : forall x k s e s' e', extent x k s e -> extent x k s' e' -> s == s' /\ e == e'.
Proof.
  intros x k s e s' e' [[a [A1 [A2 [A3 A4]]]] [[b [B1 [B2 [B3 B4]]]] C]] [[a' [A1' [A2' [A3' A4']]]] [[b' [B1' [B2' [B3' B4']]]] C']].
  pose proof (C a' A1' A2' A3') as [? _]. pose proof (C' a A1 A2 A3) as [? _]. pose proof (C b' B1' B2' B3') as [_ ?]. pose proof (C' b B1 B2 B3) as [_ ?]. split; lra.
Qed.
Lemma extent_le : forall x k s e, durations_ok (snd x) -> extent x k s e -> s <= e.
Proof. intros x k s e D [[i [A1 [A2 [A3 A4]]]] [_ C]]. destruct (C i A1 A2 A3) as [_ L]. unfold durations_ok in D. rewrite Forall_forall in D. specialize (D i A1). cbn in D. lra. Qed.

(** the test *)
Lemma crosses_spec : forall s e s' e', s <= e -> s' <= e' -> (crosses (s, e) (s', e') = true <-> overlap s e s' e' /\ ~ (s == s' /\ e == e')).
Proof.
  intros s e s' e' L L'. unfold crosses. rewrite !orb_true_iff, !andb_true_iff, !qlt. split.
  - intros [[[[A B]|[A B]]|[A B]]|[A B]]; (split; [|intros [E F]; lra]).
    + exists s. left. lra.
    + exists e. left. lra.
    + exists s'. right. lra.
    + exists e'. right. lra.
  - intros [[x [[A B]|[A B]]] N].
    + destruct (Qlt_le_dec s' s) as [C|C]; [left; left; left; lra|]. destruct (Qlt_le_dec e e') as [D|D]; [left; left; right; lra|].
      destruct (Qlt_le_dec s s') as [E|E]; [left; right; lra|]. destruct (Qlt_le_dec e' e) as [F|F]; [right; lra|]. destruct N. split; lra.
    + destruct (Qlt_le_dec s s') as [C|C]; [left; right; lra|]. destruct (Qlt_le_dec e' e) as [D|D]; [right; lra|].
      destruct (Qlt_le_dec s' s) as [E|E]; [left; left; left; lra|]. destruct (Qlt_le_dec e e') as [F|F]; [left; left; right; lra|]. destruct N. split; lra.
Qed.
Definition detected (a b : Q * oper) : Prop := exists k s e s' e', extent a k s e /\ extent b k s' e' /\ overlap s e s' e' /\ ~ (s == s' /\ e == e').
Lemma overlap_eq : forall s e s' e' t f t' f', overlap s e s' e' -> s == t -> e == f -> s' == t' -> e' == f' -> overlap t f t' f'.
Proof. intros s e s' e' t f t' f' [x [H|H]] A B C D; exists x; [left|right]; lra. Qed.
Lemma check_spec : forall a b, durations_ok (snd a) -> durations_ok (snd b) ->
  (check a b = Err RuntimeError /\ detected a b) \/ (check a b = Ok tt /\ ~ detected a b).
Proof.
  intros a b Da Db. unfold check. destruct (existsb _ _) eqn:E; [left | right]; (split; [reflexivity|]).
  - apply existsb_exists in E. destruct E as [k [_ E]]. pose proof (start_ends_spec a k) as Sa. pose proof (start_ends_spec b k) as Sb.
    destruct (lookup k (start_ends (fst a) (snd a))) as [[s e]|]; [|discriminate E]. destruct (lookup k (start_ends (fst b) (snd b))) as [[s' e']|]; [|discriminate E].
    pose proof (extent_le _ _ _ _ Da Sa). pose proof (extent_le _ _ _ _ Db Sb). apply crosses_spec in E; auto. destruct E as [E1 E2]. exists k, s, e, s', e'. auto.
  - intros [k [s [e [s' [e' [Xa [Xb [O N]]]]]]]]. pose proof (start_ends_spec a k) as Sa. pose proof (start_ends_spec b k) as Sb.
    destruct (lookup k (start_ends (fst a) (snd a))) as [[sa ea]|] eqn:La; [|now destruct (Sa s e)]. destruct (lookup k (start_ends (fst b) (snd b))) as [[sb eb]|] eqn:Lb; [|now destruct (Sb s' e')].
    destruct (extent_unique _ _ _ _ _ _ Xa Sa) as [E1 E2]. destruct (extent_unique _ _ _ _ _ _ Xb Sb) as [E3 E4].
    assert (C : crosses (sa, ea) (sb, eb) = true).
    { apply crosses_spec; [exact (extent_le _ _ _ _ Da Sa) | exact (extent_le _ _ _ _ Db Sb)|]. split; [exact (overlap_eq _ _ _ _ _ _ _ _ O E1 E2 E3 E4)|]. intros [F G]. apply N. lra. }
    assert (T : existsb (fun k => match lookup k (start_ends (fst a) (snd a)), lookup k (start_ends (fst b) (snd b)) with Some x, Some y => crosses x y | _, _ => false end)
                        (map fst (start_ends (fst a) (snd a))) = true).
    { apply existsb_exists. exists k. split; [eapply lookup_key; exact La|]. now rewrite La, Lb. }
    congruence.
Qed.
