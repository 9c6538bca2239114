(** Python's [sorted(l, key=...)] with a rational key: stable. *)
From Verif Require Import Base.
Open Scope Q_scope.

Fixpoint insertq {A} (key : A -> Q) (x : A) (l : list A) : list A :=
  match l with [] => [x] | y :: r => if Qle_bool (key x) (key y) then x :: l else y :: insertq key x r end.
Definition sortq {A} (key : A -> Q) (l : list A) : list A := fold_right (insertq key) [] l.

Section S.
Context {A : Type} (key : A -> Q).

Fixpoint srtq (l : list A) : Prop :=
  match l with [] => True | x :: r => Forall (fun y => key x <= key y) r /\ srtq r end.

Lemma insertq_In x l y : In y (insertq key x l) <-> y = x \/ In y l.
Proof.
  induction l as [|z l IH]; cbn [insertq]; [cbn; intuition congruence|].
  destruct (Qle_bool (key x) (key z)); cbn; rewrite ?IH; cbn; intuition congruence.
Qed.
Lemma sortq_cons x l : sortq key (x :: l) = insertq key x (sortq key l). Proof. reflexivity. Qed.
Lemma sortq_In l y : In y (sortq key l) <-> In y l.
Proof. induction l as [|x l IH]; [reflexivity|]. rewrite sortq_cons, insertq_In, IH. cbn. intuition congruence. Qed.
Lemma insertq_srt x l : srtq l -> srtq (insertq key x l).
Proof.
  induction l as [|y l IH]; cbn [insertq srtq]; [intros _; split; [constructor|exact I]|]. intros [H1 H2].
  destruct (Qle_bool (key x) (key y)) eqn:E.
  - apply Qle_bool_iff in E. cbn [srtq]. split; [|split; assumption]. constructor; [exact E|].
    eapply Forall_impl; [|exact H1]. intros a Ha. cbn in Ha. lra.
  - assert (key y <= key x) as E'. { destruct (Qlt_le_dec (key x) (key y)) as [L|L]; [|exact L]. assert (Qle_bool (key x) (key y) = true) by (apply Qle_bool_iff; lra). congruence. }
    cbn [srtq]. split; [|auto]. apply Forall_forall. intros z Hz. apply insertq_In in Hz. destruct Hz as [->|Hz]; [exact E'|].
    rewrite Forall_forall in H1. apply H1, Hz.
Qed.
Lemma sortq_srt l : srtq (sortq key l). Proof. induction l; [exact I|]. rewrite sortq_cons. apply insertq_srt, IHl. Qed.
Lemma srtq_app l1 l2 : srtq (l1 ++ l2) <-> srtq l1 /\ srtq l2 /\ (forall x y, In x l1 -> In y l2 -> key x <= key y).
Proof.
  induction l1 as [|x l1 IH]; cbn [app srtq].
  - split; [intros H; repeat split; [exact H|intros ? ? []]|tauto].
  - rewrite Forall_app, IH, !Forall_forall. split.
    + intros [[H1 H2] [H3 [H4 H5]]]. repeat split; auto. intros a b [<-|Ha] Hb; auto.
    + intros [[H1 H2] [H3 H4]]. repeat split; auto; intros; apply H4; cbn; auto.
Qed.
(** Stability: the element that is the last one among the greatest keys comes last. *)
Lemma insertq_last_ge e l : (forall x, In x l -> key x < key e) -> insertq key e l = l ++ [e].
Proof.
  induction l as [|x l IH]; intros H; [reflexivity|]. cbn [insertq]. destruct (Qle_bool (key e) (key x)) eqn:E.
  - apply Qle_bool_iff in E. specialize (H x (or_introl eq_refl)). lra.
  - cbn. f_equal. apply IH. intros y Hy. apply H. right. exact Hy.
Qed.
Lemma insertq_keep_last x l e : key x <= key e -> exists l', insertq key x (l ++ [e]) = l' ++ [e].
Proof.
  intros H. induction l as [|y l IH]; cbn [app insertq].
  - apply Qle_bool_iff in H. rewrite H. exists [x]. reflexivity.
  - destruct (Qle_bool (key x) (key y)); [exists (x :: y :: l); reflexivity|]. destruct IH as [l' ->]. exists (y :: l'). reflexivity.
Qed.
Lemma sortq_last l1 e l2 : (forall x, In x l1 -> key x <= key e) -> (forall x, In x l2 -> key x < key e) ->
  exists l, sortq key (l1 ++ e :: l2) = l ++ [e].
Proof.
  intros H1 H2. induction l1 as [|x l1 IH]; cbn [app].
  - rewrite sortq_cons. exists (sortq key l2). apply insertq_last_ge. intros x Hx. apply H2. rewrite sortq_In in Hx. exact Hx.
  - rewrite sortq_cons. destruct IH as [l ->]; [intros; apply H1; right; assumption|]. apply insertq_keep_last, H1. left. reflexivity.
Qed.
Lemma insertq_filter_out f x l : f x = false -> filter f (insertq key x l) = filter f l.
Proof. intros E. induction l as [|y l IH]; cbn [insertq filter]; [rewrite E; reflexivity|]. destruct (Qle_bool _ _); cbn [filter]; rewrite ?E, ?IH; reflexivity. Qed.
Lemma insertq_filter f x l : srtq l -> f x = true -> insertq key x (filter f l) = filter f (insertq key x l).
Proof.
  intros Hs E. induction l as [|y l IH]; cbn [insertq filter]; [rewrite E; reflexivity|]. destruct Hs as [H1 H2].
  destruct (f y) eqn:Ey.
  - cbn [insertq]. destruct (Qle_bool (key x) (key y)); cbn [filter]; rewrite ?E, ?Ey; [reflexivity|]. f_equal. apply IH, H2.
  - destruct (Qle_bool (key x) (key y)) eqn:Ex; cbn [filter]; rewrite ?E, ?Ey; [|apply IH, H2].
    apply Qle_bool_iff in Ex. clear IH H2. induction l as [|z l IH]; [reflexivity|]. inversion H1 as [|? ? Hz Hr]; subst. cbn [filter]. destruct (f z); [|apply IH, Hr].
    cbn [insertq]. assert (Qle_bool (key x) (key z) = true) as -> by (apply Qle_bool_iff; lra). reflexivity.
Qed.
Lemma sortq_filter f l : sortq key (filter f l) = filter f (sortq key l).
Proof.
  induction l as [|x l IH]; [reflexivity|]. rewrite sortq_cons. cbn [filter]. destruct (f x) eqn:E.
  - rewrite sortq_cons, IH. apply insertq_filter; [apply sortq_srt|exact E].
  - rewrite insertq_filter_out by exact E. exact IH.
Qed.
Lemma insertq_length x l : List.length (insertq key x l) = S (List.length l).
Proof. induction l as [|y l IH]; [reflexivity|]. cbn [insertq]. destruct (Qle_bool _ _); cbn; rewrite ?IH; reflexivity. Qed.
Lemma sortq_nil l : sortq key l = [] -> l = [].
Proof. destruct l as [|x l]; [reflexivity|]. intros H. apply (f_equal (@List.length A)) in H. rewrite sortq_cons, insertq_length in H. discriminate. Qed.
End S.
