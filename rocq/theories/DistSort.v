(** Stable sorting: facts about the insertion sort of DistModel.v. *)
From Verif Require Import Base DistModel.
From Coq Require Import List Permutation.
Open Scope Z_scope.

Lemma isort_cons {A} (le : A -> A -> bool) x l : isort le (x :: l) = insertb le x (isort le l). Proof. reflexivity. Qed.

Section Sort.
Context {A : Type} (le : A -> A -> bool).
Hypothesis total : forall x y, le x y = true \/ le y x = true.
Hypothesis trans : forall x y z, le x y = true -> le y z = true -> le x z = true.
Definition lt (x y : A) : Prop := le y x = false.

Lemma lt_le x y : lt x y -> le x y = true.
Proof. unfold lt. intros H. destruct (total x y); congruence. Qed.
Lemma le_lt_trans x y z : le x y = true -> lt y z -> lt x z.
Proof. unfold lt. intros H1 H2. destruct (le z x) eqn:E; [|reflexivity]. rewrite (trans _ _ _ E H1) in H2. discriminate. Qed.
Lemma lt_le_trans x y z : lt x y -> le y z = true -> lt x z.
Proof. unfold lt. intros H1 H2. destruct (le z x) eqn:E; [|reflexivity]. rewrite (trans _ _ _ H2 E) in H1. discriminate. Qed.

Lemma insert_comm a x M : lt a x -> insertb le a (insertb le x M) = insertb le x (insertb le a M).
Proof.
  intros H. induction M as [|y M IH]; cbn [insertb].
  - rewrite (lt_le _ _ H), H. reflexivity.
  - destruct (le x y) eqn:Exy.
    + assert (Hay : le a y = true) by (eapply trans; [apply lt_le, H|exact Exy]). rewrite Hay. cbn [insertb]. rewrite (lt_le _ _ H), H, Exy. reflexivity.
    + destruct (le a y) eqn:Eay; cbn [insertb]; rewrite ?Eay.
      * rewrite H. cbn [insertb]. rewrite Exy. reflexivity.
      * rewrite Exy, IH. reflexivity.
Qed.
Lemma fold_insert x l M : fold_right (insertb le) M (insertb le x l) = insertb le x (fold_right (insertb le) M l).
Proof.
  induction l as [|y l IH]; cbn [insertb fold_right]; [reflexivity|]. destruct (le x y) eqn:E; [reflexivity|]. cbn [fold_right]. rewrite IH. apply insert_comm. exact E.
Qed.
Lemma fold_isort l M : fold_right (insertb le) M (isort le l) = fold_right (insertb le) M l.
Proof. induction l as [|x l IH]; [reflexivity|]. cbn [isort fold_right]. fold (isort le l). rewrite fold_insert, IH. reflexivity. Qed.
Lemma isort_app l m : isort le (l ++ m) = fold_right (insertb le) (isort le m) l.
Proof. unfold isort. apply fold_right_app. Qed.
Lemma isort_idem l : isort le (isort le l) = isort le l. Proof. apply fold_isort. Qed.
Lemma isort_app_sort l m : isort le (isort le l ++ isort le m) = isort le (l ++ m).
Proof. rewrite !isort_app, fold_isort, isort_idem. reflexivity. Qed.
Lemma isort_cong l l' m m' : isort le l = isort le l' -> isort le m = isort le m' -> isort le (l ++ m) = isort le (l' ++ m').
Proof. intros H1 H2. rewrite <- (isort_app_sort l m), H1, H2, isort_app_sort. reflexivity. Qed.

Lemma insert_perm x l : Permutation (insertb le x l) (x :: l).
Proof. induction l as [|y l IH]; cbn [insertb]; [reflexivity|]. destruct (le x y); [reflexivity|]. rewrite IH. apply perm_swap. Qed.
Lemma isort_perm l : Permutation (isort le l) l.
Proof. induction l as [|x l IH]; [reflexivity|]. cbn [isort fold_right]. fold (isort le l). rewrite insert_perm, IH. reflexivity. Qed.
Lemma isort_In l x : In x (isort le l) <-> In x l.
Proof. split; apply Permutation_in; [|symmetry]; apply isort_perm. Qed.

Fixpoint srt (l : list A) : Prop := match l with [] => True | x :: r => (forall y, In y r -> le x y = true) /\ srt r end.
Lemma insert_split x l : srt l -> exists B C, l = B ++ C /\ insertb le x l = B ++ x :: C /\ (forall b, In b B -> lt b x) /\ (forall c, In c C -> le x c = true).
Proof.
  induction l as [|y l IH]; cbn [insertb srt].
  - intros _. exists [], []. repeat split; intros ? [].
  - intros [H1 H2]. destruct (le x y) eqn:E.
    + exists [], (y :: l). repeat split; [intros ? []|]. intros c [<-|Hc]; [exact E|]. eapply trans; [exact E|apply H1, Hc].
    + destruct (IH H2) as (B & C & -> & -> & HB & HC). exists (y :: B), C. repeat split; [|exact HC]. intros b [<-|Hb]; [exact E|apply HB, Hb].
Qed.
Lemma insert_srt x l : srt l -> srt (insertb le x l).
Proof.
  induction l as [|y l IH]; cbn [insertb srt]; [intros _; split; [intros ? []|exact I]|]. intros [H1 H2]. destruct (le x y) eqn:E; cbn [srt].
  - repeat split; auto. intros z [<-|Hz]; [exact E|]. eapply trans; [exact E|apply H1, Hz].
  - split; [|apply IH, H2]. intros z Hz. apply (Permutation_in _ (insert_perm x l)) in Hz. destruct Hz as [<-|Hz]; [apply lt_le; exact E|apply H1, Hz].
Qed.
Lemma isort_srt l : srt (isort le l).
Proof. induction l as [|x l IH]; [exact I|]. cbn [isort fold_right]. apply insert_srt, IH. Qed.
Lemma isort_id l : srt l -> isort le l = l.
Proof.
  induction l as [|x l IH]; [reflexivity|]. cbn [srt]. intros [H1 H2]. cbn [isort fold_right]. fold (isort le l). rewrite IH by exact H2.
  destruct l as [|y l]; [reflexivity|]. cbn [insertb]. rewrite (H1 y) by (left; reflexivity). reflexivity.
Qed.

(** a sorted block goes in one piece into a list that it splits *)
Lemma insert_at x B C : (forall b, In b B -> lt b x) -> (forall c, In c C -> le x c = true) -> insertb le x (B ++ C) = B ++ x :: C.
Proof.
  induction B as [|b B IH]; intros HB HC.
  - destruct C as [|c C]; [reflexivity|]. cbn [app insertb]. rewrite (HC c) by (left; reflexivity). reflexivity.
  - cbn [app insertb]. rewrite (HB b) by (left; reflexivity). rewrite IH; [reflexivity| |exact HC]. intros; apply HB; right; assumption.
Qed.
Lemma insert_block xs B C : srt xs -> (forall b x, In b B -> In x xs -> lt b x) -> (forall c x, In c C -> In x xs -> le x c = true) ->
  fold_right (insertb le) (B ++ C) xs = B ++ xs ++ C.
Proof.
  induction xs as [|x xs IH]; intros Hs HB HC; [reflexivity|]. cbn [srt] in Hs. destruct Hs as [H1 H2]. cbn [fold_right].
  rewrite IH; [|exact H2|intros; apply HB; [assumption|right; assumption]|intros; apply HC; [assumption|right; assumption]].
  rewrite insert_at; [reflexivity|intros; apply HB; [assumption|left; reflexivity]|].
  intros c Hc. apply in_app_or in Hc. destruct Hc as [Hc|Hc]; [apply H1, Hc|apply HC; [exact Hc|left; reflexivity]].
Qed.

(** ** Blocks: lists of elements that should stay together *)
Section Blocks.
Context {B : Type} (els : B -> list A) (hd : B -> A).
Definition ble (a b : B) : bool := le (hd a) (hd b).
Definition block_ok (b : B) : Prop := In (hd b) (els b) /\ srt (els b).
Definition blocks_apart (a b : B) : Prop := (forall x y, In x (els a) -> In y (els b) -> le x y = true) \/ (forall x y, In x (els a) -> In y (els b) -> lt y x).
End Blocks.
End Sort.

Section BlockSort.
Context {A : Type} (le : A -> A -> bool).
Hypothesis total : forall x y, le x y = true \/ le y x = true.
Hypothesis trans : forall x y z, le x y = true -> le y z = true -> le x z = true.
Context {B : Type} (els : B -> list A) (hd : B -> A).
Lemma ble_total a b : ble le hd a b = true \/ ble le hd b a = true. Proof. apply total. Qed.
Lemma ble_trans a b c : ble le hd a b = true -> ble le hd b c = true -> ble le hd a c = true. Proof. apply trans. Qed.

Lemma block_sort N : Forall (block_ok le els hd) N -> ForallOrdPairs (blocks_apart le els) N ->
  isort le (flat_map els N) = flat_map els (isort (ble le hd) N).
Proof.
  induction N as [|n N IH]; intros HF HP; [reflexivity|]. inversion HF as [|? ? Hn HN]; inversion HP as [|? ? HnN HPN]; subst.
  cbn [flat_map]. rewrite isort_app. rewrite IH by assumption. cbn [isort fold_right]. fold (isort (ble le hd) N).
  destruct (insert_split _ ble_trans n _ (isort_srt _ ble_total ble_trans N)) as (X & Y & E1 & E2 & HX & HY). rewrite E2, E1.
  rewrite !flat_map_app. cbn [flat_map]. destruct Hn as [Hn1 Hn2].
  assert (Hin : forall m, In m (X ++ Y) -> In m N) by (intros m Hm; rewrite <- E1 in Hm; apply isort_In in Hm; exact Hm).
  rewrite Forall_forall in HnN, HN.
  apply insert_block; [exact Hn2| |].
  - intros b x Hb Hx. apply in_flat_map in Hb. destruct Hb as (m & Hm & Hb).
    assert (HmN : In m N) by (apply Hin, in_or_app; left; exact Hm). destruct (HN m HmN) as [Hm1 Hm2].
    destruct (HnN m HmN) as [H|H]; [|apply H; assumption].
    specialize (HX m Hm). unfold lt, ble in HX. rewrite (H _ _ Hn1 Hm1) in HX. discriminate.
  - intros c x Hc Hx. apply in_flat_map in Hc. destruct Hc as (m & Hm & Hc).
    assert (HmN : In m N) by (apply Hin, in_or_app; right; exact Hm). destruct (HN m HmN) as [Hm1 Hm2].
    destruct (HnN m HmN) as [H|H]; [apply H; assumption|].
    specialize (HY m Hm). specialize (H _ _ Hn1 Hm1). unfold lt in H. unfold ble in HY. congruence.
Qed.
End BlockSort.

(** ** Sorting by one key after sorting by another *)
Section Lex.
Context {A : Type} (e o : A -> Z).
Definition le_e (x y : A) : bool := e x <=? e y.
Definition le_o (x y : A) : bool := o x <=? o y.
Definition le_lex (x y : A) : bool := (e x <? e y) || ((e x =? e y) && (o x <=? o y)).
Lemma lex_total x y : le_lex x y = true \/ le_lex y x = true. Proof. unfold le_lex. lia. Qed.
Lemma lex_trans x y z : le_lex x y = true -> le_lex y z = true -> le_lex x z = true. Proof. unfold le_lex. lia. Qed.
Lemma o_total x y : le_o x y = true \/ le_o y x = true. Proof. unfold le_o. lia. Qed.
Lemma o_trans x y z : le_o x y = true -> le_o y z = true -> le_o x z = true. Proof. unfold le_o. lia. Qed.

Lemma insert_e_lex x M : (forall y, In y M -> o x <= o y) -> insertb le_e x M = insertb le_lex x M.
Proof.
  induction M as [|y M IH]; intros H; [reflexivity|]. cbn [insertb].
  assert (E : le_e x y = le_lex x y) by (specialize (H y (or_introl eq_refl)); unfold le_e, le_lex; lia). rewrite E.
  destruct (le_lex x y); [reflexivity|]. rewrite IH; [reflexivity|]. intros; apply H; right; assumption.
Qed.
Lemma sort_e_lex L : srt le_o L -> isort le_e L = isort le_lex L.
Proof.
  induction L as [|x L IH]; [reflexivity|]. cbn [srt]. intros [H1 H2]. cbn [isort fold_right]. fold (isort le_e L) (isort le_lex L). rewrite IH by exact H2.
  apply insert_e_lex. intros y Hy. apply isort_In in Hy. specialize (H1 y Hy). unfold le_o in H1. lia.
Qed.
Lemma sort_lex_insert_o x L : isort le_lex (insertb le_o x L) = insertb le_lex x (isort le_lex L).
Proof.
  induction L as [|y L IH]; cbn [insertb]; [reflexivity|]. destruct (le_o x y) eqn:E; [reflexivity|].
  cbn [isort fold_right]. fold (isort le_lex L) (isort le_lex (insertb le_o x L)). rewrite IH.
  destruct (le_lex x y) eqn:E2.
  - destruct (le_lex y x) eqn:E3; [unfold le_lex, le_o in *; lia|]. symmetry. apply (insert_comm _ lex_total lex_trans). exact E3.
  - apply (insert_comm _ lex_total lex_trans). exact E2.
Qed.
Lemma sort_twice l : isort le_e (isort le_o l) = isort le_lex l.
Proof.
  rewrite sort_e_lex by (apply isort_srt; [apply o_total|apply o_trans]).
  induction l as [|x l IH]; [reflexivity|]. rewrite !isort_cons, sort_lex_insert_o, IH. reflexivity.
Qed.
End Lex.

Lemma insertb_map {A B} (f : A -> B) le le' x l : (forall a b, le' (f a) (f b) = le a b) -> insertb le' (f x) (map f l) = map f (insertb le x l).
Proof. intros H. induction l as [|y l IH]; [reflexivity|]. cbn [map insertb]. rewrite H. destruct (le x y); [reflexivity|]. cbn [map]. rewrite IH. reflexivity. Qed.
Lemma isort_map {A B} (f : A -> B) le le' l : (forall a b, le' (f a) (f b) = le a b) -> isort le' (map f l) = map f (isort le l).
Proof. intros H. induction l as [|x l IH]; [reflexivity|]. cbn [map isort fold_right]. fold (isort le' (map f l)) (isort le l). rewrite IH. apply insertb_map, H. Qed.
