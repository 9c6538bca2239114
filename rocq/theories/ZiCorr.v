(** The measurement fix-point correction over a whole table. *)
From Verif Require Import Base NumericModel NumericProps ZiModel ZiSpec ZiProps ZiProps2 ZiProps3 ZiClock ZiTable ZiTable2.
From Coq Require Import Permutation.
Open Scope Z_scope.

Lemma add_from_nth x l : forall n i, nth_error (add_from n x l) i = option_map (fun y => if (n <=? i)%nat then y + x else y) (nth_error l i).
Proof. induction l as [|y l IH]; intros n i; [destruct i; reflexivity|]. destruct n as [|n], i as [|i]; cbn [add_from nth_error]; try reflexivity; rewrite IH; reflexivity. Qed.

(** every step: a correction of 0, 3, ..., 21 samples that puts the acquisition on the grid *)
Lemma loop_cons lb s acqs p q corr out : correction_loop 600000000 ((lb, s) :: acqs) p q corr = Ok out -> exists s' c, s = Some s' /\ 0 <= c <= 21 /\ (py_round (s' + inject_Z q) + c) mod 8 = 0 /\ (exists i, c = 3 * i) /\ correction_loop 600000000 acqs (S lb) (q + c) (add_from p c corr) = Ok out.
Proof. cbn [correction_loop]. destruct s as [s|]; [|discriminate]. intros h. apply bind_Ok in h. destruct h as (c & h1 & h). destruct (fixpoint_ok (py_round (s + inject_Z q))) as (c' & e & b & m & i & hi & _). rewrite e in h1. injection h1 as ->. exists s, c. repeat split; try tauto; try lia. exists i. exact hi. Qed.

(** without any assumption on the labels *)
Definition climbing (l : list Z) : Prop := forall i j a b, (i <= j)%nat -> nth_error l i = Some a -> nth_error l j = Some b -> 0 <= a <= b /\ a mod 3 = 0.
Lemma climbing_add n c l : 0 <= c -> c mod 3 = 0 -> climbing l -> climbing (add_from n c l).
Proof. intros c0 c3 h i j a b hij ha hb. rewrite add_from_nth in ha, hb. destruct (nth_error l i) as [a'|] eqn:ea; [|discriminate]. destruct (nth_error l j) as [b'|] eqn:eb; [|discriminate]. cbn in ha, hb. injection ha as <-. injection hb as <-. destruct (h i j a' b' hij ea eb) as [h1 h2].
  split. { destruct (Nat.leb_spec n i), (Nat.leb_spec n j); lia. } destruct (Nat.leb_spec n i); [|exact h2]. rewrite Z.add_mod, h2, c3 by lia. reflexivity. Qed.
Lemma correction_climbing acqs : forall p q corr out, correction_loop 600000000 acqs p q corr = Ok out -> climbing corr -> climbing out.
Proof. induction acqs as [|[lb s] acqs IH]; intros p q corr out h hc; [injection h as <-; exact hc|]. apply loop_cons in h. destruct h as (s' & c & _ & b & _ & (i & hi) & h). eapply IH; [exact h|]. apply climbing_add; [lia| |exact hc]. subst c. rewrite Z.mul_comm. apply Z.mod_mul. lia. Qed.
Lemma climbing_zeros {A} (l : list A) : climbing (map (fun _ => 0) l).
Proof. intros i j a b _ ha hb. apply nth_error_In in ha, hb. apply in_map_iff in ha, hb. destruct ha as (? & <- & _), hb as (? & <- & _). split; [lia|reflexivity]. Qed.
(** at most 21 samples per acquisition *)
Lemma correction_bound acqs : forall p q corr out, correction_loop 600000000 acqs p q corr = Ok out -> forall i a b, nth_error corr i = Some a -> nth_error out i = Some b -> a <= b <= a + 21 * Z.of_nat (List.length acqs).
Proof. induction acqs as [|[lb s] acqs IH]; intros p q corr out h i a b ha hb; [injection h as <-; cbn; replace b with a by congruence; lia|]. apply loop_cons in h. destruct h as (s' & c & _ & bd & _ & _ & h).
  specialize (IH _ _ _ _ h i (if (p <=? i)%nat then a + c else a) b). rewrite add_from_nth, ha in IH. specialize (IH eq_refl hb). cbn [List.length]. destruct (Nat.leb_spec p i); lia. Qed.

(** with labels that grow along the list *)
Fixpoint growing (p : nat) (acqs : list (nat * option Q)) : Prop := match acqs with [] => True | (lb, _) :: r => (p <= lb)%nat /\ growing (S lb) r end.
Lemma growing_weaken acqs p p' : (p' <= p)%nat -> growing p acqs -> growing p' acqs.
Proof. destruct acqs as [|[lb s] acqs]; [auto|]. cbn. intros ? [? ?]. split; [lia|auto]. Qed.
Lemma correction_before acqs : forall p q corr out, correction_loop 600000000 acqs p q corr = Ok out -> growing p acqs -> forall i, (i < p)%nat -> nth_error out i = nth_error corr i.
Proof. induction acqs as [|[lb s] acqs IH]; intros p q corr out h g i hi; [injection h as <-; reflexivity|]. apply loop_cons in h. destruct h as (s' & c & _ & _ & _ & _ & h). cbn in g. destruct g as [g1 g2]. rewrite (IH _ _ _ _ h g2 i ltac:(lia)), add_from_nth. destruct (nth_error corr i); [|reflexivity]. cbn. destruct (Nat.leb_spec p i); [lia|reflexivity]. Qed.
Definition level (p : nat) (q : Z) (corr : list Z) : Prop := forall i v, (p <= i)%nat -> nth_error corr i = Some v -> v = q.
Lemma level_step p q c lb corr : level p q corr -> (p <= lb)%nat -> level (S lb) (q + c) (add_from p c corr).
Proof. intros h hl i v hi hv. rewrite add_from_nth in hv. destruct (nth_error corr i) as [y|] eqn:e; [|discriminate]. cbn in hv. injection hv as <-. rewrite (h i y ltac:(lia) e). destruct (Nat.leb_spec p i); lia. Qed.
Lemma correction_here acqs lb s p q c corr out : growing (S lb) acqs -> correction_loop 600000000 acqs (S lb) (q + c) (add_from p c corr) = Ok out -> level p q corr -> (p <= s <= lb)%nat -> forall v, nth_error out s = Some v -> v = q + c.
Proof. intros g h hv hs v. rewrite (correction_before _ _ _ _ _ h g s ltac:(lia)), add_from_nth. destruct (nth_error corr s) as [y|] eqn:e; [|discriminate]. cbn. destruct (Nat.leb_spec p s); [|lia]. intros [= <-]. rewrite (hv s y ltac:(lia) e). reflexivity. Qed.
Lemma correction_aligned acqs : forall p q corr out, correction_loop 600000000 acqs p q corr = Ok out -> growing p acqs -> level p q corr -> forall lb s v, In (lb, s) acqs -> nth_error out lb = Some v ->
  exists s', s = Some s' /\ forall n, (forall z, py_round (s' + inject_Z z) = n + z) -> (n + v) mod 8 = 0.
Proof. induction acqs as [|[lb0 s0] acqs IH]; intros p q corr out h g hl lb s v hi hv; [destruct hi|]. apply loop_cons in h. destruct h as (s' & c & -> & _ & m & _ & h). cbn in g. destruct g as [g1 g2]. destruct hi as [hi|hi].
  - injection hi as -> <-. exists s'. split; [reflexivity|]. intros n hn. rewrite (correction_here _ _ lb _ _ _ _ _ g2 h hl ltac:(lia) v hv). rewrite hn in m. rewrite Z.add_assoc. exact m.
  - eapply IH; eauto. apply level_step; auto. Qed.
(** acquisitions at a position in i..j-1 *)
Definition between (i j : nat) (acqs : list (nat * option Q)) : list (nat * option Q) := filter (fun a => (i <=? fst a)%nat && (fst a <? j)%nat) acqs.
Lemma between_step acqs : forall lb i j, growing (S lb) acqs -> (i <= lb)%nat -> between i j acqs = between (S lb) j acqs.
Proof. intros lb i j g hi. unfold between. apply filter_ext_in. intros [a s] ha. cbn [fst]. assert (S lb <= a)%nat. { revert lb g hi. induction acqs as [|[x y] acqs IH]; intros lb g hi; [destruct ha|]. cbn in g. destruct g as [g1 g2]. destruct ha as [ha|ha]; [injection ha as -> <-; exact g1|]. specialize (IH ha x g2). lia. } destruct (Nat.leb_spec i a), (Nat.leb_spec (S lb) a); try lia; reflexivity. Qed.
Lemma correction_up acqs : forall p q corr out, correction_loop 600000000 acqs p q corr = Ok out -> growing p acqs -> level p q corr -> forall j v, (p <= j)%nat -> nth_error out j = Some v -> q <= v <= q + 21 * (1 + Z.of_nat (List.length (between p j acqs))).
Proof. induction acqs as [|[lb s] acqs IH]; intros p q corr out h g hl j v hj hv.
  - injection h as <-. rewrite (hl j v hj hv). cbn. lia.
  - apply loop_cons in h. destruct h as (s' & c & -> & bd & _ & _ & h). cbn in g. destruct g as [g1 g2]. destruct (Nat.leb_spec j lb) as [L|L].
    + rewrite (correction_here _ _ j _ _ _ _ _ g2 h hl ltac:(lia) v hv). lia.
    + pose proof (IH _ _ _ _ h g2 (level_step _ _ c _ _ hl g1) j v ltac:(lia) hv) as b. unfold between at 1. cbn [filter fst]. destruct (Nat.leb_spec p lb); [|lia]. destruct (Nat.ltb_spec lb j); [|lia]. cbn [andb]. fold (between p j acqs). rewrite (between_step acqs lb p j g2 g1). cbn [List.length]. lia. Qed.
Lemma correction_steps acqs : forall p q corr out, correction_loop 600000000 acqs p q corr = Ok out -> growing p acqs -> level p q corr -> forall i j a b, (p <= i)%nat -> (i <= j)%nat -> nth_error out i = Some a -> nth_error out j = Some b -> a <= b <= a + 21 * Z.of_nat (List.length (between i j acqs)).
Proof. induction acqs as [|[lb s] acqs IH]; intros p q corr out h g hl i j a b hi hij ha hb.
  - injection h as <-. rewrite (hl i a hi ha), (hl j b ltac:(lia) hb). cbn. lia.
  - apply loop_cons in h. destruct h as (s' & c & -> & bd & _ & _ & h). cbn in g. destruct g as [g1 g2]. unfold between. cbn [filter fst]. destruct (Nat.leb_spec i lb) as [L|L].
    + rewrite (correction_here _ _ i _ _ _ _ _ g2 h hl ltac:(lia) a ha). destruct (Nat.ltb_spec lb j) as [L2|L2]; cbn [andb].
      * pose proof (correction_up _ _ _ _ _ h g2 (level_step _ _ c _ _ hl g1) j b ltac:(lia) hb) as bb. fold (between i j acqs). rewrite (between_step acqs lb i j g2 L). cbn [List.length]. lia.
      * rewrite (correction_here _ _ j _ _ _ _ _ g2 h hl ltac:(lia) b hb). lia.
    + cbn [andb]. eapply (IH _ _ _ _ h g2 (level_step _ _ c _ _ hl g1) i j a b); eauto; lia. Qed.
