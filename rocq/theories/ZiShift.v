(** C47: what the corrections do to the times. *)
From Verif Require Import Base NumericModel NumericProps ZiModel ZiSpec ZiProps ZiProps2 ZiProps3 ZiClock ZiTable ZiTable2 ZiCorr.
From Coq Require Import Permutation.
Open Scope Z_scope.

Lemma combine_seq_in {A} (l : list A) : forall b k x, In (k, x) (combine (seq b (List.length l)) l) <-> (b <= k)%nat /\ nth_error l (k - b) = Some x.
Proof. induction l as [|y l IH]; intros b k x; cbn [List.length seq combine In].
  - split; [tauto|]. intros [_ h]. destruct (k - b)%nat; discriminate.
  - rewrite IH. split.
    + intros [h|[h1 h2]]; [injection h as -> ->; split; [lia|]; rewrite Nat.sub_diag; reflexivity|]. split; [lia|]. replace (k - b)%nat with (S (k - S b)) by lia. exact h2.
    + intros [h1 h2]. destruct (Nat.eq_dec b k) as [->|n]; [rewrite Nat.sub_diag in h2; injection h2 as ->; now left|]. right. split; [lia|]. replace (k - b)%nat with (S (k - S b)) in h2 by lia. exact h2. Qed.
Lemma combine_seq_fst {A} (l : list A) b : map fst (combine (seq b (List.length l)) l) = seq b (List.length l).
Proof. revert b. induction l as [|y l IH]; intros b; [reflexivity|]. cbn. f_equal. apply IH. Qed.
Lemma in_split_pos {A} (l : list A) i x y : nth_error l i = Some x -> In y l -> In y (firstn i l) \/ y = x \/ exists j, (i < j)%nat /\ nth_error l j = Some y.
Proof. intros hi hy. apply In_nth_error in hy. destruct hy as (j & hj). destruct (Nat.lt_trichotomy j i) as [h|[h|h]].
  - left. apply (nth_error_In _ j). rewrite <- (firstn_skipn i l), nth_error_app1 in hj; [exact hj|]. rewrite firstn_length. assert (i < List.length l)%nat by (apply nth_error_Some; congruence). lia.
  - right. left. congruence.
  - right. right. eauto. Qed.
Lemma firstn_pos {A} (l : list A) i y : In y (firstn i l) -> exists j, (j < i)%nat /\ nth_error l j = Some y.
Proof. intros h. apply In_nth_error in h. destruct h as (j & h). assert (j < List.length (firstn i l))%nat by (apply nth_error_Some; congruence). pose proof (firstn_le_length i l). rewrite firstn_length in *. exists j. split; [lia|]. rewrite <- (firstn_skipn i l), nth_error_app1; [exact h|]. rewrite firstn_length. lia. Qed.

Lemma nodup_app_l {A} (l m : list A) : NoDup (l ++ m) -> NoDup l.
Proof. induction l as [|x l IH]; cbn; intros h; [constructor|]. inversion h as [|? ? h1 h2]; subst. constructor; [|auto]. intros hi. apply h1. apply in_or_app. now left. Qed.
Lemma in_order_position lat occs los : Permutation (combine (seq 0 (List.length occs)) occs) los -> (forall i j a b, (i < j)%nat -> nth_error los i = Some a -> nth_error los j = Some b -> (wanted lat (snd a) <= wanted lat (snd b))%Q) -> in_order lat occs ->
  forall i k oc, nth_error los i = Some (k, oc) -> i_is_acq (oc_info oc) = true -> k = i.
Proof. intros p so io i k oc hi ha.
  assert (IN : forall x, In x los <-> nth_error occs (fst x) = Some (snd x)). { intros [k' o']. cbn [fst snd]. split; intros h. - apply Permutation_sym in p. apply (Permutation_in _ p) in h. apply combine_seq_in in h. rewrite Nat.sub_0_r in h; apply h. - apply (Permutation_in _ p). apply combine_seq_in. split; [lia|rewrite Nat.sub_0_r; exact h]. }
  assert (ND : NoDup (map fst los)). { apply (Permutation_NoDup (l := map fst (combine (seq 0 (List.length occs)) occs))); [apply Permutation_map, p|]. rewrite combine_seq_fst. apply seq_NoDup. }
  assert (HK : nth_error occs k = Some oc) by (apply (IN (k, oc)); eapply nth_error_In; eauto).
  assert (BEF : forall j x, (j < i)%nat -> nth_error los j = Some x -> (fst x < k)%nat).
  { intros j [k' o'] hj hx. cbn [fst]. assert (HK' : nth_error occs k' = Some o') by (apply (IN (k', o')); eapply nth_error_In; eauto). pose proof (so j i _ _ hj hx hi) as le. cbn [snd] in le. destruct (Nat.lt_trichotomy k' k) as [h|[h|h]]; [exact h| |].
    - exfalso. subst k'. rewrite NoDup_nth_error in ND. assert (j = i); [|lia]. apply ND; [rewrite map_length; apply nth_error_Some; congruence|]. now rewrite (map_nth_error fst _ _ hx), (map_nth_error fst _ _ hi).
    - exfalso. pose proof (io k k' _ _ h HK HK' (or_introl ha)). lra. }
  assert (AFT : forall j x, (i < j)%nat -> nth_error los j = Some x -> (k < fst x)%nat).
  { intros j [k' o'] hj hx. cbn [fst]. assert (HK' : nth_error occs k' = Some o') by (apply (IN (k', o')); eapply nth_error_In; eauto). pose proof (so i j _ _ hj hi hx) as le. cbn [snd] in le. destruct (Nat.lt_trichotomy k' k) as [h|[h|h]]; [| |exact h].
    - exfalso. pose proof (io k' k _ _ h HK' HK (or_intror ha)). lra.
    - exfalso. subst k'. rewrite NoDup_nth_error in ND. assert (i = j); [|lia]. apply ND; [rewrite map_length; apply nth_error_Some; congruence|]. now rewrite (map_nth_error fst _ _ hx), (map_nth_error fst _ _ hi). }
  assert (FL : List.length (firstn i los) = i). { rewrite firstn_length. assert (i < List.length los)%nat by (apply nth_error_Some; congruence). lia. }
  assert (LE : (i <= k)%nat). { rewrite <- FL, <- (map_length fst). rewrite <- (seq_length k 0). apply NoDup_incl_length.
    - rewrite <- (firstn_skipn i los), map_app in ND. apply nodup_app_l in ND. exact ND.
    - intros x hx. apply in_map_iff in hx. destruct hx as (y & <- & hy). apply firstn_pos in hy. destruct hy as (j & hj & hy). apply in_seq. specialize (BEF j y hj hy). lia. }
  assert (GE : (k <= i)%nat). { rewrite <- FL, <- (map_length fst). rewrite <- (seq_length k 0) at 1. apply NoDup_incl_length; [apply seq_NoDup|].
    intros k' hk. apply in_seq in hk. destruct (nth_error occs k') as [o'|] eqn:eo; [|apply nth_error_None in eo; assert (k < List.length occs)%nat by (apply nth_error_Some; congruence); lia]. assert (I2 : In (k', o') los) by (apply IN; exact eo). destruct (in_split_pos _ _ _ _ hi I2) as [h|[h|(j & hj & h)]].
    - change k' with (fst (k', o')). now apply in_map.
    - exfalso. injection h as -> _. lia.
    - exfalso. specialize (AFT j _ hj h). cbn in AFT. lia. }
  lia. Qed.

(** acquisitions and their positions *)
Definition acqs_of (e0 : list entry) : list (nat * option Q) := map (fun e => (r_label (e_row e), option_map snd (e_start e))) (filter (fun e => r_is_acq (e_row e)) e0).
Lemma acqs_growing e0 : forall b, (forall i e, nth_error e0 i = Some e -> r_is_acq (e_row e) = true -> r_label (e_row e) = (b + i)%nat) -> growing b (acqs_of e0).
Proof. induction e0 as [|e e0 IH]; intros b h; [exact I|]. assert (IH' : growing (S b) (acqs_of e0)). { apply IH. intros i e' h1 h2. rewrite (h (S i) e' h1 h2). lia. } unfold acqs_of. cbn [filter]. destruct (r_is_acq (e_row e)) eqn:ea; [|eapply growing_weaken; [|exact IH']; lia]. cbn [map growing]. rewrite (h 0%nat e eq_refl ea). rewrite Nat.add_0_r. split; [lia|exact IH']. Qed.
Lemma acqs_between e0 : forall b i j, (b <= i)%nat -> (forall k e, nth_error e0 k = Some e -> r_is_acq (e_row e) = true -> r_label (e_row e) = (b + k)%nat) -> List.length (between i j (acqs_of e0)) = List.length (filter (fun e => r_is_acq (e_row e)) (slice (i - b) (j - b) e0)).
Proof. induction e0 as [|e e0 IH]; intros b i j hb h; [unfold slice; rewrite skipn_nil, firstn_nil; reflexivity|].
  assert (H' : forall k e', nth_error e0 k = Some e' -> r_is_acq (e_row e') = true -> r_label (e_row e') = (S b + k)%nat). { intros k e' h1 h2. rewrite (h (S k) e' h1 h2). lia. }
  destruct (Nat.eq_dec b i) as [->|n].
  - rewrite Nat.sub_diag. unfold slice. cbn [skipn]. rewrite Nat.sub_0_r. destruct (j - i)%nat as [|m] eqn:em.
    + cbn [firstn filter List.length]. assert (Z0 : forall acqs, between i j acqs = []). { intros acqs. unfold between. induction acqs as [|[a s] acqs IHa]; [reflexivity|]. cbn [filter fst]. destruct (Nat.leb_spec i a), (Nat.ltb_spec a j); cbn [andb]; try exact IHa. lia. } now rewrite Z0.
    + cbn [firstn]. assert (STEP : List.length (between i j (acqs_of e0)) = List.length (filter (fun e1 => r_is_acq (e_row e1)) (firstn m e0))).
      { rewrite (between_step (acqs_of e0) i i j); [|apply acqs_growing; exact H'|lia]. rewrite (IH (S i) (S i) j ltac:(lia) H'). rewrite Nat.sub_diag. unfold slice. cbn [skipn]. replace (j - S i - 0)%nat with m by lia. reflexivity. }
      unfold acqs_of. cbn [filter]. destruct (r_is_acq (e_row e)) eqn:ea; [|exact STEP]. cbn [map]. rewrite (h 0%nat e eq_refl ea). rewrite Nat.add_0_r. unfold between. cbn [filter fst]. destruct (Nat.leb_spec i i); [|lia]. destruct (Nat.ltb_spec i j); [|lia]. cbn [andb List.length]. f_equal. exact STEP.
  - replace (i - b)%nat with (S (i - S b)) by lia. unfold slice. cbn [skipn]. assert (STEP := IH (S b) i j ltac:(lia) H'). unfold slice in STEP. replace (j - b - S (i - S b))%nat with (j - S b - (i - S b))%nat by lia. rewrite <- STEP. unfold acqs_of. cbn [filter]. destruct (r_is_acq (e_row e)) eqn:ea; [|reflexivity]. cbn [map]. rewrite (h 0%nat e eq_refl ea). unfold between. cbn [filter fst]. destruct (Nat.leb_spec i (b + 0)); [lia|]. reflexivity. Qed.

Lemma forall2_nth {A B} (R : A -> B -> Prop) l l' : Forall2 R l l' -> forall i a, nth_error l i = Some a -> exists b, nth_error l' i = Some b /\ R a b.
Proof. induction 1; intros [|i] a h; try discriminate; cbn in *; [injection h as <-; eauto|eauto]. Qed.
Lemma forall2_nth_r {A B} (R : A -> B -> Prop) l l' : Forall2 R l l' -> forall i b, nth_error l' i = Some b -> exists a, nth_error l i = Some a /\ R a b.
Proof. induction 1; intros [|i] a h; try discriminate; cbn in *; [injection h as <-; eauto|eauto]. Qed.
Lemma forall2_filter {A B} (R : A -> B -> Prop) p q : (forall a b, R a b -> p a = q b) -> forall l l', Forall2 R l l' -> List.length (filter p l) = List.length (filter q l').
Proof. intros h l l' f. induction f as [|a b l l' r f IH]; [reflexivity|]. cbn. rewrite (h a b r). destruct (q b); cbn; now rewrite IH. Qed.
Lemma forall2_slice {A B} (R : A -> B -> Prop) i j l l' : Forall2 R l l' -> Forall2 R (slice i j l) (slice i j l').
Proof. intros f. unfold slice. assert (S : Forall2 R (skipn i l) (skipn i l')). { revert i. induction f; intros [|i]; cbn; auto. } generalize (j - i)%nat. induction S; intros [|n]; cbn; auto. Qed.
Lemma near_round s n z : near s n -> 0 <= n <= 7 -> py_round (s + inject_Z z) = n + z.
Proof. intros h hn. apply py_round_unique. unfold near in h. apply qabs_le in h. rewrite inj_add. assert (inject_Z n <= 7)%Q by (change 7%Q with (inject_Z 7); apply up_le; lia). split; lra. Qed.
Lemma combine_nth {A B} (l : list A) (m : list B) : forall i x, nth_error (combine l m) i = Some x <-> nth_error l i = Some (fst x) /\ nth_error m i = Some (snd x).
Proof. revert m. induction l as [|a l IH]; intros m i x; [destruct i; cbn; split; try discriminate; intros [? ?]; discriminate|]. destruct m as [|b m]; [destruct i; cbn; split; try discriminate; intros [? ?]; discriminate|]. destruct i as [|i]; cbn; [|apply IH]. destruct x; cbn. split; [intros [= -> ->]; auto|intros [h1 h2]; congruence]. Qed.
