(** Lemmas on the retrieval model. *)
From Verif Require Import Base AcqChanModel NumericModel JsonModel PathModel QbModel RetModel RetSpec.
Local Open Scope string_scope.
Local Open Scope list_scope.
Local Open Scope nat_scope.

Lemma bind_ok' {A B} (x : result A) (f : A -> result B) b : bind x f = Ok b -> exists a, x = Ok a /\ f a = Ok b.
Proof. destruct x as [a|e]; cbn; [eauto|discriminate]. Qed.
Ltac inv H := let a := fresh "a" in let e := fresh "E" in apply bind_ok' in H; destruct H as (a & e & H).

Lemma mapM_spec {A B} (f : A -> result B) l : forall l', mapM f l = Ok l' -> Forall2 (fun x y => f x = Ok y) l l'.
Proof. induction l as [|x l IH]; cbn; intros l' H; [injection H as <-; constructor|]. inv H. inv H. injection H as <-. constructor; auto. Qed.
Lemma mapM_exists {A B} (f : A -> result B) l : (forall x, In x l -> exists y, f x = Ok y) -> exists l', mapM f l = Ok l'.
Proof. induction l as [|x l IH]; intros H; [now exists []|]. destruct (H x) as [y e]; [cbn; auto|]. destruct IH as [l' e']; [intros; apply H; cbn; auto|]. exists (y :: l'). cbn. now rewrite e, e'. Qed.
Lemma f2_nth {A B} (P : A -> B -> Prop) l l' : Forall2 P l l' -> forall j x, nth_error l j = Some x -> exists y, nth_error l' j = Some y /\ P x y.
Proof. induction 1 as [|x y l l' h _ IH]; intros j z e; [now destruct j|]. destruct j; cbn in *; [injection e as <-; eauto|auto]. Qed.
Lemma f2_nth_r {A B} (P : A -> B -> Prop) l l' : Forall2 P l l' -> forall j y, nth_error l' j = Some y -> exists x, nth_error l j = Some x /\ P x y.
Proof. induction 1 as [|x y l l' h _ IH]; intros j z e; [now destruct j|]. destruct j; cbn in *; [injection e as <-; eauto|auto]. Qed.
Lemma f2_length {A B} (P : A -> B -> Prop) l l' : Forall2 P l l' -> List.length l = List.length l'.
Proof. induction 1; cbn; auto. Qed.
Lemma get_some {A} k (l : list (string * A)) v : RetModel.get k l = Some v -> In (k, v) l.
Proof. induction l as [|[x y] l IH]; cbn; [discriminate|]. destruct (String.eqb_spec k x) as [->|]; intros h; [injection h as ->; auto|auto]. Qed.
Lemma some_get {A} k (l : list (string * A)) v : NoDup (map fst l) -> In (k, v) l -> RetModel.get k l = Some v.
Proof. induction l as [|[x y] l IH]; cbn; intros nd h; [destruct h|]. inversion nd as [|? ? n nd']; subst. destruct h as [h|h].
  - injection h as -> ->. now rewrite String.eqb_refl.
  - destruct (String.eqb_spec k x) as [->|]; [|auto]. exfalso. apply n. apply in_map_iff. exists (x, v). auto. Qed.
Lemma item_ok {A} k (l : list (string * A)) v : item k l = Ok v <-> RetModel.get k l = Some v.
Proof. unfold item. destruct (RetModel.get k l); split; intros h; try discriminate; injection h as ->; auto. Qed.
Lemma at_ok {A} (l : list A) n v : at_ l n = Ok v <-> nth_error l n = Some v.
Proof. unfold at_. destruct (nth_error l n); split; intros h; try discriminate; injection h as ->; auto. Qed.
Lemma get_none {A} k (l : list (string * A)) : RetModel.get k l = None <-> ~ In k (map fst l).
Proof. induction l as [|[x y] l IH]; cbn; [intuition|]. destruct (String.eqb_spec k x) as [->|n]; [split; [discriminate|intros h; exfalso; auto]|]. rewrite IH. intuition. Qed.
Lemma get_put k v (l : dataset) : RetModel.get k (put k v l) = Some v.
Proof. induction l as [|[x y] l IH]; cbn; [now rewrite String.eqb_refl|]. destruct (String.eqb_spec k x) as [->|n]; cbn; [now rewrite String.eqb_refl|]. destruct (String.eqb_spec k x); [contradiction|auto]. Qed.
Lemma get_put_ne k k' v (l : dataset) : k <> k' -> RetModel.get k (put k' v l) = RetModel.get k l.
Proof. intros n. induction l as [|[x y] l IH]; cbn; [destruct (String.eqb_spec k k'); [contradiction|auto]|]. destruct (String.eqb_spec k' x) as [->|m]; cbn.
  - destruct (String.eqb_spec k x); [contradiction|auto].
  - destruct (String.eqb_spec k x); auto. Qed.
Lemma put_keys k v (l : dataset) x : In x (map fst (put k v l)) <-> x = k \/ In x (map fst l).
Proof. induction l as [|[y z] l IH]; cbn; [intuition|]. destruct (String.eqb_spec k y) as [->|n]; cbn; [intuition|]. rewrite IH. intuition. Qed.
Lemma put_nodup k v (l : dataset) : NoDup (map fst l) -> NoDup (map fst (put k v l)).
Proof. induction l as [|[y z] l IH]; cbn; intros nd; [repeat constructor; auto|]. inversion nd; subst. destruct (String.eqb_spec k y) as [->|n]; cbn; constructor; auto. rewrite put_keys. intros [->|h]; auto. Qed.

(** ** Labels *)
Lemma position_some a l j : position a l = Some j -> nth_error l j = Some a.
Proof. revert j. induction l as [|x l IH]; cbn; intros j; [discriminate|]. destruct (Nat.eqb_spec a x) as [->|n]; [intros h; now injection h as <-|]. destruct (position a l) as [i|]; cbn; intros h; [|discriminate]. injection h as <-. cbn. auto. Qed.
Lemma position_in a l : In a l -> exists j, position a l = Some j.
Proof. induction l as [|x l IH]; cbn; [easy|]. intros h. destruct (Nat.eqb_spec a x) as [->|n]; [eauto|]. destruct IH as [j ->]; [destruct h; [congruence|auto]|]. cbn. eauto. Qed.
Lemma position_none a l : ~ In a l -> position a l = None.
Proof. induction l as [|x l IH]; cbn; intros h; auto. destruct (Nat.eqb_spec a x) as [->|n]; [exfalso; auto|]. rewrite IH; auto. Qed.
Lemma position_nth a l j : NoDup l -> nth_error l j = Some a -> position a l = Some j.
Proof. intros nd h. destruct (position_in a l) as [i e]; [eapply nth_error_In; eauto|]. rewrite e. f_equal. apply position_some in e. rewrite NoDup_nth_error in nd. symmetry. apply nd; [apply nth_error_Some; congruence|congruence]. Qed.

(** ** Well-formed arrays *)
Record Wf (d : darray) : Prop := {
  wf_idx : NoDup (d_index d);
  wf_reps : List.length (d_vals d) = n_reps d;
  wf_rows : forall row, In row (d_vals d) -> List.length row = List.length (d_index d);
  wf_cells : forall row cell, In row (d_vals d) -> In cell row -> List.length cell = n_trace d;
  wf_coord : forall k l, In (k, l) (d_coord d) -> List.length l = List.length (d_index d) }.
Lemma value_labelled d r a t v : Wf d -> (Value d r a t v <-> In a (d_index d) /\ r < n_reps d /\ t < n_trace d /\ labelled d r a t = v).
Proof. intros w. unfold Value, labelled, value_at. split.
  - intros (j & row & cell & h1 & h2 & h3 & h4). split; [eapply nth_error_In; eauto|]. split; [rewrite <- (wf_reps d w); apply nth_error_Some; congruence|]. split; [rewrite <- (wf_cells d w row cell) by (eapply nth_error_In; eauto); apply nth_error_Some; congruence|].
    rewrite (position_nth _ _ _ (wf_idx d w) h1), h2, h3, h4. reflexivity.
  - intros (h1 & h2 & h3 & h4). destruct (position_in _ _ h1) as [j e]. rewrite e in h4. apply position_some in e. rewrite <- (wf_reps d w) in h2. apply nth_error_Some in h2. destruct (nth_error (d_vals d) r) as [row|] eqn:E; [|easy].
    assert (hj : nth_error row j <> None) by (apply nth_error_Some; rewrite (wf_rows d w row) by (eapply nth_error_In; eauto); apply nth_error_Some; congruence). destruct (nth_error row j) as [cell|] eqn:F; [|easy].
    assert (ht : nth_error cell t <> None) by (apply nth_error_Some; rewrite (wf_cells d w row cell) by (eapply nth_error_In; eauto); auto). destruct (nth_error cell t) as [x|] eqn:G; [|easy]. exists j, row, cell. subst. auto. Qed.
Lemma labelled_out d r a t : ~ In a (d_index d) -> labelled d r a t = None.
Proof. intros h. unfold labelled. now rewrite position_none. Qed.
(** outside of the array there is nothing *)
Lemma labelled_rep d r a t : Wf d -> n_reps d <= r -> labelled d r a t = None.
Proof. intros w h. unfold labelled, value_at. destruct (position a (d_index d)); auto. rewrite <- (wf_reps d w) in h. apply nth_error_None in h. now rewrite h. Qed.
Lemma labelled_tr d r a t : Wf d -> n_trace d <= t -> labelled d r a t = None.
Proof. intros w h. unfold labelled, value_at. destruct (position a (d_index d)) as [j|]; auto. destruct (nth_error (d_vals d) r) as [row|] eqn:E; auto. destruct (nth_error row j) as [cell|] eqn:F; auto. rewrite <- (wf_cells d w row cell) in h by (eapply nth_error_In; eauto). apply nth_error_None in h. now rewrite h. Qed.

(** ** Merging *)
Lemma insert_in a l x : In x (insert a l) <-> x = a \/ In x l.
Proof. induction l as [|y l IH]; cbn; [intuition|]. destruct (Nat.leb a y); cbn; [intuition|]. rewrite IH. intuition. Qed.
Lemma nsort_in l x : In x (nsort l) <-> In x l.
Proof. induction l as [|y l IH]; cbn; [tauto|]. rewrite insert_in, IH. intuition. Qed.
Lemma insert_nodup a l : ~ In a l -> NoDup l -> NoDup (insert a l).
Proof. induction l as [|y l IH]; cbn; intros h nd; [repeat constructor; auto|]. inversion nd; subst. destruct (Nat.leb a y); [constructor; cbn; auto|]. constructor; [|apply IH; auto]. rewrite insert_in. intros [->|]; auto. Qed.
Lemma nsort_nodup l : NoDup l -> NoDup (nsort l).
Proof. induction l as [|y l IH]; cbn; intros nd; [constructor|]. inversion nd; subst. apply insert_nodup; [now rewrite nsort_in|auto]. Qed.
Lemma existsb_eqb a l : existsb (Nat.eqb a) l = true <-> In a l.
Proof. rewrite existsb_exists. split; [intros (x & h & e); apply Nat.eqb_eq in e; now subst|intros h; exists a; split; [auto|apply Nat.eqb_refl]]. Qed.
Lemma merge_index_in c n a : In a (merge_index c n) <-> In a c \/ In a n.
Proof. unfold merge_index. destruct (list_eq_dec Nat.eq_dec c n) as [->|]; [tauto|]. rewrite nsort_in, in_app_iff, filter_In, negb_true_iff. split; [tauto|]. intros [h|h]; auto. destruct (existsb (Nat.eqb a) c) eqn:E; [left; now apply existsb_eqb|auto]. Qed.
Lemma nodup_app' {A} (l l' : list A) : NoDup l -> NoDup l' -> (forall x, In x l -> ~ In x l') -> NoDup (l ++ l').
Proof. induction l as [|x l IH]; cbn; intros h1 h2 h3; auto. inversion h1; subst. constructor; [rewrite in_app_iff; intros [|]; [auto|eapply h3; eauto]|apply IH; auto]. Qed.
Lemma merge_index_nodup c n : NoDup c -> NoDup n -> NoDup (merge_index c n).
Proof. intros h1 h2. unfold merge_index. destruct (list_eq_dec Nat.eq_dec c n) as [->|]; auto. apply nsort_nodup, nodup_app'; [auto|now apply NoDup_filter|]. intros x hx hi. apply filter_In in hi. destruct hi as [_ hi]. apply negb_true_iff in hi. apply existsb_eqb in hx. congruence. Qed.
Lemma merge_reps c n : (d_reps c = None <-> d_reps n = None) -> n_reps (merge_array c n) = Nat.max (n_reps c) (n_reps n).
Proof. intros h. unfold n_reps at 1. cbn. destruct (d_reps c) as [r|] eqn:E; auto. unfold n_reps. rewrite E. destruct (d_reps n) as [r'|]; auto. destruct h as [h _]. specialize (h eq_refl). discriminate. Qed.
Lemma merge_trace c n : (d_trace c = None <-> d_trace n = None) -> n_trace (merge_array c n) = Nat.max (n_trace c) (n_trace n).
Proof. intros h. unfold n_trace at 1. cbn. destruct (d_trace c) as [r|] eqn:E; auto. unfold n_trace. rewrite E. destruct (d_trace n) as [r'|]; auto. destruct h as [h _]. specialize (h eq_refl). discriminate. Qed.
(** arrays of the same kind *)
Definition Alike (c n : darray) : Prop := (d_reps c = None <-> d_reps n = None) /\ (d_trace c = None <-> d_trace n = None).
Lemma merge_wf c n : Alike c n -> Wf c -> Wf n -> Wf (merge_array c n).
Proof. intros [a1 a2] wc wn. constructor.
  - cbn. apply merge_index_nodup; apply wf_idx; auto.
  - rewrite merge_reps by auto. cbn. now rewrite map_length, seq_length.
  - cbn. intros row h. apply in_map_iff in h. destruct h as (r & <- & _). now rewrite map_length.
  - rewrite merge_trace by auto. cbn. intros row cell h1 h2. apply in_map_iff in h1. destruct h1 as (r & <- & _). apply in_map_iff in h2. destruct h2 as (a & <- & _). now rewrite map_length, seq_length.
  - cbn. intros k l h. apply in_map_iff in h. destruct h as (k' & e & _). injection e as _ <-. now rewrite map_length. Qed.
Lemma nth_seq_map {B} (f : nat -> B) n r : r < n -> nth_error (map f (List.seq 0 n)) r = Some (f r).
Proof. intros h. rewrite nth_error_map. assert (e : nth_error (List.seq 0 n) r = Some r) by (rewrite (nth_error_nth' _ 0) by (now rewrite seq_length); rewrite seq_nth by auto; reflexivity). now rewrite e. Qed.
Lemma merge_labelled c n r a t : Alike c n -> Wf c -> Wf n -> labelled (merge_array c n) r a t = merge_value (labelled c r a t) (labelled n r a t).
Proof. intros al wc wn. destruct (in_dec Nat.eq_dec a (merge_index (d_index c) (d_index n))) as [hi|hn].
  - destruct (le_lt_dec (Nat.max (n_reps c) (n_reps n)) r) as [h|h].
    + rewrite !labelled_rep; auto; try lia; [now apply merge_wf|]. rewrite merge_reps by apply al. auto.
    + destruct (le_lt_dec (Nat.max (n_trace c) (n_trace n)) t) as [h'|h'].
      * rewrite !labelled_tr; auto; try lia; [now apply merge_wf|]. rewrite merge_trace by apply al. auto.
      * destruct (position_in _ _ hi) as [j e]. unfold labelled at 1. cbn [merge_array d_index]. rewrite e. unfold value_at. cbn [merge_array d_vals]. rewrite nth_seq_map by auto. apply position_some in e. rewrite nth_error_map, e. cbn [option_map]. rewrite nth_seq_map by auto. reflexivity.
  - rewrite merge_index_in in hn. rewrite !labelled_out; auto. cbn. now rewrite merge_index_in. Qed.
