(** Merging arrays of channels. *)
From Verif Require Import Base AcqChanModel NumericModel JsonModel PathModel QbModel RetModel RetSpec RetProps RetOwn RetWhole.
Local Open Scope string_scope.
Local Open Scope list_scope.
Local Open Scope nat_scope.

Lemma foldM_app_ok {A B} (f : B -> A -> result B) l l' b c : foldM f (l ++ l') b = Ok c -> exists m, foldM f l b = Ok m /\ foldM f l' m = Ok c.
Proof. revert b. induction l as [|x l IH]; cbn; intros b H; [eauto|]. inv H. apply IH in H. destruct H as (m & h1 & h2). exists m. rewrite E. auto. Qed.
Lemma get_nodup_in {A} k v (l : list (string * A)) : NoDup (map fst l) -> (RetModel.get k l = Some v <-> In (k, v) l).
Proof. intros nd. split; [apply get_some|now apply some_get]. Qed.
(** ** Coordinates of merged arrays *)
Lemma coordinate_at d k a v : Wf d -> NoDup (map fst (d_coord d)) -> (Coordinate d k a v <-> In k (map fst (d_coord d)) /\ In a (d_index d) /\ coord_at d k a = v).
Proof. intros w nd. unfold Coordinate, coord_at. split.
  - intros (j & l & h1 & h2 & h3). split; [apply in_map_iff; exists (k, l); auto|]. split; [eapply nth_error_In; eauto|]. rewrite (some_get _ _ _ nd h2), (position_nth _ _ _ (wf_idx d w) h1), h3. reflexivity.
  - intros (h1 & h2 & h3). apply in_map_iff in h1. destruct h1 as ([k' l] & e & h1). cbn [fst] in e. subst k'. rewrite (some_get _ _ _ nd h1) in h3. destruct (position_in _ _ h2) as [j e]. rewrite e in h3. apply position_some in e.
    assert (hl : nth_error l j <> None) by (apply nth_error_Some; rewrite (wf_coord d w _ _ h1); apply nth_error_Some; congruence). destruct (nth_error l j) eqn:F; [|easy]. exists j, l. subst. auto. Qed.
Lemma coord_out d k a : ~ In a (d_index d) -> coord_at d k a = CNan.
Proof. intros h. unfold coord_at. rewrite position_none by auto. destruct (RetModel.get k (d_coord d)); auto. Qed.
Lemma coord_nokey d k a : ~ In k (map fst (d_coord d)) -> coord_at d k a = CNan.
Proof. intros h. unfold coord_at. apply get_none in h. now rewrite h. Qed.
Lemma merge_coord_keys c n : map fst (d_coord (merge_array c n)) = dedup (map fst (d_coord c) ++ map fst (d_coord n)).
Proof. cbn. rewrite map_map. cbn. apply map_id. Qed.
Lemma get_map {B} (f : string -> B) (l : list string) k : In k l -> RetModel.get k (map (fun k => (k, f k)) l) = Some (f k).
Proof. induction l as [|x l IH]; cbn; [easy|]. intros h. destruct (String.eqb_spec k x) as [->|]; [auto|]. destruct h; [congruence|auto]. Qed.
Lemma merge_coord c n k a : coord_at (merge_array c n) k a = match coord_at c k a with CNan => coord_at n k a | v => v end.
Proof. destruct (in_dec Nat.eq_dec a (merge_index (d_index c) (d_index n))) as [hi|hn].
  - destruct (in_dec string_dec k (map fst (d_coord c) ++ map fst (d_coord n))) as [hk|hk].
    + unfold coord_at at 1. cbn [merge_array d_coord d_index]. rewrite (get_map (fun k => map (fun a => match coord_at c k a with CNan => coord_at n k a | v => v end) (merge_index (d_index c) (d_index n)))) by (now apply dedup_in). destruct (position_in _ _ hi) as [j e]. rewrite e. apply position_some in e. rewrite nth_error_map, e. reflexivity.
    + rewrite in_app_iff in hk. rewrite !coord_nokey; auto. rewrite merge_coord_keys, dedup_in, in_app_iff. auto.
  - rewrite merge_index_in in hn. rewrite !coord_out; auto. cbn. now rewrite merge_index_in. Qed.

(** ** Merging parts *)
(** [d] is part of [e] *)
Record Within (d e : darray) : Prop := {
  wi_idx : forall a, In a (d_index d) -> In a (d_index e);
  wi_reps : n_reps d <= n_reps e; wi_trace : n_trace d <= n_trace e; wi_alike : Alike d e;
  wi_val : forall r a t, In a (d_index d) -> labelled e r a t = labelled d r a t;
  wi_coord : forall k a, In a (d_index d) -> coord_at e k a = coord_at d k a;
  wi_keys : forall k, In k (map fst (d_coord d)) -> In k (map fst (d_coord e)) }.
Lemma alike_refl d : Alike d d. Proof. split; tauto. Qed.
Lemma alike_trans a b c : Alike a b -> Alike b c -> Alike a c. Proof. intros [h1 h2] [h3 h4]. split; tauto. Qed.
Lemma alike_sym a b : Alike a b -> Alike b a. Proof. intros [h1 h2]. split; tauto. Qed.
Lemma within_refl d : Within d d.
Proof. constructor; auto using alike_refl. Qed.
Lemma within_trans a b c : Within a b -> Within b c -> Within a c.
Proof. intros h1 h2. constructor.
  - intros x h. apply h2, h1, h.
  - pose proof (wi_reps _ _ h1). pose proof (wi_reps _ _ h2). lia.
  - pose proof (wi_trace _ _ h1). pose proof (wi_trace _ _ h2). lia.
  - eapply alike_trans; [apply h1|apply h2].
  - intros r x t h. rewrite (wi_val _ _ h2) by (apply h1, h). now apply h1.
  - intros k x h. rewrite (wi_coord _ _ h2) by (apply h1, h). now apply h1.
  - intros k h. apply h2, h1, h. Qed.
Definition Disjoint (d e : darray) : Prop := forall a, In a (d_index d) -> ~ In a (d_index e).
Lemma merge_alike c n : Alike c (merge_array c n).
Proof. split; cbn; [destruct (d_reps c)|destruct (d_trace c)]; split; congruence. Qed.
Lemma within_l c n : Alike c n -> Disjoint c n -> Wf c -> Wf n -> Within c (merge_array c n).
Proof. intros al dj wc wn. constructor.
  - intros a h. cbn. rewrite merge_index_in. auto.
  - rewrite merge_reps by apply al. lia.
  - rewrite merge_trace by apply al. lia.
  - apply merge_alike.
  - intros r a t h. rewrite merge_labelled by auto. rewrite (labelled_out n) by (apply dj, h). now destruct (labelled c r a t).
  - intros k a h. rewrite merge_coord. rewrite (coord_out n) by (apply dj, h). now destruct (coord_at c k a).
  - intros k h. rewrite merge_coord_keys, dedup_in, in_app_iff. auto. Qed.
Lemma within_r c n : Alike c n -> Disjoint c n -> Wf c -> Wf n -> Within n (merge_array c n).
Proof. intros al dj wc wn. assert (dj' : forall a, In a (d_index n) -> ~ In a (d_index c)) by (intros a h1 h2; eapply dj; eauto). constructor.
  - intros a h. cbn. rewrite merge_index_in. auto.
  - rewrite merge_reps by apply al. lia.
  - rewrite merge_trace by apply al. lia.
  - eapply alike_trans; [apply alike_sym; exact al|apply merge_alike].
  - intros r a t h. rewrite merge_labelled by auto. rewrite (labelled_out c) by (apply dj', h). reflexivity.
  - intros k a h. rewrite merge_coord. rewrite (coord_out c) by (apply dj', h). reflexivity.
  - intros k h. rewrite merge_coord_keys, dedup_in, in_app_iff. auto. Qed.
Lemma within_value d e r a t v : Wf d -> Wf e -> Within d e -> Value d r a t v -> Value e r a t v.
Proof. intros wd we w h. apply value_labelled in h; [|auto]. apply value_labelled; [auto|]. destruct h as (h1 & h2 & h3 & h4). pose proof (wi_reps _ _ w). pose proof (wi_trace _ _ w). split; [now apply w|]. split; [lia|]. split; [lia|]. rewrite (wi_val _ _ w); auto. Qed.

(** Parts with the same channel are of the same kind and have no index in common *)
Definition Compatible (parts : list (string * darray)) : Prop :=
  forall i j ch d e, i <> j -> nth_error parts i = Some (ch, d) -> nth_error parts j = Some (ch, e) -> Alike d e /\ Disjoint d e.
Lemma compatible_init p q : Compatible (p ++ q) -> Compatible p.
Proof. intros h i j ch d e n h1 h2. apply (h i j ch d e n); rewrite nth_error_app1; auto; apply nth_error_Some; congruence. Qed.
(** the result of merging *)
Record Merged (parts : list (string * darray)) (ds : dataset) : Prop := {
  me_nodup : NoDup (map fst ds);
  me_keys : forall ch, In ch (map fst ds) <-> In ch (map fst parts);
  me_wf : forall ch e, In (ch, e) ds -> Wf e;
  me_in : forall ch d, In (ch, d) parts -> exists e, In (ch, e) ds /\ Within d e;
  me_from : forall ch e a, In (ch, e) ds -> In a (d_index e) -> exists d, In (ch, d) parts /\ In a (d_index d);
  me_coord : forall ch e k, In (ch, e) ds -> In k (map fst (d_coord e)) -> exists d, In (ch, d) parts /\ In k (map fst (d_coord d));
  me_size : forall ch e, In (ch, e) ds -> (exists d, In (ch, d) parts /\ n_reps e <= n_reps d) /\ (exists d, In (ch, d) parts /\ n_trace e <= n_trace d);
  me_once : forall ch d, In (ch, d) parts -> (forall d', In (ch, d') parts -> d' = d) -> List.length (filter (fun x => String.eqb ch (fst x)) parts) <= 1 -> In (ch, d) ds;
  me_cnodup : forall ch e, In (ch, e) ds -> (forall d, In (ch, d) parts -> NoDup (map fst (d_coord d))) -> NoDup (map fst (d_coord e)) }.
Lemma merge_parts parts : forall ds, Compatible parts -> (forall ch d, In (ch, d) parts -> Wf d) -> foldM merge_channel parts [] = Ok ds -> Merged parts ds.
Proof. induction parts as [|[ch d] parts IH] using rev_ind; intros ds cp wf H.
  - injection H as <-. constructor; cbn; try tauto; try (intros; contradiction). constructor.
  - apply foldM_app_ok in H. destruct H as (m & H & H2). cbn [foldM] in H2. inv H2. injection H2 as <-.
    assert (M := IH m (compatible_init _ _ cp) (fun c x h => wf c x (in_or_app _ _ _ (or_introl h))) H). clear IH H.
    assert (wd : Wf d) by (apply (wf ch); apply in_or_app; cbn; auto). unfold merge_channel in E. destruct (RetModel.get ch m) as [c|] eqn:G.
    + inv E. injection E as <-. assert (hc := get_some _ _ _ G). assert (wc := me_wf _ _ M _ _ hc).
      assert (al : Alike c d).
      { assert (K : In ch (map fst m)) by (apply in_map_iff; exists (ch, c); auto). apply (me_keys _ _ M) in K. apply in_map_iff in K. destruct K as ([ch' d1] & e1 & K). cbn [fst] in e1. subst ch'. destruct (me_in _ _ M _ _ K) as (c' & K2 & w). apply (some_get _ _ _ (me_nodup _ _ M)) in K2. assert (c' = c) as -> by congruence.
        eapply alike_trans; [apply alike_sym; apply w|]. apply In_nth_error in K. destruct K as [i K]. apply (cp i (List.length parts) ch); [|rewrite nth_error_app1; [auto|apply nth_error_Some; congruence]|rewrite nth_error_app2, Nat.sub_diag; auto]. assert (i < List.length parts) by (apply nth_error_Some; congruence). lia. }
      assert (dj : Disjoint c d).
      { intros x hx. destruct (me_from _ _ M _ _ _ hc hx) as (d1 & K & hx1). apply In_nth_error in K. destruct K as [i K]. assert (i < List.length parts) by (apply nth_error_Some; congruence). apply (cp i (List.length parts) ch d1 d); [lia|rewrite nth_error_app1; auto|rewrite nth_error_app2, Nat.sub_diag; auto|exact hx1]. }
      assert (wm := merge_wf _ _ al wc wd). assert (W1 := within_l _ _ al dj wc wd). assert (W2 := within_r _ _ al dj wc wd).
      assert (nd' : NoDup (map fst (put ch (merge_array c d) m))) by (apply put_nodup, M).
      assert (P : forall k e, In (k, e) (put ch (merge_array c d) m) -> (k = ch /\ e = merge_array c d) \/ (k <> ch /\ In (k, e) m)).
      { intros k e h. apply (some_get _ _ _ nd') in h. destruct (string_dec k ch) as [->|n]; [left; rewrite get_put in h; injection h as <-; auto|right]. rewrite get_put_ne in h by auto. split; [auto|now apply get_some]. }
      assert (P1 : In (ch, merge_array c d) (put ch (merge_array c d) m)) by (apply get_some, get_put).
      assert (P2 : forall k e, k <> ch -> In (k, e) m -> In (k, e) (put ch (merge_array c d) m)) by (intros k e n h; apply get_some; rewrite get_put_ne by auto; apply some_get; [apply M|auto]).
      constructor.
      * exact nd'.
      * intros k. rewrite put_keys, map_app, in_app_iff. cbn. rewrite (me_keys _ _ M). intuition.
      * intros k e h. destruct (P _ _ h) as [[-> ->]|[n h']]; [auto|eapply M; eauto].
      * intros k x h. apply in_app_iff in h. destruct h as [h|[h|[]]].
        -- destruct (me_in _ _ M _ _ h) as (e & h1 & w). destruct (string_dec k ch) as [->|n]; [|exists e; split; [now apply P2|auto]]. exists (merge_array c d). split; [auto|]. apply (some_get _ _ _ (me_nodup _ _ M)) in h1. assert (e = c) as -> by congruence. eapply within_trans; eauto.
        -- injection h as <- <-. eauto.
      * intros k e x h hx. destruct (P _ _ h) as [[-> ->]|[n h']].
        -- cbn in hx. apply merge_index_in in hx. destruct hx as [hx|hx]; [destruct (me_from _ _ M _ _ _ hc hx) as (d1 & K & hx1); exists d1; split; [apply in_or_app; auto|auto]|exists d; split; [apply in_or_app; cbn; auto|auto]].
        -- destruct (me_from _ _ M _ _ _ h' hx) as (d1 & K & hx1). exists d1. split; [apply in_or_app; auto|auto].
      * intros k e x h hx. destruct (P _ _ h) as [[-> ->]|[n h']].
        -- rewrite merge_coord_keys, dedup_in, in_app_iff in hx. destruct hx as [hx|hx]; [destruct (me_coord _ _ M _ _ _ hc hx) as (d1 & K & hx1); exists d1; split; [apply in_or_app; auto|auto]|exists d; split; [apply in_or_app; cbn; auto|auto]].
        -- destruct (me_coord _ _ M _ _ _ h' hx) as (d1 & K & hx1). exists d1. split; [apply in_or_app; auto|auto].
      * intros k e h. destruct (P _ _ h) as [[-> ->]|[n h']].
        -- destruct (me_size _ _ M _ _ hc) as [(d1 & s1 & s2) (d2 & s3 & s4)]. rewrite merge_reps by apply al. rewrite merge_trace by apply al. split.
           ++ destruct (Nat.le_gt_cases (n_reps c) (n_reps d)); [exists d; split; [apply in_or_app; cbn; auto|lia]|exists d1; split; [apply in_or_app; auto|lia]].
           ++ destruct (Nat.le_gt_cases (n_trace c) (n_trace d)); [exists d; split; [apply in_or_app; cbn; auto|lia]|exists d2; split; [apply in_or_app; auto|lia]].
        -- destruct (me_size _ _ M _ _ h') as [(d1 & s1 & s2) (d2 & s3 & s4)]. split; [exists d1|exists d2]; (split; [apply in_or_app; auto|auto]).
      * intros k x h u ln. apply in_app_iff in h. rewrite filter_app, app_length in ln. destruct (string_dec k ch) as [->|n].
        -- exfalso. cbn [filter fst] in ln. rewrite String.eqb_refl in ln. cbn in ln. assert (K : In ch (map fst parts)) by (apply (me_keys _ _ M); apply in_map_iff; exists (ch, c); auto). apply in_map_iff in K. destruct K as ([k y] & ek & K). cbn [fst] in ek. subst k.
           assert (Y : In (ch, y) (filter (fun x => String.eqb ch (fst x)) parts)) by (apply filter_In; split; [auto|apply String.eqb_refl]). destruct (filter (fun x => String.eqb ch (fst x)) parts); [destruct Y|cbn in ln; lia].
        -- destruct h as [h|[h|[]]]; [|injection h as -> _; easy]. apply P2; [auto|]. apply (me_once _ _ M); [auto| |lia]. intros d' hd. apply u. apply in_or_app. auto.
      * intros k e h cn. destruct (P _ _ h) as [[-> ->]|[n h']]; [rewrite merge_coord_keys; apply dedup_nodup|]. eapply (me_cnodup _ _ M); eauto. intros x hx. apply cn. apply in_or_app. auto.
    + injection E as <-. apply get_none in G.
      assert (nd' : NoDup (map fst (put ch d m))) by (apply put_nodup, M).
      assert (P : forall k e, In (k, e) (put ch d m) -> (k = ch /\ e = d) \/ (k <> ch /\ In (k, e) m)).
      { intros k e h. apply (some_get _ _ _ nd') in h. destruct (string_dec k ch) as [->|n]; [left; rewrite get_put in h; injection h as <-; auto|right]. rewrite get_put_ne in h by auto. split; [auto|now apply get_some]. }
      assert (P1 : In (ch, d) (put ch d m)) by (apply get_some, get_put).
      assert (P2 : forall k e, k <> ch -> In (k, e) m -> In (k, e) (put ch d m)) by (intros k e n h; apply get_some; rewrite get_put_ne by auto; apply some_get; [apply M|auto]).
      assert (NP : forall x, ~ In (ch, x) parts) by (intros x h; apply G, (me_keys _ _ M), in_map_iff; exists (ch, x); auto).
      constructor.
      * exact nd'.
      * intros k. rewrite put_keys, map_app, in_app_iff. cbn. rewrite (me_keys _ _ M). intuition.
      * intros k e h. destruct (P _ _ h) as [[-> ->]|[n h']]; [auto|eapply M; eauto].
      * intros k x h. apply in_app_iff in h. destruct h as [h|[h|[]]]; [|injection h as <- <-; exists d; split; [auto|apply within_refl]]. destruct (me_in _ _ M _ _ h) as (e & h1 & w). exists e. split; [apply P2; [|auto]|auto]. intros ->. eapply NP; eauto.
      * intros k e x h hx. destruct (P _ _ h) as [[-> ->]|[n h']]; [exists d; split; [apply in_or_app; cbn; auto|auto]|]. destruct (me_from _ _ M _ _ _ h' hx) as (d1 & K & hx1). exists d1. split; [apply in_or_app; auto|auto].
      * intros k e x h hx. destruct (P _ _ h) as [[-> ->]|[n h']]; [exists d; split; [apply in_or_app; cbn; auto|auto]|]. destruct (me_coord _ _ M _ _ _ h' hx) as (d1 & K & hx1). exists d1. split; [apply in_or_app; auto|auto].
      * intros k e h. destruct (P _ _ h) as [[-> ->]|[n h']]; [split; exists d; (split; [apply in_or_app; cbn; auto|lia])|]. destruct (me_size _ _ M _ _ h') as [(d1 & s1 & s2) (d2 & s3 & s4)]. split; [exists d1|exists d2]; (split; [apply in_or_app; auto|auto]).
      * intros k x h u ln. apply in_app_iff in h. destruct h as [h|[h|[]]]; [|injection h as <- <-; auto]. assert (k <> ch) by (intros ->; eapply NP; eauto). apply P2; [auto|]. apply (me_once _ _ M); [auto| |rewrite filter_app, app_length in ln; lia]. intros d' hd. apply u. apply in_or_app. auto.
      * intros k e h cn. destruct (P _ _ h) as [[-> ->]|[n h']]; [apply cn; apply in_or_app; cbn; auto|]. eapply (me_cnodup _ _ M); eauto. intros x hx. apply cn. apply in_or_app. auto. Qed.
