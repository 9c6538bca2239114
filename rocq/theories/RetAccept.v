(** Complete hardware data is retrieved. *)
From Verif Require Import Base AcqChanModel NumericModel JsonModel PathModel QbModel RetModel RetSpec RetProps RetOwn RetWhole RetMerge RetParts RetThms.
Local Open Scope string_scope.
Local Open Scope list_scope.
Local Open Scope nat_scope.

(** ** Merging succeeds *)
Lemma foldM_snoc_ok {A B} (f : B -> A -> result B) l x b m c : foldM f l b = Ok m -> f m x = Ok c -> foldM f (l ++ [x]) b = Ok c.
Proof. revert b. induction l as [|y l IH]; cbn; intros b h1 h2; [injection h1 as ->; now rewrite h2|]. inv h1. rewrite E. cbn. auto. Qed.
Lemma no_common d c : Disjoint d c -> filter (fun a => existsb (Nat.eqb a) (d_index c)) (d_index d) = [].
Proof. intros h. unfold Disjoint in h. induction (d_index d) as [|x l IH]; [auto|]. cbn [filter]. destruct (existsb (Nat.eqb x) (d_index c)) eqn:E; [exfalso; apply existsb_eqb in E; apply (h x); cbn; auto|]. apply IH. intros a ha. apply h. now right. Qed.
Lemma check_averaged d c : Disjoint d c -> d_reps d = None -> check_existing d c = Ok tt.
Proof. intros h r. unfold check_existing, common_rows. rewrite r, no_common by auto. reflexivity. Qed.
Lemma check_appended d c : Disjoint d c -> d_reps d <> None -> 0 < n_reps d -> 0 < n_reps c -> check_existing d c = Err ValueError.
Proof. intros h r p1 p2. unfold check_existing, common_rows. destruct (d_reps d) as [k|]; [|easy]. rewrite no_common by auto. destruct (Nat.min (n_reps d) (n_reps c)) as [|m] eqn:E; [lia|]. reflexivity. Qed.
Lemma disjoint_sym d c : Disjoint d c -> Disjoint c d.
Proof. intros h a h1 h2. apply (h a); auto. Qed.
(** what is already there for the channel is like the new part and apart from it *)
Lemma merged_like parts ch d m c : Compatible (parts ++ [(ch, d)]) -> Merged parts m -> RetModel.get ch m = Some c -> Alike c d /\ Disjoint d c /\ exists j d1, nth_error parts j = Some (ch, d1) /\ n_reps d1 <= n_reps c.
Proof. intros cp M G. assert (hc := get_some _ _ _ G).
  assert (K : exists j d1, nth_error parts j = Some (ch, d1) /\ Within d1 c).
  { assert (K : In ch (map fst m)) by (apply in_map_iff; exists (ch, c); auto). apply (me_keys _ _ M) in K. apply in_map_iff in K. destruct K as ([ch' d1] & e1 & K). cbn [fst] in e1. subst ch'. destruct (me_in _ _ M _ _ K) as (c' & K2 & w). apply (some_get _ _ _ (me_nodup _ _ M)) in K2. assert (c' = c) as -> by congruence. apply In_nth_error in K. destruct K as [j K]. eauto. }
  destruct K as (j & d1 & K & w). assert (lt : forall j d2, nth_error parts j = Some (ch, d2) -> Alike d2 d /\ Disjoint d2 d).
  { intros j2 d2 h. assert (j2 < List.length parts) by (apply nth_error_Some; congruence). apply (cp j2 (List.length parts) ch); [lia|rewrite nth_error_app1; auto|rewrite nth_error_app2, Nat.sub_diag; auto]. }
  split; [eapply alike_trans; [apply alike_sym, w|apply (lt _ _ K)]|]. split; [|exists j, d1; split; [auto|apply w]]. intros x h1 h2. destruct (me_from _ _ M _ _ _ hc h2) as (d2 & i2 & h3). apply In_nth_error in i2. destruct i2 as [j2 i2]. destruct (lt _ _ i2) as [_ dj]. exact (dj _ h3 h1). Qed.
Lemma merge_succeeds parts : Compatible parts -> (forall ch d, In (ch, d) parts -> Wf d) -> (forall i j ch d e, i <> j -> nth_error parts i = Some (ch, d) -> nth_error parts j = Some (ch, e) -> d_reps e = None) -> exists ds, foldM merge_channel parts [] = Ok ds.
Proof. induction parts as [|[ch d] parts IH] using rev_ind; intros cp wf av; [exists []; reflexivity|].
  destruct IH as [m hm].
  - eapply compatible_init; eauto.
  - intros c x h. apply (wf c). apply in_or_app. auto.
  - intros i j c x e n h1 h2. apply (av i j c x e n); rewrite nth_error_app1; auto; apply nth_error_Some; congruence.
  - assert (M := merge_parts parts m (compatible_init _ _ cp) (fun c x h => wf c x (in_or_app _ _ _ (or_introl h))) hm).
    assert (S : exists ds, merge_channel m (ch, d) = Ok ds); [|destruct S as [ds S]; exists ds; eapply foldM_snoc_ok; eauto].
    unfold merge_channel. destruct (RetModel.get ch m) as [c|] eqn:G; [|eauto]. destruct (merged_like _ _ _ _ _ cp M G) as (al & dj & j & d1 & hj & _). assert (j < List.length parts) by (apply nth_error_Some; congruence).
    rewrite check_averaged; [cbn; eauto|auto|]. apply (av j (List.length parts) ch d1); [lia|rewrite nth_error_app1; auto|rewrite nth_error_app2, Nat.sub_diag; auto]. Qed.

(** ** The acquisition functions succeed *)
Lemma delivered_bins f g c l coords : binned c -> c_coords c = CoordList coords -> (forall a, In a (map fst l) -> a < List.length coords) -> (appended c -> 0 < g_reps g) ->
  (forall a b r, In (a, b) l -> (r = 0 \/ appended c /\ r < g_reps g) -> exists v, f (h_index b) (h_bin b + r * h_stride b) (h_meta b) = Ok v) -> exists d, binned_data f c (g_reps g) (Bins l) = Ok d.
Proof. intros B CC CL AP F. unfold binned_data. rewrite CC. destruct (coords_binned_exists coords (map fst l) CL) as [cs CE]. unfold binned, appended in *. destruct (is_binned_average (c_proto c) (c_mode c)).
  - destruct (mapM_exists (fun '(_, b) => f (h_index b) (h_bin b) (h_meta b)) l) as [vs E]; [intros [a b] h; destruct (F a b 0 h (or_introl eq_refl)) as [v e]; rewrite Nat.mul_0_l, Nat.add_0_r in e; eauto|]. rewrite E. cbn [bind]. rewrite CE. cbn [bind]. eauto.
  - destruct B as [B|B]; [discriminate|]. rewrite B in *. destruct (mapM_exists (fun r => mapM (fun '(_, b) => f (h_index b) (h_bin b + r * h_stride b) (h_meta b)) l) (List.seq 0 (g_reps g))) as [rows E].
    { intros r hr. apply in_seq in hr. apply mapM_exists. intros [a b] h. apply (F a b r h). right. split; [auto|lia]. }
    rewrite E. cbn [bind]. specialize (AP eq_refl). destruct (Nat.eqb_spec (g_reps g) 0); [lia|]. rewrite CE. cbn [bind]. eauto. Qed.
Lemma bin_data_of h k x : RetModel.get (acq_name k) h = Some x -> a_index x = k -> bin_data h k = Ok x.
Proof. intros h1 h2. unfold bin_data, item. rewrite h1. cbn. now rewrite h2, Nat.eqb_refl. Qed.
Lemma counted_at x b y : Counted x b y -> at_ (counts x) b = Ok y.
Proof. unfold Counted, counts. intros h. apply at_ok. now destruct (cnt x). Qed.
Lemma both_at x b i q : Both x b i q -> at_ (integ0 x) b = Ok i /\ at_ (integ1 x) b = Ok q.
Proof. intros [h1 h2]. split; now apply at_ok. Qed.
Lemma weighed_values k mode reps dur x b meta p v : BinValue k mode reps dur x b meta p v -> iq_protocol p \/ thr_protocol p \/ p = SSBIntegrationComplex \/ p = NumericalWeightedIntegration ->
  (thr_protocol p -> exists y, at_ (thr x) b = Ok y) /\ (~ thr_protocol p -> exists y z, at_ (integ0 x) b = Ok y /\ at_ (integ1 x) b = Ok z).
Proof. intros V hp. assert (BO : forall i q, Both x b i q -> exists y z, at_ (integ0 x) b = Ok y /\ at_ (integ1 x) b = Ok z) by (intros i q h; apply both_at in h; destruct h; eauto).
  destruct V; unfold iq_protocol, thr_protocol in *; try (exfalso; clear BO; intuition congruence).
  all: split; [intros ht|intros hn].
  all: try (eapply BO; eassumption).
  all: try (eexists; apply at_ok; eassumption).
  all: exfalso; clear BO; intuition congruence. Qed.
Lemma delivered_function g hw s ch c dur i hm : g_seq g s = Some i -> Supported (g_kind g) (c_proto c) (c_mode c) -> Delivered g hw s c dur hm -> exists d, acquisition_function g ch c dur s i hm (acquisitions hw (stored g) i) hw = Ok d.
Proof. intros SI SU DE. assert (FE : forall k x, Fetched g hw s k x -> RetModel.get (acq_name k) (acquisitions hw (stored g) i) = Some x) by (intros k x (i' & e1 & e2); assert (i' = i) as -> by congruence; exact e2).
  destruct DE as [l coords B CC CL AP SSB THR F|k coords x p q N K T CC -> le FX SP L1 L2|k coords x i' N K T CC -> FX SI' LN|k x K T M CC FX AI].
  - assert (BD : forall f, (forall x b meta v, BinValue (g_kind g) (c_mode c) (g_reps g) dur x b meta (c_proto c) v -> forall k, bin_data (acquisitions hw (stored g) i) k = Ok x -> exists w, f k b meta = Ok w) -> exists d, binned_data f c (g_reps g) (Bins l) = Ok d).
    { intros f hf. apply (delivered_bins f g c l coords B CC CL AP). intros a b r h1 h2. destruct (F a b r h1 h2) as (x & v & f1 & f2 & f3). eapply hf; [exact f3|]. apply bin_data_of; auto. }
    unfold acquisition_function.
    assert (TRG : forall mul, (c_proto c = TriggerCount \/ c_proto c = DualThresholdedTriggerCount) -> exists d, trigger_data mul ch c (g_reps g) (Bins l) (acquisitions hw (stored g) i) = Ok d).
    { intros mul pr. unfold trigger_data. assert (BB : exists d, binned_data (trigger_bin mul (c_mode c) (g_reps g) (acquisitions hw (stored g) i)) c (g_reps g) (Bins l) = Ok d).
      { apply BD. intros x b meta v V k kk. unfold trigger_bin. rewrite kk. cbn [bind]. destruct pr as [pr|pr]; rewrite pr in V; inversion V; subst; unfold iq_protocol, thr_protocol in *; try (exfalso; intuition discriminate); match goal with h : Counted _ _ _ |- _ => rewrite (counted_at _ _ _ h) end; cbn; eauto. }
      unfold binned in B. destruct (c_mode c); auto; exfalso; destruct pr as [pr|pr]; rewrite pr in B; destruct B; discriminate. }
    inversion SU as [p m hp hm Ek Ep Em|Ek Ep Em|m hm Ek Ep Em|k Ek Ep Em|m hm Ek Ep Em|Ek Ep Em|m hm Ek Ep Em|Ek Ep Em|Ek Ep Em].
    + assert (WH : forall x b meta v, BinValue (g_kind g) (c_mode c) (g_reps g) dur x b meta (c_proto c) v -> (thr_protocol (c_proto c) -> exists y, at_ (thr x) b = Ok y) /\ (~ thr_protocol (c_proto c) -> exists y z, at_ (integ0 x) b = Ok y /\ at_ (integ1 x) b = Ok z)).
      { intros x b meta v V. eapply weighed_values; [exact V|]. exact hp. }
      destruct hp as [[e|e]|[[e|e]|[e|e]]]; rewrite e in *.
      * apply BD. intros x b meta v V k kk. unfold separated_bin. rewrite kk. cbn [bind]. destruct (proj2 (WH _ _ _ _ V)) as (y & z & h1 & h2); [intros [|]; discriminate|]. rewrite h1, h2. cbn. eauto.
      * apply BD. intros x b meta v V k kk. unfold separated_bin. rewrite kk. cbn [bind]. destruct (proj2 (WH _ _ _ _ V)) as (y & z & h1 & h2); [intros [|]; discriminate|]. rewrite h1, h2. cbn. eauto.
      * destruct dur as [du|]; [|exfalso; apply THR; [left; auto|auto]]. apply BD. intros x b meta v V k kk. unfold threshold_bin. rewrite kk. cbn [bind]. destruct (proj1 (WH _ _ _ _ V)) as (y & h1); [left; auto|]. rewrite h1. cbn. eauto.
      * destruct dur as [du|]; [|exfalso; apply THR; [right; auto|auto]]. apply BD. intros x b meta v V k kk. unfold threshold_bin. rewrite kk. cbn [bind]. destruct (proj1 (WH _ _ _ _ V)) as (y & h1); [right; auto|]. rewrite h1. cbn. eauto.
      * destruct (SSB eq_refl) as (du & -> & nz). apply BD. intros x b meta v V k kk. unfold amplitude_bin. rewrite kk. cbn [bind]. destruct (proj2 (WH _ _ _ _ V)) as (y & z & h1 & h2); [intros [|]; discriminate|]. rewrite h1, h2. cbn [bind]. destruct (Z.eqb_spec du 0); [contradiction|]. eauto.
      * apply BD. intros x b meta v V k kk. unfold real_bin. rewrite kk. cbn [bind]. destruct (proj2 (WH _ _ _ _ V)) as (y & z & h1 & h2); [intros [|]; discriminate|]. rewrite h1, h2. cbn. eauto.
    + exfalso. unfold binned in B. rewrite <- Ep, <- Em in B. destruct B; discriminate.
    + apply TRG. auto.
    + assert (X : exists d, binned_data (trigger_thr_bin (acquisitions hw (stored g) i)) c (g_reps g) (Bins l) = Ok d); [|destruct (g_kind g); exact X].
      apply BD. rewrite <- Ep. intros x b meta v V k1 kk. inversion V; subst; unfold iq_protocol, thr_protocol in *; try (exfalso; intuition congruence); unfold trigger_thr_bin.
      * rewrite kk. cbn [bind]. match goal with h : Counted _ _ _ |- _ => rewrite (counted_at _ _ _ h) end. cbn. eauto.
      * rewrite kk. cbn [bind]. match goal with h : Counted _ _ _ |- _ => rewrite (counted_at _ _ _ h) end. cbn. eauto.
      * destruct m as [t0 c0]. rewrite kk. cbn [bind]. match goal with h : Counted _ _ _ |- _ => rewrite (counted_at _ _ _ h) end. cbn. eauto.
    + apply TRG. auto.
    + apply TRG. auto.
    + apply BD. rewrite <- Ep. intros x b meta v V k kk. unfold timetag_bin. rewrite kk. cbn [bind]. inversion V; subst; unfold iq_protocol, thr_protocol in *; try (exfalso; intuition congruence);
        match goal with h : nth_error (timedelta _) _ = Some _ |- _ => apply at_ok in h; rewrite h end; cbn; eauto.
    + exfalso. unfold binned in B. rewrite <- Ep, <- Em in B. destruct B; discriminate.
    + exfalso. unfold binned in B. rewrite <- Ep, <- Em in B. destruct B; discriminate.
  - unfold acquisition_function. rewrite K, T. unfold scope_data. destruct (Z.ltb_spec (Z.of_nat N) 0); [lia|]. destruct (Z.ltb_spec 16384 (Z.of_nat N)); [lia|]. cbn [orb]. rewrite CC. unfold item. rewrite (FE _ _ FX). cbn [bind]. rewrite (paths_def (scope_path x)). cbv zeta beta iota. rewrite Nat2Z.id.
    assert (pq : p = fst (paths (g_inputs g s)) /\ q = snd (paths (g_inputs g s))). { pose proof (scope_paths (g_inputs g s)) as SP'. unfold ScopePaths in *. intuition congruence. } destruct pq as [<- <-].
    assert (l1 : List.length (firstn N (scope_path x p)) = N) by (rewrite firstn_length; lia). assert (l2 : List.length (firstn N (scope_path x q)) = N) by (rewrite firstn_length; lia).
    assert (CN : exists cs, coords_nonbinned coords 1 = Ok cs) by (unfold coords_nonbinned; destruct coords; eexists; reflexivity). destruct CN as [cs CN].
    destruct (firstn N (scope_path x p)) as [|u lu] eqn:E1, (firstn N (scope_path x q)) as [|v lv] eqn:E2; cbn [List.length] in l1, l2; try lia.
    + subst N. destruct (g_dummy g); cbn [bind repeat List.length Nat.eqb]; rewrite CN; cbn; eauto.
    + assert (q1 : Nat.eqb (List.length (u :: lu)) (List.length (v :: lv)) = true) by (apply Nat.eqb_eq; cbn [List.length]; congruence).
      assert (q2 : Nat.eqb (List.length (map (fun '(x, y) => Some (x, y)) (combine (u :: lu) (v :: lv)))) N = true) by (apply Nat.eqb_eq; rewrite map_length, combine_length; cbn [List.length]; lia).
      rewrite q1. cbn [bind]. rewrite q2, CN. cbn [bind]. eexists. reflexivity.
  - unfold acquisition_function. rewrite K, T. unfold digital_trace. rewrite CC, Nat2Z.id. assert (i' = i) as -> by congruence. rewrite firstn_length, Nat.min_l, Nat.eqb_refl by auto. assert (CN : exists cs, coords_nonbinned coords 1 = Ok cs) by (unfold coords_nonbinned; destruct coords; eexists; reflexivity). destruct CN as [cs CN]. rewrite CN. cbn. eauto.
  - unfold acquisition_function. rewrite K, T. unfold trigger_data. rewrite M. unfold distribution_data. rewrite (bin_data_of _ _ _ (FE _ _ FX) AI). cbn [bind]. rewrite CC. cbn. eauto. Qed.
Lemma each_ok {A} (f : A -> result unit) l : (forall x, In x l -> f x = Ok tt) -> RetModel.each l f = Ok tt.
Proof. unfold RetModel.each. induction l as [|x l IH]; cbn; intros h; [auto|]. rewrite h by auto. cbn. apply IH. auto. Qed.
Lemma delivered_exist g hw s c dur i hm : g_seq g s = Some i -> Delivered g hw s c dur hm -> indices_exist (acquisitions hw (stored g) i) hm = Ok tt.
Proof. intros SI DE. assert (FE : forall k x, Fetched g hw s k x -> data_exists (acquisitions hw (stored g) i) k = Ok tt) by (intros k x (i' & e1 & e2); assert (i' = i) as -> by congruence; unfold data_exists; change (dec_Z (Z.of_nat k)) with (acq_name k) in e2; now rewrite e2).
  destruct DE as [l coords B CC CL AP SSB THR F|k coords x p q N K T CC -> le FX SP L1 L2|k coords x i' N K T CC -> FX SI' LN|k x K T M CC FX AI]; cbn [indices_exist]; eauto. apply each_ok. intros [a b] h. destruct (F a b 0 h (or_introl eq_refl)) as (x & v & f1 & _). eauto. Qed.
Theorem C55_accepts : forall g n hw, Dicts g -> Apart g -> Complete g n hw -> exists ds, retrieve g n hw = Ok ds.
Proof. intros g n hw D A CO. unfold retrieve.
  assert (SS : store_scope g n = Ok (stored g)). { unfold store_scope, stored. destruct (g_kind g), (g_scope g) as [[i k]|] eqn:E; auto. destruct (Nat.ltb_spec i n) as [|ge]; [auto|]. pose proof (co_scope _ _ _ CO _ _ E). lia. }
  rewrite SS. cbn [bind]. assert (CM : check_modes g = Ok tt).
  { unfold check_modes. apply each_ok. intros [s chans] h1. apply each_ok. intros [ch hm] h2. destruct (co_data _ _ _ CO s ch hm (ex_intro _ chans (conj h1 h2))) as (c & dur & P & _ & SU & _). unfold item. rewrite (some_get _ _ _ (di_data _ D) P). cbn [bind]. destruct (supported_compatible _ _ _ SU) as (l & e & il). rewrite e.
    assert (X : existsb (fun b => if bmode_eq_dec (c_mode c) b then true else false) l = true) by (apply existsb_exists; exists (c_mode c); split; [auto|destruct (bmode_eq_dec (c_mode c) (c_mode c)); auto]). now rewrite X. }
  rewrite CM. cbn [bind].
  assert (PS : exists parts, Forall2 (Part g hw (stored g)) (items g) parts).
  { assert (G : forall l, (forall it, In it l -> In it (items g)) -> exists parts, Forall2 (Part g hw (stored g)) l parts).
    { induction l as [|[[s ch] hm] l IH]; intros h; [exists []; constructor|]. destruct IH as [parts IH]; [intros it hit; apply h; now right|]. assert (R : Reads g s ch hm) by (apply items_in, h; now left). destruct (co_data _ _ _ CO _ _ _ R) as (c & dur & P & DU & SU & DE). assert (R' := R). destruct R' as (chans & r1 & r2). destruct (co_seq _ _ _ CO _ _ r1) as [i SI]. destruct (delivered_function _ _ _ ch _ _ _ _ SI SU DE) as [d hd].
      exists ((ch, d) :: parts). constructor; [|auto]. split; [auto|]. exists i. split; [auto|]. unfold retrieve_channel, item. rewrite (some_get _ _ _ (di_data _ D) P). cbn [bind]. rewrite (delivered_exist _ _ _ _ _ _ _ SI DE). cbn [bind]. rewrite (some_get _ _ _ (di_durations _ D) DU). exact hd. }
    apply G. auto. }
  destruct PS as [parts F]. assert (C := parts_compatible _ _ _ _ F D A). destruct (merge_succeeds parts C) as [ds hds].
  - intros ch d h. apply In_nth_error in h; destruct h as [j h]; destruct (parts_in _ _ _ _ F D _ _ _ h) as (?&?&?&?&?&?&?&?&?&?&?&?&K). apply K.
  - intros i j ch d e n0 h1 h2. destruct (parts_in _ _ _ _ F D _ _ _ h1) as (s & hm & i1 & c & du & q1 & q2 & _ & q3 & _ & _ & _ & K). destruct (parts_in _ _ _ _ F D _ _ _ h2) as (s' & hm' & i2 & c' & du' & p1 & p2 & _ & p3 & _ & _ & _ & K').
    assert (c' = c) as -> by (eapply proto_of_unique; eauto). assert (ns : s <> s').
    { intros <-. apply n0. pose proof (items_nodup _ D) as nd. rewrite NoDup_nth_error in nd. apply nd; [rewrite map_length; apply nth_error_Some; congruence|]. rewrite !nth_error_map, q1, p1. reflexivity. }
    pose proof (co_split _ _ _ CO _ _ _ _ _ _ q2 p2 ns q3) as av. rewrite (ki_reps _ _ _ _ K'). unfold repeated. destruct (c_proto c), (c_mode c); try discriminate av; reflexivity.
  - exists ds. eapply parts_retrieve; eauto. intros s chans h. destruct (co_seq _ _ _ CO _ _ h) as [i e]. congruence. Qed.

(** ** A channel that appends and is acquired with two sequencers cannot be retrieved *)
Theorem C55_append_split : forall g n hw s s' ch hm hm' c ds, Dicts g -> Apart g -> Reads g s ch hm -> Reads g s' ch hm' -> s <> s' -> ProtoOf g ch c -> appended c -> retrieve g n hw <> Ok ds.
Proof. intros g n hw s s' ch hm hm' c ds D A R R' ns P AP H. destruct (retrieved _ _ _ _ H D A) as (parts & F & C & W & M & ME).
  assert (TWO : exists i j d e, i < j /\ nth_error parts i = Some (ch, d) /\ nth_error parts j = Some (ch, e)).
  { apply items_in, In_nth_error in R. destruct R as [i hi]. apply items_in, In_nth_error in R'. destruct R' as [j hj]. destruct (f2_nth _ _ _ F _ _ hi) as ([c1 d1] & p1 & (q1 & _)). destruct (f2_nth _ _ _ F _ _ hj) as ([c2 d2] & p2 & (q2 & _)). cbn [fst] in q1, q2. subst. assert (i <> j) by congruence. destruct (Nat.lt_gt_cases i j) as [h _]. destruct (h H0); [exists i, j, d1, d2; auto|exists j, i, d2, d1; auto]. }
  destruct TWO as (i & j & d & e & lt & hi & hj).
  assert (RP : forall k x, nth_error parts k = Some (ch, x) -> d_reps x <> None /\ 0 < n_reps x).
  { intros k x hx. destruct (parts_in _ _ _ _ F D _ _ _ hx) as (s1 & hm1 & i1 & c1 & du1 & q1 & q2 & _ & q3 & _ & _ & fu & K). assert (c1 = c) as -> by (eapply proto_of_unique; eauto). destruct (binned_function _ _ _ _ _ _ _ _ _ _ fu) as (l & co & f & -> & _ & O & _); [now right|intros l ->; eapply (di_bins _ D); eauto|]. unfold n_reps. rewrite (ow_reps _ _ _ _ _ _ O). pose proof (ow_pos _ _ _ _ _ _ O) as ps. unfold appended in AP. rewrite AP in *. split; [discriminate|auto]. }
  apply nth_error_split in hj. destruct hj as (l1 & l2 & -> & <-). rewrite nth_error_app1 in hi by auto. replace (l1 ++ (ch, e) :: l2) with ((l1 ++ [(ch, e)]) ++ l2) in * by (now rewrite <- app_assoc).
  apply foldM_app_ok in M. destruct M as (m2 & M & _). apply compatible_init in C. assert (C' := C). apply foldM_app_ok in M. destruct M as (m & M & M2). cbn [foldM] in M2. inv M2. injection M2 as ->.
  assert (MM := merge_parts l1 m (compatible_init _ _ C) (fun c x h => W c x (in_or_app _ _ _ (or_introl (in_or_app _ _ _ (or_introl h))))) M).
  unfold merge_channel in E. destruct (RetModel.get ch m) as [x|] eqn:G.
  - destruct (merged_like _ _ _ _ _ C MM G) as (al & dj & j & d1 & hj & le). destruct (RP (List.length l1) e) as [r1 r2]; [rewrite nth_error_app1, nth_error_app2, Nat.sub_diag; [reflexivity|lia|rewrite app_length; cbn; lia]|]. destruct (RP j d1) as [r3 r4]; [assert (j < List.length l1) by (apply nth_error_Some; congruence); rewrite nth_error_app1, nth_error_app1; [auto|auto|rewrite app_length; lia]|]. rewrite check_appended in E; [discriminate|auto|auto|auto|lia].
  - apply get_none in G. apply G, (me_keys _ _ MM), in_map_iff. exists (ch, d). split; [auto|eapply nth_error_In; eauto]. Qed.
