(** The data retrieved from Qblox modules is what the hardware measured. *)
From Verif Require Import Base AcqChanModel NumericModel JsonModel PathModel QbModel RetModel RetSpec RetProps RetOwn RetWhole RetMerge RetParts.
Local Open Scope string_scope.
Local Open Scope list_scope.
Local Open Scope nat_scope.

Lemma dur_unique g s d d' : Dicts g -> In (s, d) (g_durations g) -> In (s, d') (g_durations g) -> d = d'.
Proof. intros D h h'. apply (some_get _ _ _ (di_durations _ D)) in h. apply (some_get _ _ _ (di_durations _ D)) in h'. congruence. Qed.
Lemma fetched g hw s i k a : g_seq g s = Some i -> RetModel.get (acq_name k) (acquisitions hw (stored g) i) = Some a -> Fetched g hw s k a.
Proof. intros h1 h2. exists i. auto. Qed.
Lemma bin_data_ok h k a : bin_data h k = Ok a -> RetModel.get (acq_name k) h = Some a /\ a_index a = k.
Proof. unfold bin_data. intros H. inv H. apply item_ok in E. destruct (Nat.eqb_spec (a_index a0) k); [|discriminate]. injection H as <-. auto. Qed.
Lemma binned_function g ch c dur s i hm h hw d : acquisition_function g ch c dur s i hm h hw = Ok d -> binned c -> (forall l, hm = Bins l -> NoDup (map fst l)) ->
  exists l coords f, hm = Bins l /\ c_coords c = CoordList coords /\ Own f (g_reps g) (is_binned_append (c_proto c) (c_mode c)) coords l d /\ forall k b meta v, f k b meta = Ok v -> exists a, bin_data h k = Ok a /\ BinValue (g_kind g) (c_mode c) (g_reps g) dur a b meta (c_proto c) v.
Proof. intros H B nd. destruct (acq_binned _ _ _ _ _ _ _ _ _ _ H B) as (f & h1 & h2). apply binned_own in h1; [|auto]. destruct h1 as (l & coords & e & cc & _ & O). exists l, coords, f. auto. Qed.
Lemma binned_shape c : binned c -> repeated c = is_binned_append (c_proto c) (c_mode c) /\ traced c = false.
Proof. unfold binned, repeated, traced. destruct (c_proto c), (c_mode c); cbn; intros [h|h]; try discriminate h; auto. Qed.
Lemma within_trace g hw ds s ch hm i c dur d e : Got g hw ds s ch hm i c dur d e -> traced c = false -> d_trace e = None.
Proof. intros G t. destruct (wi_alike _ _ (go_within _ _ _ _ _ _ _ _ _ _ _ G)) as [_ h]. apply h. now apply (ki_trace _ _ _ _ (go_kind _ _ _ _ _ _ _ _ _ _ _ G)). Qed.

(** ** Binned acquisitions: every index of every repetition holds the value of its own bin *)
Theorem C55_binned : forall g n hw ds s ch l c a b r,
  retrieve g n hw = Ok ds -> Dicts g -> Apart g -> Reads g s ch (Bins l) -> ProtoOf g ch c -> binned c -> In (a, b) l -> (r = 0 \/ appended c /\ r < g_reps g) ->
  exists e x v dur, In (ch, e) ds /\ Shape e (if is_binned_append (c_proto c) (c_mode c) then Some (g_reps g) else None) None /\ Fetched g hw s (h_index b) x /\ a_index x = h_index b /\ In (s, dur) (g_durations g) /\
    Value e r a 0 v /\ BinValue (g_kind g) (c_mode c) (g_reps g) dur x (h_bin b + r * h_stride b) (h_meta b) (c_proto c) v.
Proof. intros g n hw ds s ch l c a b r H D A R P B I hr. destruct (got _ _ _ _ _ _ _ _ H D A R P) as (i & dur & d & e & G). destruct (binned_shape c B) as [rp tr]. assert (sh := got_shape _ _ _ _ _ _ _ _ _ _ _ _ H D A G P). rewrite rp in sh.
  destruct (binned_function _ _ _ _ _ _ _ _ _ _ (go_fun _ _ _ _ _ _ _ _ _ _ _ G) B) as (l' & coords & f & e1 & cc & O & F); [intros l0 e0; injection e0 as <-; eapply (di_bins _ D); eauto|]. injection e1 as <-.
  assert (lt : r < n_reps d).
  { unfold n_reps. rewrite (ow_reps _ _ _ _ _ _ O). pose proof (ow_pos _ _ _ _ _ _ O) as ps. unfold appended in hr. destruct (is_binned_append (c_proto c) (c_mode c)); [specialize (ps eq_refl); destruct hr as [->|[_ hr]]; lia|destruct hr as [->|[hr _]]; [lia|discriminate]]. }
  destruct (ow_value _ _ _ _ _ _ O _ _ _ I lt) as (v & v1 & v2). destruct (F _ _ _ _ v1) as (x & x1 & x2). apply bin_data_ok in x1. destruct x1 as [x1 x3].
  exists e, x, v, dur. split; [apply G|]. split; [split; [auto|]; split; [eapply within_trace; eauto|apply wf_idx, G]|]. split; [eapply fetched; [apply G|exact x1]|]. split; [auto|]. split; [apply G|]. split; [|exact x2]. eapply within_value; [apply O|apply G|apply G|exact v2]. Qed.
(** Values are unique, so nothing else is there *)
Theorem C55_value_unique : forall d r a t v v', NoDup (d_index d) -> Value d r a t v -> Value d r a t v' -> v = v'.
Proof. intros d r a t v v' nd (j & row & cell & h1 & h2 & h3 & h4) (j' & row' & cell' & k1 & k2 & k3 & k4). assert (j' = j) as -> by (rewrite NoDup_nth_error in nd; symmetry; apply nd; [apply nth_error_Some; congruence|congruence]). congruence. Qed.

(** ** The channels and their indices are those of the program *)
Theorem C55_channels : forall g n hw ds, retrieve g n hw = Ok ds -> Dicts g -> Apart g ->
  NoDup (map fst ds) /\ (forall ch, In ch (map fst ds) <-> exists s hm, Reads g s ch hm) /\
  (forall ch e c a, In (ch, e) ds -> ProtoOf g ch c -> binned c -> (In a (d_index e) <-> exists s l, Reads g s ch (Bins l) /\ In a (map fst l))).
Proof. intros g n hw ds H D A. destruct (retrieved _ _ _ _ H D A) as (parts & F & C & W & M & ME). split; [apply ME|]. split.
  - intros ch. rewrite (me_keys _ _ ME). split.
    + intros h. apply in_map_iff in h. destruct h as ([ch' d] & e & h). cbn [fst] in e. subst ch'. apply In_nth_error in h. destruct h as [j h]. destruct (parts_in _ _ _ _ F D _ _ _ h) as (s & hm & _ & _ & _ & _ & R & _). eauto.
    + intros (s & hm & R). apply items_in, In_nth_error in R. destruct R as [j h]. destruct (f2_nth _ _ _ F _ _ h) as ([ch' d] & p1 & p2). cbn in p2. destruct p2 as (-> & _). apply in_map_iff. exists (ch, d). split; [auto|eapply nth_error_In; eauto].
  - intros ch e c a h P B. split.
    + intros ha. destruct (me_from _ _ ME _ _ _ h ha) as (d & hd & ha'). apply In_nth_error in hd. destruct hd as [j hd]. destruct (parts_in _ _ _ _ F D _ _ _ hd) as (s & hm & i & c' & dur & _ & R & _ & P' & _ & _ & fu & K). assert (c' = c) as -> by (eapply proto_of_unique; eauto).
      destruct (binned_function _ _ _ _ _ _ _ _ _ _ fu B) as (l & co & f & -> & _ & O & _); [intros l ->; eapply (di_bins _ D); eauto|]. exists s, l. split; [auto|]. now rewrite <- (ow_index _ _ _ _ _ _ O).
    + intros (s & l & R & ha). destruct (got _ _ _ _ _ _ _ _ H D A R P) as (i & dur & d & e' & G). assert (e' = e) as -> by (pose proof (some_get _ _ _ (me_nodup _ _ ME) h); pose proof (some_get _ _ _ (me_nodup _ _ ME) (go_in _ _ _ _ _ _ _ _ _ _ _ G)); congruence).
      apply (wi_idx _ _ (go_within _ _ _ _ _ _ _ _ _ _ _ G)). rewrite (ki_index _ _ _ _ (go_kind _ _ _ _ _ _ _ _ _ _ _ G) l eq_refl); [auto|]. intros pt. destruct B as [B|B]; rewrite pt in B; destruct (c_mode c); discriminate. Qed.

(** ** Coordinates: those the user gave with this acquisition index *)
Lemma within_coord d e k a v : Wf d -> Wf e -> Within d e -> In a (d_index d) -> NoDup (map fst (d_coord d)) -> Coordinate d k a v -> Coordinate e k a v.
Proof. intros wd we w ha nd h. apply coordinate_at in h; [|auto|auto]. destruct h as (h1 & h2 & h3). apply (wi_keys _ _ w) in h1. unfold Coordinate.
  destruct (RetModel.get k (d_coord e)) as [l|] eqn:E; [|apply get_none in E; contradiction].
  destruct (position_in _ _ (wi_idx _ _ w _ ha)) as [j hj]. assert (hv := wi_coord _ _ w k _ ha). unfold coord_at at 1 in hv. rewrite E, hj in hv. apply get_some in E. apply position_some in hj.
  assert (hl : nth_error l j <> None) by (apply nth_error_Some; rewrite (wf_coord e we _ _ E); apply nth_error_Some; congruence). destruct (nth_error l j) as [x|] eqn:F; [|easy]. exists j, l. split; [auto|]. split; [auto|]. congruence. Qed.
Lemma own_nodup g ch c dur s i hm h hw d : acquisition_function g ch c dur s i hm h hw = Ok d -> binned c -> (forall l, hm = Bins l -> NoDup (map fst l)) -> NoDup (map fst (d_coord d)).
Proof. intros H B nd. destruct (binned_function _ _ _ _ _ _ _ _ _ _ H B nd) as (l & co & f & _ & _ & O & _). apply (ow_coord _ _ _ _ _ _ O). Qed.
Theorem C55_coords : forall g n hw ds s ch l c coords a dict,
  retrieve g n hw = Ok ds -> Dicts g -> Apart g -> Reads g s ch (Bins l) -> ProtoOf g ch c -> binned c -> c_coords c = CoordList coords -> In a (map fst l) -> nth_error coords a = Some dict ->
  exists e, In (ch, e) ds /\ (forall k v, Coordinate e k a (CUser v) <-> In (k, v) dict) /\
    (forall k v, Coordinate e k a v -> exists dict' u, In dict' coords /\ In (k, u) dict' /\ (v = CNan \/ exists u', v = CUser u')).
Proof. intros g n hw ds s ch l c coords a dict H D A R P B CC I N. destruct (got _ _ _ _ _ _ _ _ H D A R P) as (i & dur & d & e & G). destruct (retrieved _ _ _ _ H D A) as (parts & F & C & W & M & ME).
  destruct (binned_function _ _ _ _ _ _ _ _ _ _ (go_fun _ _ _ _ _ _ _ _ _ _ _ G) B) as (l' & coords' & f & e1 & cc & O & _); [intros l0 e0; injection e0 as <-; eapply (di_bins _ D); eauto|]. injection e1 as <-. assert (coords' = coords) as -> by congruence. exists e. split; [apply G|].
  destruct (ow_coord _ _ _ _ _ _ O) as [cn ck]. assert (ia : In a (d_index d)) by (now rewrite (ow_index _ _ _ _ _ _ O)).
  assert (nde : NoDup (map fst (d_coord e))).
  { apply (me_cnodup _ _ ME ch); [apply G|]. intros d1 h1. apply In_nth_error in h1. destruct h1 as [j h1]. destruct (parts_in _ _ _ _ F D _ _ _ h1) as (s1 & hm1 & i1 & c1 & dur1 & _ & R1 & _ & P1 & _ & _ & fu & _). assert (c1 = c) as -> by (eapply proto_of_unique; eauto). eapply own_nodup; eauto. intros l1 ->. eapply (di_bins _ D); eauto. }
  assert (VAL : forall k v, Coordinate d k a v <-> CoordKey coords k /\ v = coord_val coords a k).
  { intros k v. rewrite (coordinate_at _ _ _ _ (ow_wf _ _ _ _ _ _ O) cn). assert (E : forall k, CoordKey coords k -> coord_at d k a = coord_val coords a k).
    { intros k0 h. assert (Q : In (k0, map (fun a => coord_val coords a k0) (d_index d)) (d_coord d)) by (apply ck; auto). unfold coord_at. rewrite (some_get _ _ _ cn Q). destruct (position_in _ _ ia) as [j hj]. rewrite hj. apply position_some in hj. rewrite nth_error_map, hj. reflexivity. }
    split.
    - intros (h1 & _ & h3). apply in_map_iff in h1. destruct h1 as ([k' v'] & ek & h1). cbn [fst] in ek. subst k'. apply ck in h1. destruct h1 as [h1 _]. split; [auto|]. now rewrite <- E.
    - intros (h1 & ->). split; [|split; [auto|now apply E]]. apply in_map_iff. eexists (k, _). split; [reflexivity|]. apply ck. eauto. }
  assert (DV : forall k v, Coordinate e k a v -> (exists dict' u, In dict' coords /\ In (k, u) dict') /\ v = coord_at d k a).
  { intros k v h. apply coordinate_at in h; [|apply G|auto]. destruct h as (h1 & h2 & h3). rewrite (wi_coord _ _ (go_within _ _ _ _ _ _ _ _ _ _ _ G) k a ia) in h3. split; [|auto]. destruct (me_coord _ _ ME _ _ _ (go_in _ _ _ _ _ _ _ _ _ _ _ G) h1) as (d1 & q1 & q2). apply In_nth_error in q1. destruct q1 as [j q1]. destruct (parts_in _ _ _ _ F D _ _ _ q1) as (s1 & hm1 & i1 & c1 & dur1 & _ & R1 & _ & P1 & _ & _ & fu & _). assert (c1 = c) as -> by (eapply proto_of_unique; eauto).
    destruct (binned_function _ _ _ _ _ _ _ _ _ _ fu B) as (l1 & co1 & f1 & _ & cc1 & O1 & _); [intros l1 ->; eapply (di_bins _ D); eauto|]. assert (co1 = coords) as -> by congruence. apply in_map_iff in q2. destruct q2 as ([k' v'] & ek & q2). cbn [fst] in ek. subst k'. apply (ow_coord _ _ _ _ _ _ O1) in q2. destruct q2 as [q2 _]. exact q2. }
  assert (CA : forall k, (exists dict' u, In dict' coords /\ In (k, u) dict') -> coord_at d k a = coord_val coords a k).
  { intros k h. assert (K : Coordinate d k a (coord_val coords a k)) by (apply VAL; split; auto). apply coordinate_at in K; [|apply O|auto]. apply K. }
  assert (ndd : NoDup (map fst dict)) by (eapply (di_coords _ D); eauto; eapply nth_error_In; eauto).
  split.
  - intros k v. split.
    + intros h. apply DV in h. destruct h as [h1 h2]. rewrite (CA k h1) in h2. unfold coord_val in h2. rewrite N in h2. destruct (RetModel.get k dict) as [u|] eqn:E; [|discriminate]. injection h2 as <-. now apply get_some.
    + intros h. eapply within_coord; [apply O|apply G|apply G|auto|auto|]. apply VAL. split; [exists dict, v; split; [eapply nth_error_In; eauto|auto]|]. unfold coord_val. rewrite N, (some_get _ _ _ ndd h). reflexivity.
  - intros k v h. apply DV in h. destruct h as [(dict' & u & h1 & h1') h2]. exists dict', u. split; [auto|]. split; [auto|]. rewrite CA in h2 by eauto. unfold coord_val in h2. rewrite N in h2. destruct (RetModel.get k dict); eauto. Qed.

(** ** Traces *)
Lemma scope_paths inputs : ScopePaths inputs (fst (paths inputs)) (snd (paths inputs)).
Proof. unfold ScopePaths, paths. destruct inputs as [[|[|x|] [|[|y|] [|z l]]]|]; try (right; split; [discriminate|split; reflexivity]); repeat (match goal with |- context [match ?p with xH => _ | _ => _ end] => destruct p end; try (right; split; [discriminate|split; reflexivity])). left. split; [reflexivity|split; reflexivity]. Qed.
Lemma alone g s ch hm c : Apart g -> Reads g s ch hm -> ProtoOf g ch c -> (c_proto c = Trace \/ exists k, hm = Whole k) -> forall s' hm', Reads g s' ch hm' -> s' = s.
Proof. intros A R P T s' hm' R'. destruct (string_dec s' s) as [|ne]; [auto|]. exfalso. destruct (A _ _ _ _ _ R' R ne) as (h1 & l & l' & _ & h2 & _). destruct T as [T|[k T]]; [exact (h1 c P T)|congruence]. Qed.
Theorem C55_trace : forall g n hw ds s ch hm c,
  retrieve g n hw = Ok ds -> Dicts g -> Apart g -> Reads g s ch hm -> ProtoOf g ch c -> c_proto c = Trace -> g_kind g = QRM_manager -> g_dummy g = false ->
  exists e k x p q N, hm = Whole k /\ Fetched g hw s k x /\ In (s, Some (Z.of_nat N)) (g_durations g) /\ (Z.of_nat N <= 16384)%Z /\ In (ch, e) ds /\ Shape e None (Some N) /\ d_index e = [0] /\ ScopePaths (g_inputs g s) p q /\
    forall t, t < N -> exists u v, nth_error (scope_path x p) t = Some u /\ nth_error (scope_path x q) t = Some v /\ Value e 0 0 t (Some (u, v)).
Proof. intros g n hw ds s ch hm c H D A R P T K Du. destruct (got _ _ _ _ _ _ _ _ H D A R P) as (i & dur & d & e & G). assert (e = d) as -> by (eapply got_once; eauto; eapply alone; eauto).
  pose proof (go_fun _ _ _ _ _ _ _ _ _ _ _ G) as F. unfold acquisition_function in F. rewrite K, T in F. apply scope_own in F. destruct F as (N & k & x & coords & -> & le & -> & _ & gx & w & ix & rp & tr & _ & V).
  exists d, k, x, (fst (paths (g_inputs g s))), (snd (paths (g_inputs g s))), N. split; [auto|]. split; [eapply fetched; [apply G|auto]|]. split; [apply G|]. split; [auto|]. split; [apply G|]. split; [split; [auto|split; [auto|apply w]]|]. split; [auto|]. split; [apply scope_paths|]. apply V. auto. Qed.
Theorem C55_digital_trace : forall g n hw ds s ch hm c,
  retrieve g n hw = Ok ds -> Dicts g -> Apart g -> Reads g s ch hm -> ProtoOf g ch c -> c_proto c = Trace -> g_kind g = QTM_manager ->
  exists e i z, g_seq g s = Some i /\ In (s, Some z) (g_durations g) /\ In (ch, e) ds /\ Shape e None (Some (Z.to_nat z)) /\ d_index e = [0] /\
    forall t, t < Z.to_nat z -> exists x, nth_error (io_samples hw i) t = Some x /\ Value e 0 0 t (Some (x, 0%Q)).
Proof. intros g n hw ds s ch hm c H D A R P T K. destruct (got _ _ _ _ _ _ _ _ H D A R P) as (i & dur & d & e & G). assert (e = d) as -> by (eapply got_once; eauto; eapply alone; eauto).
  pose proof (go_fun _ _ _ _ _ _ _ _ _ _ _ G) as F. unfold acquisition_function in F. rewrite K, T in F. apply digital_own in F. destruct F as (z & N & coords & -> & -> & _ & w & ix & rp & tr & _ & V).
  exists d, i, z. split; [apply G|]. split; [apply G|]. split; [apply G|]. split; [split; [auto|split; [auto|apply w]]|]. split; auto. Qed.
(** ** Distributions: the number of runs for every count *)
Theorem C55_distribution : forall g n hw ds s ch hm c runs,
  retrieve g n hw = Ok ds -> Dicts g -> Apart g -> Reads g s ch hm -> ProtoOf g ch c -> c_proto c = TriggerCount -> c_mode c = DISTRIBUTION ->
  exists e k x, hm = Whole k /\ Fetched g hw s k x /\ a_index x = k /\ In (ch, e) ds /\ Shape e None None /\
    (Cumulative runs (avg_cnt x) ->
      (forall a, In a (d_index e) -> exists j q, j < List.length (avg_cnt x) /\ ~ (runs j == 0)%Q /\ (q == runs j)%Q /\ Coordinate e ("counts_" ++ ch) a (CCount (S j)) /\ Value e 0 a 0 (Some (q, 0%Q))) /\
      (forall j, j < List.length (avg_cnt x) -> ~ (runs j == 0)%Q -> exists a, In a (d_index e) /\ Coordinate e ("counts_" ++ ch) a (CCount (S j)))).
Proof. intros g n hw ds s ch hm c runs H D A R P T MO. destruct (got _ _ _ _ _ _ _ _ H D A R P) as (i & dur & d & e & G). pose proof (go_fun _ _ _ _ _ _ _ _ _ _ _ G) as F.
  assert (F' : distribution_data ch c hm (acquisitions hw (stored g) i) = Ok d). { unfold acquisition_function in F. rewrite T in F. unfold trigger_data in F. rewrite MO in F. destruct (g_kind g); auto. } clear F.
  apply distribution_own in F'. destruct F' as (k & x & coords & -> & bx & _ & w & rp & tr & ix & _ & V). assert (e = d) as -> by (eapply got_once; eauto; eapply alone; eauto). apply bin_data_ok in bx. destruct bx as [bx bi].
  exists d, k, x. split; [auto|]. split; [eapply fetched; [apply G|auto]|]. split; [auto|]. split; [apply G|]. split; [split; [auto|split; [auto|apply w]]|]. intros CU. pose proof (from_cum_spec runs (avg_cnt x) 0 CU) as S. destruct (from_cumulative 0 (avg_cnt x)) as [last res] eqn:E. cbn [snd] in ix, V. destruct S as (_ & S1 & S2 & _). split.
  - intros a ha. rewrite ix in ha. apply in_seq in ha. destruct (nth_error res a) as [[cc v]|] eqn:N; [|apply nth_error_None in N; lia]. destruct (V _ _ _ N) as [v1 v2]. destruct (S1 cc v (nth_error_In _ _ N)) as (j & -> & lj & q1 & q2). exists j, v. split; [apply lj|]. auto.
  - intros j lj nz. destruct (S2 j (conj (Nat.le_0_l j) lj) nz) as (v & h). apply In_nth_error in h. destruct h as [a h]. destruct (V _ _ _ h) as [v1 v2]. exists a. split; [rewrite ix; apply in_seq; assert (a < List.length res) by (apply nth_error_Some; congruence); lia|auto]. Qed.
(** ** Time tags of windows *)
Theorem C55_timetag_trace : forall g n hw ds s ch l c ws x i b0 a0,
  retrieve g n hw = Ok ds -> Dicts g -> Apart g -> Reads g s ch (Bins l) -> ProtoOf g ch c -> c_proto c = TimetagTrace ->
  g_seq g s = Some i -> io_events hw i = flat_map w_events ws -> hd_error l = Some (a0, b0) -> Fetched g hw s (h_index b0) x -> List.length (timedelta x) = List.length ws -> (forall j w y, nth_error ws j = Some w -> nth_error (timedelta x) j = Some y -> FirstTag w y) ->
  exists e, In (ch, e) ds /\ d_reps e = Some (g_reps g) /\ NoDup (d_index e) /\
    forall a b r, In (a, b) l -> r < g_reps g -> exists w, nth_error ws (h_bin b + r * h_stride b) = Some w /\
      (forall t tag, nth_error (w_tags w) t = Some tag -> exists v, (v == inject_Z (tag - w_base w) / 2048)%Q /\ Value e r a t (Some (v, 0%Q))) /\
      (forall t v, List.length (w_tags w) <= t -> Value e r a t v -> v = None).
Proof. intros g n hw ds s ch l c ws x i b0 a0 H D A R P T SI EV HD FE LN FT. destruct (got _ _ _ _ _ _ _ _ H D A R P) as (i' & dur & d & e & G). assert (i' = i) as -> by (pose proof (go_seq _ _ _ _ _ _ _ _ _ _ _ G); congruence).
  pose proof (go_fun _ _ _ _ _ _ _ _ _ _ _ G) as F. assert (F' : timetag_trace c (g_reps g) (Bins l) (acquisitions hw (stored g) i) (io_events hw i) = Ok d) by (unfold acquisition_function in F; rewrite T in F; destruct (g_kind g); [discriminate|auto]). clear F.
  apply timetag_own in F'; [|intros l0 e0; injection e0 as <-; eapply (di_bins _ D); eauto]. destruct F' as (l' & b1 & y & coords & traces & e1 & hb & gy & _ & SP & w & ix & rp & (N & tr & TL) & _ & V). injection e1 as <-.
  assert (b1 = b0) as -> by (destruct l as [|[u v] l]; [discriminate|cbn in *; congruence]). destruct FE as (i2 & s2 & FE). assert (i2 = i) as -> by congruence. change (dec_Z (Z.of_nat (h_index b0))) with (acq_name (h_index b0)) in FE. assert (y = x) as -> by congruence.
  destruct (split_spec ws (timedelta x) LN FT) as (tr' & q1 & q2 & q3). rewrite EV in SP. assert (tr' = traces) as -> by congruence.
  exists e. split; [apply G|]. split; [rewrite (got_shape _ _ _ _ _ _ _ _ _ _ _ _ H D A G P); unfold repeated; now rewrite T|]. split; [apply wf_idx, G|].
  intros a b r I lr. destruct (V _ _ _ I lr) as (t1 & n1 & V1). assert (hw1 : nth_error ws (h_bin b + r * h_stride b) <> None) by (apply nth_error_Some; rewrite <- q2; apply nth_error_Some; congruence). destruct (nth_error ws (h_bin b + r * h_stride b)) as [wd|] eqn:W; [|easy]. exists wd. split; [auto|]. destruct (q3 _ _ _ W n1) as [q4 q5]. assert (tl := TL _ (nth_error_In _ _ n1)). assert (nt : n_trace d = N) by (unfold n_trace; now rewrite tr). split.
  - intros t tag ht. destruct (q5 _ _ ht) as (v & v1 & v2). exists v. split; [auto|]. eapply within_value; [exact w|apply G|apply G|]. assert (lt : t < n_trace d) by (rewrite nt; assert (t < List.length t1) by (apply nth_error_Some; congruence); lia). specialize (V1 t lt). now rewrite v1 in V1.
  - intros t v lt Ve. assert (nth_error t1 t = None) as tn by (apply nth_error_None; lia). apply value_labelled in Ve; [|apply G]. destruct Ve as (_ & _ & _ & Ve). assert (ia : In a (d_index d)) by (rewrite ix; apply in_map_iff; exists (a, b); auto). rewrite (wi_val _ _ (go_within _ _ _ _ _ _ _ _ _ _ _ G)) in Ve by auto.
    destruct (le_lt_dec (n_trace d) t) as [ge|ltt]; [rewrite labelled_tr in Ve; auto|]. specialize (V1 t ltt). rewrite tn in V1. apply value_labelled in V1; [|auto]. destruct V1 as (_ & _ & _ & V1). congruence. Qed.
(** ** No data is made up: everything the channels need was fetched, with a supported bin mode *)
Lemma each_in {A} (f : A -> result unit) l u : RetModel.each l f = Ok u -> forall x, In x l -> f x = Ok tt.
Proof. unfold RetModel.each. revert u. assert (G : forall u0 u, foldM (fun _ x => f x) l u0 = Ok u -> forall x, In x l -> f x = Ok tt).
  { induction l as [|y l IH]; cbn; intros u0 u H x h; [destruct h|]. destruct h as [<-|h]; inv H; [now destruct a|eauto]. } intros u H. eapply G; eauto. Qed.
Lemma exist_needs h hm u : indices_exist h hm = Ok u -> forall k, Needs hm k -> exists a, RetModel.get (acq_name k) h = Some a.
Proof. assert (Q : forall k u, data_exists h k = Ok u -> exists a, RetModel.get (acq_name k) h = Some a) by (intros k u0; unfold data_exists; destruct (RetModel.get (acq_name k) h); [eauto|discriminate]).
  destruct hm as [k'|l]; cbn [indices_exist Needs]; intros H k; [intros ->; eauto|]. intros (a & b & h1 & ->). eapply Q. apply (each_in _ _ _ H _ h1). Qed.
Lemma compatible_supported k p l m : compatible k p = Some l -> In m l -> Supported k p m.
Proof. unfold compatible. destruct k, p; intros h; try discriminate h; injection h as <-; intros hm; cbn in hm; repeat (destruct hm as [<-|hm]; [try (constructor; unfold iq_protocol, thr_protocol; auto 7; fail)|]); destruct hm. Qed.
Lemma supported_compatible k p m : Supported k p m -> exists l, compatible k p = Some l /\ In m l.
Proof. unfold compatible, iq_protocol, thr_protocol. intros h. destruct h as [p m hp hm| |m hm|k|m hm| |m hm| |]; try (destruct k); try (eexists; split; [reflexivity|cbn; intuition; fail]).
  destruct hp as [[-> | ->]|[[-> | ->]|[-> | ->]]]; (eexists; split; [reflexivity|cbn; intuition]). Qed.
Theorem C55_present : forall g n hw ds s ch hm, retrieve g n hw = Ok ds -> Dicts g -> Reads g s ch hm ->
  exists c, ProtoOf g ch c /\ Supported (g_kind g) (c_proto c) (c_mode c) /\ forall k, Needs hm k -> exists x, Fetched g hw s k x.
Proof. intros g n hw ds s ch hm H D R. unfold retrieve in H. inv H. inv H. apply stored_ok in E. subst a. destruct (retrieve_parts _ _ _ _ _ _ H) as (parts & F & _). fold (items g) in F. assert (R' := R). apply items_in, In_nth_error in R'. destruct R' as [j hj]. destruct (f2_nth _ _ _ F _ _ hj) as ([ch' d] & _ & p2). cbn [Part fst snd] in p2. destruct p2 as (-> & i & hs & hr).
  destruct (channel_kind _ _ _ _ _ _ _ _ hr D R) as (c & dur & a1 & a2 & a3 & a4 & a5). exists c. split; [auto|]. split.
  - destruct R as (chans & r1 & r2). unfold check_modes in E0. assert (Q := each_in _ _ _ E0 _ r1). cbv beta iota in Q. assert (Q2 := each_in _ _ _ Q _ r2). cbv beta iota in Q2. inv Q2. apply item_ok in E. rewrite (some_get _ _ _ (di_data _ D) a1) in E. injection E as <-. destruct (compatible (g_kind g) (c_proto c)) as [l|] eqn:CM; [|discriminate]. destruct (existsb _ l) eqn:X in Q2; [|discriminate].
    apply existsb_exists in X. destruct X as (m & m1 & m2). destruct (bmode_eq_dec (c_mode c) m) as [<-|]; [|discriminate]. eapply compatible_supported; eauto.
  - intros k hk. destruct (exist_needs _ _ _ a3 _ hk) as (x & hx). exists x. eapply fetched; eauto. Qed.
