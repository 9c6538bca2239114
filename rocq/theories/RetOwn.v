(** The array a sequencer gives for a channel. *)
From Verif Require Import Base AcqChanModel NumericModel JsonModel PathModel QbModel RetModel RetSpec RetProps.
Local Open Scope string_scope.
Local Open Scope list_scope.
Local Open Scope nat_scope.

(** ** Coordinates *)
Lemma dedup_in l x : In x (dedup l) <-> In x l.
Proof. induction l as [|y l IH]; cbn; [tauto|]. rewrite filter_In, negb_true_iff, IH. destruct (String.eqb_spec y x); split; intuition congruence. Qed.
Lemma dedup_nodup l : NoDup (dedup l).
Proof. induction l as [|y l IH]; cbn; constructor; [|now apply NoDup_filter]. rewrite filter_In, String.eqb_refl. cbn. intros [_ h]. discriminate. Qed.
Definition CoordKey (coords : list (list (string * string))) (k : string) : Prop := exists dict v, In dict coords /\ In (k, v) dict.
Definition coord_val (coords : list (list (string * string))) (a : nat) (k : string) : cval :=
  match nth_error coords a with Some dict => match RetModel.get k dict with Some v => CUser v | None => CNan end | None => CNan end.
Lemma coord_key coords k : In k (dedup (flat_map (map fst) coords)) <-> CoordKey coords k.
Proof. rewrite dedup_in, in_flat_map. split.
  - intros (dict & h1 & h2). apply in_map_iff in h2. destruct h2 as ([k' v] & e & h2). cbn in e. subst. exists dict, v. auto.
  - intros (dict & v & h1 & h2). exists dict. split; [auto|]. apply in_map_iff. exists (k, v). auto. Qed.
Lemma coords_binned_ok coords index cs : coords_binned coords index = Ok cs ->
  (forall a, In a index -> a < List.length coords) /\ NoDup (map fst cs) /\ (forall k l, In (k, l) cs <-> CoordKey coords k /\ l = map (fun a => coord_val coords a k) index).
Proof. unfold coords_binned. intros H. inv H. injection H as <-. apply mapM_spec in E. split; [|split].
  - intros x h. apply In_nth_error in h. destruct h as [j h]. destruct (f2_nth _ _ _ E _ _ h) as (y & _ & e). apply at_ok in e. apply nth_error_Some. congruence.
  - rewrite map_map. cbn. rewrite map_id. apply dedup_nodup.
  - intros k l. rewrite in_map_iff. assert (eq : forall k, map (fun c => match RetModel.get k c with Some v => CUser v | None => CNan end) a = map (fun a => coord_val coords a k) index).
    { intros k0. clear -E. induction E as [|x y l l' h _ IH]; cbn; [auto|]. rewrite IH. f_equal. apply at_ok in h. unfold coord_val. now rewrite h. }
    split.
    + intros (k' & e & h). injection e as -> <-. rewrite coord_key in h. split; [auto|apply eq].
    + intros (h & ->). exists k. split; [now rewrite eq|now apply coord_key]. Qed.
Lemma coords_binned_exists coords index : (forall a, In a index -> a < List.length coords) -> exists cs, coords_binned coords index = Ok cs.
Proof. intros h. unfold coords_binned. destruct (mapM_exists (at_ coords) index) as [l e]; [|rewrite e; cbn; eauto]. intros x hx. apply h in hx. apply nth_error_Some in hx. destruct (nth_error coords x) eqn:E; [|easy]. exists l. now apply at_ok. Qed.

(** ** Binned arrays *)
(** what the array of a mapping holds *)
Record Own (f : bin_function) (reps : nat) (app : bool) (coords : list (list (string * string))) (l : list (nat * hwbin)) (d : darray) : Prop := {
  ow_wf : Wf d; ow_index : d_index d = map fst l; ow_trace : d_trace d = None; ow_reps : d_reps d = if app then Some reps else None; ow_pos : app = true -> 0 < reps;
  ow_value : forall a b r, In (a, b) l -> r < n_reps d -> exists v, f (h_index b) (h_bin b + r * h_stride b) (h_meta b) = Ok v /\ Value d r a 0 v;
  ow_coord : NoDup (map fst (d_coord d)) /\ forall k v, In (k, v) (d_coord d) <-> CoordKey coords k /\ v = map (fun a => coord_val coords a k) (d_index d) }.
Lemma binned_own f c reps hm d : binned_data f c reps hm = Ok d -> (forall l, hm = Bins l -> NoDup (map fst l)) ->
  exists l coords, hm = Bins l /\ c_coords c = CoordList coords /\ binned c /\ Own f reps (is_binned_append (c_proto c) (c_mode c)) coords l d.
Proof. unfold binned_data, binned. intros H nd. destruct hm as [|l]; [discriminate|]. specialize (nd l eq_refl). destruct (c_coords c) as [coords|] eqn:C; [|discriminate]. exists l, coords. split; [auto|]. split; [auto|].
  destruct (is_binned_average (c_proto c) (c_mode c)) eqn:A.
  - split; [auto|]. assert (is_binned_append (c_proto c) (c_mode c) = false) as -> by (destruct (c_proto c), (c_mode c); try discriminate; reflexivity).
    inv H. inv H. injection H as <-. apply mapM_spec in E. apply coords_binned_ok in E0. destruct E0 as (e1 & e2 & e3).
    assert (W : Wf {| d_reps := None; d_index := map fst l; d_trace := None; d_vals := [map (fun v => [v]) a]; d_coord := a0 |}).
    { constructor; cbn [d_index d_vals d_coord n_reps d_reps n_trace d_trace]; auto.
      - intros row [<-|[]]. rewrite !map_length. symmetry. now apply f2_length in E.
      - intros row cell [<-|[]] h. apply in_map_iff in h. destruct h as (v & <- & _). reflexivity.
      - intros k v h. apply e3 in h. destruct h as [_ ->]. now rewrite map_length. }
    constructor; cbn [d_index d_vals d_coord d_reps d_trace]; auto; try (intros; discriminate).
    unfold n_reps. cbn [d_reps]. intros x b r h1 h2. assert (r = 0) as -> by lia. rewrite Nat.mul_0_l, Nat.add_0_r. apply In_nth_error in h1. destruct h1 as [j h1]. destruct (f2_nth _ _ _ E _ _ h1) as (v & g1 & g2). exists v. split; [auto|].
    exists j, (map (fun v => [v]) a), [v]. cbn [d_index d_vals]. rewrite nth_error_map, h1. split; [auto|]. split; [auto|]. rewrite nth_error_map, g1. auto.
  - destruct (is_binned_append (c_proto c) (c_mode c)) eqn:B; [|discriminate]. split; [auto|]. inv H. destruct (Nat.eqb_spec reps 0) as [|np]; [discriminate|]. inv H. injection H as <-. apply mapM_spec in E. apply coords_binned_ok in E0. destruct E0 as (e1 & e2 & e3).
    assert (W : Wf {| d_reps := Some reps; d_index := map fst l; d_trace := None; d_vals := map (map (fun v => [v])) a; d_coord := a0 |}).
    { constructor; cbn [d_index d_vals d_coord n_reps d_reps n_trace d_trace]; auto.
      - rewrite map_length. apply f2_length in E. rewrite seq_length in E. auto.
      - intros row h. apply in_map_iff in h. destruct h as (x & <- & h). apply In_nth_error in h. destruct h as [j h]. destruct (f2_nth_r _ _ _ E _ _ h) as (r & _ & g). apply mapM_spec, f2_length in g. now rewrite !map_length.
      - intros row cell h1 h2. apply in_map_iff in h1. destruct h1 as (x & <- & _). apply in_map_iff in h2. destruct h2 as (v & <- & _). reflexivity.
      - intros k v h. apply e3 in h. destruct h as [_ ->]. now rewrite map_length. }
    constructor; cbn [d_index d_vals d_coord d_reps d_trace]; auto; try lia.
    unfold n_reps. cbn [d_reps]. intros x b r h1 h2. assert (hr : nth_error (List.seq 0 reps) r = Some r) by (rewrite (nth_error_nth' _ 0) by (now rewrite seq_length); rewrite seq_nth by auto; reflexivity).
    destruct (f2_nth _ _ _ E _ _ hr) as (row & g1 & g2). apply mapM_spec in g2. apply In_nth_error in h1. destruct h1 as [j h1]. destruct (f2_nth _ _ _ g2 _ _ h1) as (v & g3 & g4). exists v. split; [auto|].
    exists j, (map (fun v => [v]) row), [v]. cbn [d_index d_vals]. rewrite nth_error_map, h1. split; [auto|]. rewrite nth_error_map, g1. split; [auto|]. rewrite nth_error_map, g3. auto. Qed.

(** ** The bin functions mean what they should *)
Lemma quot_trunc q : Truncated q (Z.quot (Qnum q) (Zpos (Qden q))).
Proof. destruct q as [n d]. cbn [Qnum Qden]. unfold Truncated, Qle, Qlt. cbn [Qnum Qden inject_Z]. split; intros h.
  - assert (n0 : (0 <= n)%Z) by lia. rewrite (Z.quot_div_nonneg n (Zpos d)) by lia. pose proof (Z.div_mod n (Zpos d) ltac:(lia)). pose proof (Z.mod_pos_bound n (Zpos d) ltac:(lia)). split; nia.
  - assert (n0 : (n < 0)%Z) by lia. pose proof (Z.quot_rem' n (Zpos d)) as H. pose proof (Z.rem_bound_pos_neg n (Zpos d) ltac:(lia) ltac:(lia)) as B. revert H B. generalize (Z.quot n (Zpos d)) (Z.rem n (Zpos d)). intros z r H B. split; nia. Qed.
Lemma counts_counted a b x : at_ (counts a) b = Ok x -> Counted a b x.
Proof. rewrite at_ok. unfold counts, Counted. destruct (cnt a); auto. Qed.
Lemma bin_both (a : hwacq) b i q : at_ (integ0 a) b = Ok i -> at_ (integ1 a) b = Ok q -> Both a b i q.
Proof. rewrite !at_ok. split; auto. Qed.
Lemma acq_binned g ch c dur sname i hm h hw d : acquisition_function g ch c dur sname i hm h hw = Ok d -> binned c ->
  exists f, binned_data f c (g_reps g) hm = Ok d /\ forall k b meta v, f k b meta = Ok v -> exists a, bin_data h k = Ok a /\ BinValue (g_kind g) (c_mode c) (g_reps g) dur a b meta (c_proto c) v.
Proof. unfold acquisition_function, binned. intros H B.
  assert (TR : forall mul, trigger_data mul ch c (g_reps g) hm h = Ok d -> binned_data (trigger_bin mul (c_mode c) (g_reps g) h) c (g_reps g) hm = Ok d).
  { intros mul. unfold trigger_data. destruct (c_mode c) eqn:M; intros T; auto; exfalso; destruct (c_proto c); destruct B; discriminate. }
  assert (SEP : iq_protocol (c_proto c) -> g_kind g = QRM_manager -> forall k b meta v, separated_bin h k b meta = Ok v -> exists a, bin_data h k = Ok a /\ BinValue (g_kind g) (c_mode c) (g_reps g) dur a b meta (c_proto c) v).
  { intros ip gk k b meta v F. unfold separated_bin in F. inv F. inv F. inv F. injection F as <-. exists a. split; [auto|]. assert (bo := bin_both _ _ _ _ E0 E1). destruct a0 as [x|], a1 as [y|]; cbn [complex]; try (eapply bv_iq_nan; eauto; fail). now apply bv_iq. }
  assert (THR : thr_protocol (c_proto c) -> g_kind g = QRM_manager -> forall k b meta v, threshold_bin h k b meta = Ok v -> exists a, bin_data h k = Ok a /\ BinValue (g_kind g) (c_mode c) (g_reps g) dur a b meta (c_proto c) v).
  { intros ip gk k b meta v F. unfold threshold_bin in F. inv F. inv F. injection F as <-. exists a. split; [auto|]. apply at_ok in E0. destruct a0; [now apply bv_thr|now apply bv_thr_nan]. }
  assert (CNT : forall mul, (c_proto c = TriggerCount \/ (c_proto c = DualThresholdedTriggerCount /\ g_kind g = QTM_manager)) -> (mul && match c_mode c with SUM => true | _ => false end = match g_kind g, c_proto c, c_mode c with QTM_manager, TriggerCount, SUM => true | _, _, _ => false end) ->
      forall k b meta v, trigger_bin mul (c_mode c) (g_reps g) h k b meta = Ok v -> exists a, bin_data h k = Ok a /\ BinValue (g_kind g) (c_mode c) (g_reps g) dur a b meta (c_proto c) v).
  { intros mul pr me k b meta v F. unfold trigger_bin in F. inv F. inv F. inv F. injection F as <-. exists a. split; [auto|]. destruct a0 as [q|]; cbn [to_int] in E1; [|discriminate]. injection E1 as <-. apply counts_counted in E0. unfold zcx. eapply bv_count; [exact E0|apply quot_trunc|auto|]. now rewrite me. }
  assert (TTC : c_proto c = ThresholdedTriggerCount -> forall k b meta v, trigger_thr_bin h k b meta = Ok v -> exists a, bin_data h k = Ok a /\ BinValue (g_kind g) (c_mode c) (g_reps g) dur a b meta (c_proto c) v).
  { intros pr k b meta v F. rewrite pr. unfold trigger_thr_bin in F. destruct meta as [[t cd]|]; [|discriminate]. inv F. inv F. exists a. split; [auto|]. apply counts_counted in E0. destruct a0 as [q|]; injection F as <-; [|now eapply bv_count_nan].
    destruct cd; [destruct (Z.leb_spec t (py_round q))|destruct (Z.ltb_spec (py_round q) t)]; unfold zcx; try (eapply bv_meets; [reflexivity|exact E0|cbn; lia]); (eapply bv_misses; [reflexivity|exact E0|cbn; lia]). }
  unfold iq_protocol, thr_protocol in *.
  destruct (g_kind g) eqn:K, (c_proto c) eqn:P; try discriminate H; try (now (eexists; split; [exact H|]; eauto));
    try (destruct B as [B|B]; discriminate B).
  - destruct dur as [du|]; [|discriminate]. eexists. split; [exact H|]. intros k b meta v F. unfold amplitude_bin in F. inv F. inv F. inv F. exists a. split; [auto|]. assert (bo := bin_both _ _ _ _ E0 E1). destruct (Z.eqb_spec du 0) as [|n0]; [discriminate|]. injection F as <-.
    destruct a0 as [x|], a1 as [y|]; cbn [complex option_map]; try (eapply bv_iq_nan; eauto; fail). now apply bv_amplitude.
  - eexists. split; [exact H|]. intros k b meta v F. unfold real_bin in F. inv F. inv F. inv F. injection F as <-. exists a. split; [auto|]. assert (bo := bin_both _ _ _ _ E0 E1). destruct a0 as [x|], a1 as [y|]; cbn [complex option_map]; try (eapply bv_iq_nan; eauto; fail). now apply bv_real.
  - destruct dur as [du|]; [|discriminate]. eexists. split; [exact H|]. auto.
  - destruct dur as [du|]; [|discriminate]. eexists. split; [exact H|]. auto.
  - eexists. split; [apply TR; exact H|]. apply CNT; auto.
  - eexists. split; [exact H|]. intros k b meta v F. unfold timetag_bin in F. inv F. inv F. injection F as <-. exists a. split; [auto|]. apply at_ok in E0. destruct a0; [now apply bv_timetag|now apply bv_timetag_nan].
  - eexists. split; [apply TR; exact H|]. apply CNT; auto.
  - eexists. split; [apply TR; exact H|]. apply CNT; auto. Qed.
