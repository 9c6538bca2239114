(** C72: theorems about the mock readout backend. *)
From Coq Require Import Permutation Ascii.
From Verif Require Import Base UpdModel UpdProps AcqChanModel AcqChanProps AcqChanProps2 MockModel MockProps MockProps2.
From Verif Require PathModel.
Local Open Scope Z_scope.

(** ** Specification *)
Definition traces_of (l : list item) : list acq := filter is_trace (acqs l).
Definition binned_of (l : list item) : list acq := filter (fun a => negb (is_trace a)) (acqs l).
(** the waveform that a trace shows: the first pulse of the schedule, modulated with the frequency of its port-clock combination *)
Definition first_wave (env : pulse -> Q -> wave) (cfg : config) (l : list item) (w : wave) : Prop :=
  exists p r d f, pulses l = p :: r /\ g_mod cfg = Some d /\ lookup (pc (p_port p) (p_clock p)) d = Some (Some f) /\ w = env p f.
(** [v] is [w] on a grid [step] times as coarse, multiplied by [g] *)
Definition seen (step : nat) (g : Q) (w v : wave) : Prop :=
  (forall j, (j < List.length v)%nat <-> (j * step < List.length w)%nat) /\
  (forall j x y, nth_error w (j * step) = Some (x, y) -> nth_error v j = Some ((x * g)%Q, (y * g)%Q)).
(** the gain of the module is that of every trace *)
Definition right_gain (cfg : config) (l : list item) (g : Q) : Prop :=
  match g_gain cfg with
  | None => g = 1%Q
  | Some d => forall a, In a (traces_of l) -> exists x, lookup (a_pc a) d = Some x /\ (x == g)%Q
  end.

Lemma every_length step w : (0 < step)%nat -> forall j, (j < List.length (every step w))%nat <-> (j * step < List.length w)%nat.
Proof.
  intros Hs j. unfold every. rewrite map_length, seq_length. split; intros H.
  - assert (step * S j <= List.length w + step - 1)%nat; [|nia]. transitivity (step * ((List.length w + step - 1) / step))%nat; [apply Nat.mul_le_mono_l; exact H|apply Nat.mul_div_le; lia].
  - apply Nat.div_le_lower_bound with (b := step) (q := S j); [lia|]. nia.
Qed.
Lemma every_nth step w j x : (0 < step)%nat -> nth_error w (j * step) = Some x -> nth_error (every step w) j = Some x.
Proof.
  intros Hs H. assert (HL : (j * step < List.length w)%nat) by (apply nth_error_Some; congruence). apply (proj2 (every_length step w Hs j)) in HL as HJ.
  unfold every in *. rewrite map_length, seq_length in HJ. rewrite nth_error_map.
  rewrite (nth_error_nth' _ 0%nat) by (rewrite seq_length; exact HJ). rewrite seq_nth by exact HJ. cbn [option_map plus]. f_equal. apply nth_error_nth with (d := 0%Q) in H. exact H.
Qed.
Lemma nth_error_combine {A B} (a : list A) (b : list B) : forall j x y, nth_error a j = Some x -> nth_error b j = Some y -> nth_error (combine a b) j = Some (x, y).
Proof. revert b. induction a as [|u a IH]; intros [|v b] [|j] x y Ha Hb; try discriminate; cbn in *; [congruence|auto]. Qed.

Lemma seen_trace step g w : (0 < step)%nat ->
  seen step g w (combine (map (fun x => (x * g)%Q) (every step (map fst w))) (map (fun x => (x * g)%Q) (every step (map snd w)))).
Proof.
  intros Hs. split.
  - intros j. rewrite combine_length, !map_length.
    pose proof (every_length step (map fst w) Hs j) as H1. pose proof (every_length step (map snd w) Hs j) as H2. rewrite !map_length in *. unfold every in *. rewrite !map_length, !seq_length in *. lia.
  - intros j x y H. apply nth_error_combine; rewrite nth_error_map.
    + rewrite (every_nth step _ j x Hs); [reflexivity|]. rewrite nth_error_map, H. reflexivity.
    + rewrite (every_nth step _ j y Hs); [reflexivity|]. rewrite nth_error_map, H. reflexivity.
Qed.

Lemma step_pos r : (1000000000 <= r)%Q -> (0 < step_of r)%nat.
Proof.
  intros H. unfold step_of. assert (1 <= Qfloor (r / 1000000000))%Z; [|lia]. change 1%Z with (Qfloor 1). apply Qfloor_resp_le.
  apply Qle_shift_div_l; lra.
Qed.

(** the value of a pulse is determined by its hash *)
(** ** Every acquisition is returned, with the samples or the number measured for it *)
Theorem C72_acquisitions_partial : forall env cfg l p ports rate rnd c0,
  NoDup (map m_label l) -> same_hash l ->
  compile env cfg l = Ok p ->
  hw_ports cfg = Ok ports -> ports <> [] -> plain ports -> g_rate cfg = Some rate -> (1000000000 <= rate)%Q -> acqs l <> [] ->
  (traces_of l <> [] -> exists w, first_wave env cfg l w /\ forall v g, seen (step_of rate) g w v -> time_points (List.length v) = Z.of_nat (List.length v)) ->
  exists c1 ds s g, start rnd (prepare p c0) = Ok c1 /\ retrieve c1 = Ok ds /\ generate_acq (tree_of l) = Ok s /\ right_gain cfg l g /\
    (* traces: one per trace acquisition *)
    (exists v, ds_traces ds = map (fun a => (i_chan (a_info a), v)) (traces_of l) /\
               (traces_of l <> [] -> exists w, first_wave env cfg l w /\ seen (step_of rate) g w v)) /\
    (* binned acquisitions: at the index of the acquisition, the number drawn for it last *)
    ds_bins ds = combine (map (fun a => (i_chan (a_info a), index (labels s) a)) (binned_of l))
                         (map (fun j => rnd (j * List.length ports + (List.length ports - 1))%nat) (seq 0 (List.length (binned_of l)))) /\
    NoDup (map fst (ds_traces ds)) /\ NoDup (map fst (ds_bins ds)).
Proof.
  intros env cfg l p ports rate rnd c0 HN HH HC HPo HPne HPl HR Hrate HA HT. unfold compile in HC.
  destruct (generate_acq (tree_of l)) as [s|] eqn:HG; [|discriminate]. cbn [bind] in HC. rewrite HR in HC. destruct (foldM _ l kst0) as [k|] eqn:HF; [|discriminate]. cbn [bind] in HC. injection HC as <-.
  pose proof (keys_distinct _ _ _ _ _ HN HG HF) as HD. destruct (comp_kinds _ _ _ _ _ _ HF) as [HK HO]. pose proof (unique_tree l HN HO) as HU.
  destruct (comp_inv _ _ _ _ _ HH HD HF) as [N P NP T B G W K O]. destruct (P HA) as [ps [Eps Ek]]. assert (ps = ports) as -> by congruence. clear P NP.
  set (g := match k_gain k with Some g => g | None => 1%Q end). set (ws := map snd (k_waves k)). set (M := numbered (acqs l)) in *.
  set (D := results (traced (step_of rate) g ws) rnd (List.length ports) M 0).
  assert (HRun : run rnd (step_of rate) g ws (k_instr k) 0 [] = Ok D).
  { rewrite Ek. rewrite run_all_acqs; auto.
    - intros _. right. pose proof (step_pos rate Hrate). lia.
    - unfold M. rewrite numbered_locs. apply seq_NoDup. }
  assert (HI : exists i r, k_instr k = i :: r).
  { rewrite Ek. unfold M. destruct (acqs l) as [|a r]; [congruence|]. destruct ports as [|hp ports]; [congruence|]. eexists. eexists. reflexivity. }
  assert (HDn : NoDup (map fst D)) by (unfold D; rewrite results_keys; unfold M; rewrite numbered_locs; apply seq_NoDup).
  assert (HCh : forall a, In a (acqs l) -> exists cd, getc (i_chan (a_info a)) (chans s) = Some cd /\ d_proto cd = i_proto (a_info a)).
  { intros a Ha. pose proof (occ_in l a Ha) as Ho. pose proof (generate_inv _ _ HU HG) as HInv.
    assert (Hin : In (occ_of a) (explicit_first (tree_of l))) by (eapply Permutation_in; [symmetry; apply explicit_first_perm|exact Ho]).
    assert (Hon : In (occ_of a) (on (o_chan (occ_of a)) (explicit_first (tree_of l)))) by (apply filter_In; split; [exact Hin|apply Z.eqb_refl]).
    destruct (getc (o_chan (occ_of a)) (chans s)) as [d|] eqn:Ed.
    - destruct (I_some _ _ HInv _ _ Ed) as [o0 [r [A [F C]]]]. exists d. split; [exact Ed|]. rewrite Forall_forall in F. destruct (F _ Hon) as [X _]. symmetry. exact X || exact X.
    - rewrite (I_none _ _ HInv _ Ed) in Hon. destruct Hon. }
  assert (HGain : right_gain cfg l g).
  { unfold right_gain. unfold gain_inv in G. destruct (g_gain cfg) as [d|]; [|unfold g; rewrite G; reflexivity]. destruct G as [_ G]. intros a Ha. apply filter_In in Ha. destruct Ha as [Ha Ht].
    destruct (G a Ha Ht) as [x [y [Ey [Ex E]]]]. exists x. split; [exact Ex|]. unfold g. rewrite Ey. exact E. }
  assert (HB := bins_retrieved (labels s) (traced (step_of rate) g ws) rnd (List.length ports) (chans s) D M 0 ltac:(intros k1 v1 Hi; apply get_loc_in; [exact HDn|exact Hi])
     ltac:(intros x Hx Hxt; destruct (HCh _ (numbered_in _ _ Hx)) as [cd [A C]]; exists cd; split; [exact A|]; rewrite C; destruct (HK _ (numbered_in _ _ Hx)) as [Z|[Z _]]; [unfold is_trace in Hxt; rewrite Z in Hxt; discriminate|exact Z])).
  cbv zeta in HB.
  assert (HBs : map fst (filter (fun x => negb (is_trace (fst x))) M) = binned_of l) by (unfold M, numbered; apply (numbered_filter (fun a => negb (is_trace a)))).
  assert (HTs : map fst (filter (fun x => is_trace (fst x)) M) = traces_of l) by (unfold M, numbered; apply (numbered_filter is_trace)).
  assert (HBL : List.length (filter (fun x => negb (is_trace (fst x))) M) = List.length (binned_of l)) by (rewrite <- HBs, map_length; reflexivity).
  rewrite HBL in HB. rewrite <- (map_map fst (fun a => (i_chan (a_info a), index (labels s) a))), HBs in HB. cbn [plus] in HB.
  assert (HTr : exists v, mapM (get_trace D (chans s)) (trace_map M) = Ok (map (fun a => (i_chan (a_info a), v)) (traces_of l)) /\ (traces_of l <> [] -> exists w, first_wave env cfg l w /\ seen (step_of rate) g w v)).
  { destruct (traces_of l) as [|t ts] eqn:Et.
    - exists []. split; [|congruence]. assert (trace_map M = []) as ->; [|reflexivity]. apply map_eq_nil in HTs. clear -HTs. induction M as [|x M IH]; [reflexivity|]. cbn in *. destruct (is_trace (fst x)); [discriminate|]. cbn. apply IH, HTs.
    - destruct HT as [w [Hw HTp]]; [discriminate|]. destruct Hw as [p1 [r1 [d1 [f1 [Ep [Em [El Ew]]]]]]]. destruct W as [_ W2]. rewrite Ep in W2. destruct W2 as [d2 [f2 [r2 [Em2 [El2 Ew2]]]]].
      assert (d2 = d1) by congruence. subst d2. assert (f2 = f1) by congruence. subst f2.
      set (a0 := map (fun x => (x * g)%Q) (every (step_of rate) (map fst w))). set (b0 := map (fun x => (x * g)%Q) (every (step_of rate) (map snd w))).
      assert (Htr : exists rest, traced (step_of rate) g ws = a0 :: b0 :: rest) by (unfold ws; rewrite Ew2; cbn [map snd]; unfold traced; cbn [flat_map app]; rewrite <- Ew; eexists; reflexivity).
      destruct Htr as [rest Htr]. pose proof (seen_trace (step_of rate) g w (step_pos rate Hrate)) as HS. fold a0 b0 in HS.
      assert (HLab : List.length (combine a0 b0) = List.length a0) by (rewrite combine_length; unfold a0, b0, every; rewrite ?map_length, ?seq_length, ?map_length; lia).
      exists (combine a0 b0). split.
      + rewrite <- Et in *. rewrite (traces_retrieved D (chans s) a0 b0 rest).
        * rewrite <- (map_map fst (fun a => (i_chan (a_info a), combine a0 b0))), HTs. reflexivity.
        * intros x Hx Hxt. split.
          -- apply get_loc_in; [exact HDn|]. unfold D. rewrite Htr. clear -Hx Hxt. generalize 0%nat as n. induction M as [|y M IH]; [destruct Hx|]. intros n. cbn [results]. destruct Hx as [->|Hx]; [rewrite Hxt; left; reflexivity|destruct (is_trace (fst y)); right; apply IH, Hx].
          -- destruct (HCh _ (numbered_in _ _ Hx)) as [cd [A C]]. exists cd. split; [exact A|]. rewrite C. unfold is_trace in Hxt. destruct (i_proto _); congruence.
        * specialize (HTp _ _ HS). rewrite HLab in HTp. exact HTp.
      + intros _. exists w. split; [exists p1, r1, d1, f1; auto|exact HS]. }
  destruct HTr as [v [HTr HSeen]].
  destruct HI as [i0 [r0 HI]].
  exists {| c_rom := {| r_waves := ws; r_instr := k_instr k; r_rate := rate; r_gain := g; r_data := D |}; c_trace := k_trace k; c_bin := k_bin k; c_chans := Some (chans s) |}.
  eexists. exists s, g. split; [|split; [|split; [reflexivity|split; [exact HGain|split; [|split; [|split]]]]]].
  - unfold start, prepare, execute. cbn [c_rom r_instr r_rate r_gain r_waves s_waves s_instr s_rate s_gain c_trace c_bin c_chans s_trace s_bin s_chans]. rewrite HI at 1. fold g ws. rewrite HRun. reflexivity.
  - unfold retrieve. cbn [c_chans c_rom r_data c_trace c_bin]. rewrite T, B, HTr. cbn [bind]. rewrite HB. cbn [bind]. reflexivity.
  - exists v. split; [reflexivity|exact HSeen].
  - reflexivity.
  - cbn [ds_traces]. destruct HD as [HD1 _]. rewrite map_map. cbn [fst]. fold M in HD1. rewrite <- HTs, map_map. clear -HD1. unfold trace_map in HD1. induction M as [|x M IH]; [constructor|]. cbn [flat_map filter] in *. destruct (is_trace (fst x)); [|exact (IH HD1)].
    cbn [app map fst] in *. inversion HD1; subst. constructor; [|apply IH; assumption].
    intros Hi. apply H1. apply in_map_iff in Hi. destruct Hi as [y [E Hy]]. apply filter_In in Hy. apply in_map_iff. exists (i_chan (a_info (fst y)), snd y). split; [exact E|]. apply in_flat_map. exists y. split; [tauto|]. destruct Hy as [_ ->]. left. reflexivity.
  - cbn [ds_bins]. assert (HL : forall (X : list (Z * Z)) (Y : list Q), List.length X = List.length Y -> map fst (combine X Y) = X) by (induction X as [|x X IH]; intros [|y Y] E; try discriminate; [reflexivity|cbn; f_equal; apply IH; cbn in E; congruence]).
    rewrite HL by (rewrite !map_length, seq_length; reflexivity). destruct HD as [_ HD2]. fold M in HD2. rewrite <- HBs, map_map. clear -HD2. unfold bin_map in HD2. induction M as [|x M IH]; [constructor|]. cbn [flat_map filter] in *. destruct (is_trace (fst x)); cbn [negb app map fst] in *; [auto|].
    inversion HD2; subst. constructor; [|auto]. intros Hi. apply H1. apply in_map_iff in Hi. destruct Hi as [y [E Hy]]. apply filter_In in Hy. apply in_map_iff. exists ((i_chan (a_info (fst y)), index (labels s) (fst y)), snd y). split; [exact E|]. apply in_flat_map. exists y. split; [tauto|]. destruct Hy as [_ Hy]. destruct (is_trace (fst y)); [discriminate|]. left. reflexivity.
Qed.
