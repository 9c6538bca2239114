(** The assignment as a whole. *)
From Verif Require Import Base CircModel CircProps CircProps5 PathModel PathStr PathSpec PathProps PathProps2.
From Coq Require Import Ascii DecimalString Lia Permutation.
Open Scope string_scope.
Open Scope list_scope.
Open Scope Z_scope.

Lemma clusters_nodup hw : NoDup (map fst hw) -> NoDup (map fst (clusters hw)).
Proof. induction hw as [|(n, d) hw IH]; cbn; [constructor|]. intros nd; inversion nd; subst. rewrite map_app. destruct d; cbn; auto. constructor; auto. intros h. apply H1. apply in_map_iff in h as ((a, b) & e & h). cbn in e; subst. apply clusters_in in h. apply in_map_iff. now exists (n, HCluster b). Qed.
Lemma direct_clock_clusters port loc st clock st' : direct_clock port loc st clock = Ok st' -> map fst (pcs st') = map fst (pcs st).
Proof. unfold direct_clock. intros h. apply bind_inv in h as ((hh, rep) & _ & h). destruct rep; [inversion h; subst; auto|]. destruct (nth_error hh loc); [|discriminate]. apply bind_inv in h as (d & h & h'). inversion h'; subst. now apply put2_spec in h as (h & _). Qed.
Lemma nbr_step_clusters hw E port clks st n st' : nbr_step hw E port clks st n = Ok st' -> map fst (pcs st') = map fst (pcs st).
Proof. unfold nbr_step. intros h. destruct (is_path hw n).
  - apply bind_inv in h as (p & _ & h). refine (foldM_inv (fun s => map fst (pcs s) = map fst (pcs st)) _ _ _ _ h _ _); [reflexivity|]. intros b x b' _ e h'. apply direct_clock_clusters in h'. congruence.
  - destruct (before_last n); [|inversion h; auto]. apply bind_inv in h as ((mp, ml) & _ & h). apply bind_inv in h as (p & _ & h). apply bind_inv in h as (lo & _ & h). apply bind_inv in h as (d & h & h'). inversion h'; subst. cbn.
    refine (foldM_inv (fun s => map fst s = map fst (pcs st)) _ _ _ _ h _ _); [reflexivity|]. intros b x b' _ e h''. apply put2_spec in h'' as (h'' & _). congruence. Qed.
Lemma all_paths_clusters hw E used st : all_paths hw E used = Ok st -> map fst (pcs st) = map fst (clusters hw).
Proof. intros h. refine (foldM_inv (fun s => map fst (pcs s) = map fst (clusters hw)) _ _ _ _ h _ _); [cbn; apply empty_keys|]. intros b (port, clks) b' _ eb e. unfold port_step in e. destruct (memb port (nodes E)); [|discriminate].
  refine (foldM_inv (fun s => map fst (pcs s) = map fst (clusters hw)) _ _ _ _ e eb _). intros b1 n b2 _ e1 e2. apply nbr_step_clusters in e2. congruence. Qed.

Definition paths_of (st : state) (d : dict (dict nat)) (c : string) : dict path := match get d c with Some x => deref (heap st) x | None => [] end.
Lemma paths_in st d c k p : In (k, p) (paths_of st d c) -> DictOk (List.length (heap st)) d -> exists l, get2 d c k = Some l /\ nth_error (heap st) l = Some p.
Proof. unfold paths_of, get2. destruct (get d c) as [e|] eqn:D; [|intros []]. intros h ok. apply deref_in in h as (l & h & n). apply get_in in D. destruct (ok _ _ D) as (nd & _). exists l. split; auto. now apply in_get. Qed.
Lemma in_paths st d c k l p : get2 d c k = Some l -> nth_error (heap st) l = Some p -> In (k, p) (paths_of st d c).
Proof. unfold paths_of, get2. destruct (get d c) as [e|] eqn:D; [|discriminate]. intros h n. apply get_in in h. apply deref_in. eauto. Qed.
Lemma paths_nodup st d c : DictOk (List.length (heap st)) d -> NoDup (map fst (paths_of st d c)).
Proof. unfold paths_of. destruct (get d c) as [e|] eqn:D; [|constructor]. intros ok. apply get_in in D. destruct (ok _ _ D) as (nd & b). now rewrite deref_keys. Qed.

Theorem top_spec hw E opts used res : WfHw hw -> assign_sequencers hw E opts used = Ok res -> exists st, all_paths hw E used = Ok st /\ Shape st /\ Clean st /\
  (forall c ms, In (c, ms) res -> exists mods, In (c, mods) (clusters hw) /\ cluster_cfg mods (paths_of st (pcs st) c) (paths_of st (los st) c) (restrict_options opts (paths_of st (pcs st) c)) = Ok ms) /\
  (forall c key l, get2 (pcs st) c key = Some l -> exists p s, nth_error (heap st) l = Some p /\ Given res c (p_idx p) s /\ q_pc s = key) /\ NoDup (map fst res).
Proof. intros (w1 & w2) h. unfold assign_sequencers in h. apply bind_inv in h as (st & h1 & h2). exists st. split; auto. pose proof (all_paths_shape _ _ _ _ h1) as sh. split; auto.
  set (cs := filter _ (clusters hw)) in h2.
  assert (A : forall c ms, In (c, ms) res -> exists mods, In (c, mods) (clusters hw) /\ cluster_cfg mods (paths_of st (pcs st) c) (paths_of st (los st) c) (restrict_options opts (paths_of st (pcs st) c)) = Ok ms).
  { intros c ms hi. apply (mapM_in _ _ _ h2) in hi as ((c', mods) & hi & e). apply bind_inv in e as (r & e1 & e2). inversion e2; subst. apply filter_In in hi as (hi & _). eauto. }
  assert (B : forall c key l, get2 (pcs st) c key = Some l -> exists p s, nth_error (heap st) l = Some p /\ Given res c (p_idx p) s /\ q_pc s = key).
  { intros c key l e. destruct sh as (s1 & s2). assert (V : (l < List.length (heap st))%nat).
    { unfold get2 in e. destruct (get (pcs st) c) eqn:D; [|discriminate]. apply get_in in D, e. eapply s1; eauto. }
    destruct (nth_error (heap st) l) as [p|] eqn:N; [|apply nth_error_None in N; lia]. exists p. pose proof (in_paths _ _ _ _ _ _ e N) as hp.
    assert (hc : In c (map fst (clusters hw))). { rewrite <- (all_paths_clusters _ _ _ _ h1). unfold get2 in e. destruct (get (pcs st) c) eqn:D; [|discriminate]. apply get_in in D. apply in_map_iff. eexists; split; [|exact D]; auto. }
    apply in_map_iff in hc as ((c', mods) & ec & hc). cbn in ec; subst c'.
    assert (hc' : In (c, mods) cs). { apply filter_In. split; auto. change (match paths_of st (pcs st) c with [] => false | _ => true end = true). destruct (paths_of st (pcs st) c); [destruct hp|auto]. }
    destruct (mapM_ok_in _ _ _ _ h2 hc') as ((c'', ms) & e1 & e2). apply bind_inv in e1 as (r & e1 & e3). inversion e3; subst c'' r; clear e3.
    pose proof (paths_nodup st (pcs st) c s1) as nd. destruct (cluster_spec _ _ _ _ _ nd e1) as (k1 & k2 & _). destruct (k1 key p) as (ss & hs); [apply in_or_app; left; exact hp|].
    destruct (k2 _ _ hs) as (kd & _ & e4 & _). assert (nd' : NoDup (map fst (on (p_idx p) (paths_of st (pcs st) c)))) by (now apply filter_nodup). destruct (cfgs_spec _ _ _ _ _ nd' e4) as (pm & _ & _ & _).
    assert (hk : In key (map q_pc ss)). { eapply Permutation_in; [symmetry; exact pm|]. apply in_map_iff. exists (key, p). split; auto. now apply on_in. }
    apply in_map_iff in hk as (s & es & hk). exists s. split; auto. split; auto. exists ms, ss. auto. }
  split; [|split; [|split]]; auto.
  - intros c key (l & e). destruct (B _ _ _ e) as (p & s & _ & (ms & ss & g1 & g2 & g3) & <-). destruct (A _ _ g1) as (mods & _ & e1). pose proof (paths_nodup st (pcs st) c (proj1 sh)) as nd. destruct (cluster_spec _ _ _ _ _ nd e1) as (_ & k2 & _).
    destruct (k2 _ _ g2) as (kd & _ & e4 & _). apply cfgs_spec in e4 as (_ & _ & _ & f); [|apply filter_nodup; exact nd]. rewrite Forall_forall in f. destruct (f _ g3) as (p' & a & _ & _ & _ & _ & _ & _ & _ & x & y & hxy). eauto.
  - erewrite (mapM_map _ fst fst _ _ _ h2). subst cs. apply filter_nodup, clusters_nodup, w1.
    Unshelve. intros (c, m) y e. apply bind_inv in e as (r & _ & e). now inversion e. Qed.

(** ** Tables of channels *)
Definition names (s : string) (lo hi : nat) : list string := map (name s) (seq lo (hi - lo)).
Lemma one_of_in s lo hi ch : one_of s lo hi ch <-> In ch (names s lo hi).
Proof. unfold one_of, names. rewrite in_map_iff. split; intros (n & h & h'); exists n; [rewrite in_seq; split; [auto|lia]|rewrite in_seq in h'; split; [lia|auto]]. Qed.
Definition outs (k : kind) (i : Z) : list string :=
  match k with
  | QCM => names "complex_output_" 0 2 ++ names "real_output_" 0 4 ++ names "digital_output_" 0 4
  | QRM => names "complex_output_" 0 1 ++ names "real_output_" 0 2 ++ names "digital_output_" 0 4
  | QCM_RF | QRM_RF => names "complex_output_" 0 2 ++ names "digital_output_" 0 2
  | QRC => names "digital_output_" 0 1 ++ if i <? 8 then names "complex_output_" 0 2 ++ [name "complex_output_" (2 + Z.to_nat (i mod 4))] else names "complex_output_" 2 6
  | QTM => names "digital_output_" 0 8
  end.
Definition ins (k : kind) (i : Z) : list string :=
  match k with
  | QCM | QCM_RF => []
  | QRM => names "complex_input_" 0 1 ++ names "real_input_" 0 2
  | QRM_RF => names "complex_input_" 0 1
  | QRC => if i <? 8 then names "complex_input_" 0 2 else []
  | QTM => names "digital_input_" 0 8
  end.
Lemma outs_spec k i ch : Output k i ch <-> In ch (outs k i).
Proof. destruct k; cbn [Output outs]; rewrite ?in_app_iff, ?one_of_in; try tauto. destruct (i <? 8); rewrite ?in_app_iff, ?one_of_in; [|tauto]. cbn [In]. intuition congruence. Qed.
Lemma ins_spec k i ch : Input k i ch <-> In ch (ins k i).
Proof. destruct k; cbn [Input ins]; rewrite ?in_app_iff, ?one_of_in; try tauto. destruct (Z.ltb_spec i 8); [tauto|]. cbn; split; [lia|tauto]. Qed.
Definition same (a b : list string) : bool := forallb (fun x => memb x b) a && forallb (fun x => memb x a) b.
Lemma same_in a b x : same a b = true -> In x a <-> In x b.
Proof. unfold same. intros h. apply andb_prop in h as (h1 & h2). rewrite forallb_forall in h1, h2. split; intros h; apply memb_in; auto. Qed.
Lemma table_check k : forallb (fun '(i, a) => (0 <=? i) && (i <? n_sequencers k) && same (fst a) (outs k i) && same (snd a) (ins k i)) (allowed k) = true.
Proof. destruct k; vm_compute; reflexivity. Qed.
Lemma allowed_spec k i a : In (i, a) (allowed k) -> 0 <= i < n_sequencers k /\ (forall ch, In ch (fst a) <-> Output k i ch) /\ (forall ch, In ch (snd a) <-> Input k i ch).
Proof. intros h. pose proof (table_check k) as c. rewrite forallb_forall in c. specialize (c _ h). cbn beta iota in c. apply andb_prop in c as (c & c3). apply andb_prop in c as (c & c2). apply andb_prop in c as (c0 & c1). apply Z.leb_le in c0. apply Z.ltb_lt in c1.
  split; [lia|]. split; intros ch; rewrite ?outs_spec, ?ins_spec; now apply same_in. Qed.
(** every sequencer index of a module has a row *)
Lemma allowed_indices k i : 0 <= i < n_sequencers k -> exists a, In (i, a) (allowed k).
Proof. intros h. assert (H : In i (map fst (allowed k))).
  { assert (G : forall n (l : list Z), 0 <= i < Z.of_nat n -> l = map Z.of_nat (seq 0 n) -> In i l) by (intros n l hi ->; apply in_map_iff; exists (Z.to_nat i); rewrite in_seq; lia).
    destruct k; [apply (G 6%nat)|apply (G 6%nat)|apply (G 6%nat)|apply (G 6%nat)|apply (G 12%nat)|apply (G 8%nat)]; auto. }
  apply in_map_iff in H as ((j, a) & e & H). cbn in e; subst. eauto. Qed.
Lemma fits_connectable k s p a : In (q_idx s, a) (allowed k) -> fits p a = true -> q_ch s = p_ch p -> q_meas s = p_meas p -> Connectable k s.
Proof. intros h f e1 e2. apply allowed_spec in h as (h1 & h2 & h3). split; auto. rewrite e1, e2. unfold fits in f. destruct (p_meas p) as [l|].
  - apply andb_prop in f as (f1 & f2). apply memb_in in f1. rewrite forallb_forall in f2. split; [now apply h2|]. intros ch hc. apply h3. now apply memb_in, f2.
  - apply orb_prop in f as [f|f]; apply memb_in in f; [left; now apply h2|right; now apply h3]. Qed.
