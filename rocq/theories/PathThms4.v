(** C43: what is wired properly is accepted. *)
From Verif Require Import Base CircModel CircProps CircProps5 PathModel PathStr PathSpec PathProps PathProps2 PathProps3 PathProps4 PathProps5 PathProps6 PathThms PathThms2 PathThms3.
From Verif Require DistModel.
From Coq Require Import Ascii DecimalString Lia Permutation.
Open Scope string_scope.
Open Scope list_scope.
Open Scope Z_scope.

(** ** Handing out sequencers that are alike *)
Lemma find_ok tab taken p : NoDup (map fst tab) -> (forall i a, In (i, a) tab -> fits p a = true) -> (List.length taken < List.length tab)%nat -> exists i, find_seq tab taken p = Ok i.
Proof. intros nd f len. unfold find_seq. destruct (filter _ tab) as [|(i, a) l] eqn:D; [|eauto]. exfalso.
  assert (X : incl (map fst tab) (map fst taken)). { intros i hi. apply in_map_iff in hi as ((j, a) & e & hi). cbn in e; subst j. destruct (existsb (fun '(j, _) => j =? i) taken) eqn:T.
    - apply existsb_exists in T as ((j, k) & hj & ej). apply Z.eqb_eq in ej. subst j. apply in_map_iff. now exists (i, k).
    - assert (In (i, a) (filter (fun '(i, a) => negb (existsb (fun '(j, _) => j =? i) taken) && fits p a) tab)) by (apply filter_In; split; auto; now rewrite T, (f _ _ hi)). rewrite D in H. destruct H. }
  apply NoDup_incl_length in X; auto. rewrite !map_length in X. lia. Qed.
Lemma reserve_ok tab ps l : NoDup (map fst tab) -> (forall k, In k l -> exists p, get ps k = Some p /\ forall i a, In (i, a) tab -> fits p a = true) -> forall t, (List.length t + List.length l <= List.length tab)%nat ->
  exists t', foldM (reserve tab ps) l t = Ok t' /\ List.length t' = (List.length t + List.length l)%nat.
Proof. intros nd. induction l as [|k l IH]; intros f t len; cbn [foldM]; [eexists; split; [reflexivity|cbn; lia]|]. destruct (f k (or_introl eq_refl)) as (p & g & fp). cbn [List.length] in len.
  destruct (find_ok tab t p nd fp) as (i & e); [lia|]. assert (R : reserve tab ps t k = Ok (t ++ [(i, k)])) by (unfold reserve, index; rewrite g; cbn [bind]; now rewrite e). rewrite R. cbn [bind].
  destruct (IH (fun k h => f k (or_intror h)) (t ++ [(i, k)])) as (t' & e1 & e2); [rewrite app_length; cbn; lia|]. exists t'. split; auto. rewrite e2, app_length. cbn. lia. Qed.
Lemma sequencers_ok tab ps : NoDup (map fst tab) -> NoDup (map fst ps) -> (forall k p i a, In (k, p) ps -> In (i, a) tab -> fits p a = true) -> (List.length ps <= List.length tab)%nat -> exists t, sequencer_to_portclock tab ps = Ok t.
Proof. intros nd np f len. unfold sequencer_to_portclock. pose proof (isort_perm String.leb (map fst ps)) as pm. fold (sorted_keys ps) in pm. pose proof (filter_perm (measures ps) (sorted_keys ps)) as fp.
  assert (K : forall k, In k (sorted_keys ps) -> exists p, get ps k = Some p /\ forall i a, In (i, a) tab -> fits p a = true).
  { intros k hk. apply (Permutation_in _ pm) in hk. apply in_map_iff in hk as ((k', p) & e & hk). cbn in e; subst k'. exists p. split; [now apply in_get|eauto]. }
  pose proof (Permutation_length fp) as l1. pose proof (Permutation_length pm) as l2. rewrite map_length in l2. rewrite app_length in l1.
  destruct (reserve_ok tab ps (filter (measures ps) (sorted_keys ps)) nd) with (t := @nil (Z * string)) as (t1 & e1 & n1); [intros k hk; apply filter_In in hk as (hk & _); auto|cbn [List.length]; lia|]. rewrite e1. cbn [bind].
  destruct (reserve_ok tab ps (filter (fun k => negb (measures ps k)) (sorted_keys ps)) nd) with (t := t1) as (t2 & e2 & n2); [intros k hk; apply filter_In in hk as (hk & _); auto|cbn [List.length] in n1; lia|]. eauto. Qed.
Lemma cfgs_ok tab ps lo opts : NoDup (map fst tab) -> NoDup (map fst ps) -> (forall k p i a, In (k, p) ps -> In (i, a) tab -> fits p a = true) -> (List.length ps <= List.length tab)%nat -> (forall k p, In (k, p) ps -> exists x y, split_on "-" k = [x; y]) ->
  exists ss, sequencer_cfgs tab ps lo opts = Ok ss.
Proof. intros nd np f len sp. destruct (sequencers_ok _ _ nd np f len) as (t & e). unfold sequencer_cfgs. rewrite e. cbn [bind]. apply mapM_all_ok. intros (i, pc) hi. destruct (sequencers_spec _ _ _ np e) as (_ & _ & _ & s). destruct (s _ _ hi) as (p & a & h & _). unfold index. rewrite (in_get _ _ _ np h). cbn [bind]. destruct (sp _ _ h) as (x & y & ->). eauto. Qed.

Lemma allowed_nodup k : NoDup (map fst (allowed k)).
Proof. destruct k; vm_compute; repeat (constructor; [cbn; intuition discriminate|]); constructor. Qed.
Lemma allowed_length k : Z.of_nat (List.length (allowed k)) = n_sequencers k. Proof. destruct k; reflexivity. Qed.
Lemma output_alike k i ch : k <> QRC -> Output k i ch <-> Output k 0 ch. Proof. intros n. destruct k; try reflexivity. easy. Qed.
Lemma input_alike k i ch : k <> QRC -> Input k i ch <-> Input k 0 ch. Proof. intros n. destruct k; try reflexivity. easy. Qed.

(** ** The path of a port *)
Lemma from_channel hw n cl m ch i : Channel hw n cl m ch -> Number m i -> from_path n = Ok {| p_cl := cl; p_mod := m; p_ch := ch; p_idx := i; p_meas := None |}.
Proof. intros hc (u & nu & -> & ->). apply channel_path in hc as (_ & e). unfold from_path. rewrite e.
  assert (X : drop_module 0 ("module" ++ NilEmpty.string_of_uint u)%string = NilEmpty.string_of_uint u) by (rewrite <- (drop_uint u) at 2; cbn; destruct (NilEmpty.string_of_uint u); reflexivity).
  rewrite X. unfold py_int. rewrite digits_uint. destruct (NilEmpty.string_of_uint u) eqn:D; [|reflexivity]. destruct u; [easy|discriminate..]. Qed.
Lemma single_nbrs E port n : (forall n', Edge E port n' <-> n' = n) -> neighbors E port = [n].
Proof. intros h. assert (nd : NoDup (neighbors E port)) by apply uniq_nodup. assert (I : forall x, In x (neighbors E port) <-> x = n) by (intros x; rewrite neighbors_in; apply h).
  destruct (neighbors E port) as [|a [|b l]].
  - exfalso. now apply (proj2 (I n)).
  - f_equal. apply I. now left.
  - exfalso. inversion nd; subst. apply H1. left. transitivity n; [|symmetry]; apply I; cbn; auto. Qed.
Lemma pair_nbrs E port n n' : n <> n' -> (forall x, Edge E port x <-> x = n \/ x = n') -> (exists A B, E = A ++ B /\ Edge A port n /\ ~ Edge A port n') -> neighbors E port = [n; n'].
Proof. intros ne h (A & B & -> & h1 & h2). assert (nd : NoDup (neighbors (A ++ B) port)) by apply uniq_nodup. assert (I : forall x, In x (neighbors (A ++ B) port) <-> x = n \/ x = n') by (intros x; rewrite neighbors_in; apply h).
  assert (H : exists r, neighbors (A ++ B) port = n :: r).
  { unfold neighbors. rewrite flat_map_app. set (F := fun '(a, b) => _). assert (J : forall x, In x (flat_map F A) <-> Edge A port x).
    { intros x. transitivity (In x (neighbors A port)); [|apply neighbors_in]. unfold neighbors. fold F. rewrite uniq_in. cbn. tauto. }
    destruct (flat_map F A) as [|a r] eqn:D; [exfalso; now apply (proj2 (J n))|]. assert (a = n). { assert (ea : Edge A port a) by (apply J; now left). assert (ea' : Edge (A ++ B) port a) by (unfold Edge in *; rewrite !in_app_iff; tauto). apply h in ea' as [-> | ->]; auto. exfalso; auto. }
    subst a. cbn. eauto. }
  destruct H as (r & e). rewrite e in *. f_equal. inversion nd; subst. assert (hn : In n' (n :: r)) by (apply I; auto). destruct hn as [?|hn]; [easy|]. destruct r as [|b r]; [destruct hn|]. assert (forall x, In x (b :: r) -> x = n'). { intros x hx. destruct (proj1 (I x) (or_intror hx)) as [-> | ->]; [easy|auto]. }
  rewrite (H b (or_introl eq_refl)). f_equal. destruct r as [|c r]; auto. exfalso. inversion H2; subst. apply H4. left. rewrite (H b), (H c); cbn; auto. Qed.
(** the path of a port that is ready *)
Definition Planned hw E port (p : path) (k : kind) : Prop := exists mods, In (p_cl p, HCluster mods) hw /\ In (p_idx p, k) mods /\ k <> QRC /\ Number (p_mod p) (p_idx p) /\ Direct hw E port (p_cl p) (p_mod p) (p_ch p) /\
  match p_meas p with None => Output k 0 (p_ch p) \/ Input k 0 (p_ch p) | Some l => exists inp, l = [inp] /\ Readout k (p_ch p) inp end.
Lemma iter_in n q ch : p_meas q = Some [ch] -> iter_add n q ch = q.
Proof. revert q; induction n as [|n IH]; intros q h; cbn [iter_add]; auto. assert (add_meas q ch = q) by (unfold add_meas; rewrite h; cbn; rewrite String.eqb_refl; reflexivity). rewrite H. auto. Qed.
Lemma readout_lists k out inp : Readout k out inp -> (k = QRM \/ k = QRM_RF) /\ In out (outs k 0) /\ In inp (ins k 0) /\ (k = QRM -> In out (names "complex_output_" 0 1 ++ names "real_output_" 0 2)) /\ (k = QRM_RF -> In out (names "complex_output_" 0 2)).
Proof. intros h. destruct k; try (now destruct h); destruct h as (h1 & h2); rewrite !one_of_in in *; (split; [auto|]); (split; [cbn [outs]; rewrite !in_app_iff; tauto|]); (split; [cbn [ins]; rewrite ?in_app_iff; tauto|]); (split; intros e; [try discriminate e|try discriminate e]); rewrite ?in_app_iff; tauto. Qed.
Lemma readout_names k out inp : Readout k out inp -> contains "input" inp = true /\ contains "input" out = false.
Proof. intros h. apply readout_lists in h as ([-> | ->] & h1 & h2 & _); split.
  1, 3: match type of h2 with In _ ?l => assert (X : forallb (contains "input") l = true) by (vm_compute; reflexivity); rewrite forallb_forall in X; now apply X end.
  all: match type of h1 with In _ ?l => assert (X : forallb (fun x => negb (contains "input" x)) l = true) by (vm_compute; reflexivity); rewrite forallb_forall in X; apply X in h1; now apply negb_true_iff in h1 end. Qed.
Lemma readout_validate k p inp : Readout k (p_ch p) inp -> p_meas p = Some [inp] -> validate k p = Ok tt.
Proof. intros h e. destruct (readout_lists _ _ _ h) as (hk & h1 & h2 & h3 & h4). unfold validate. rewrite e. destruct hk as [-> | ->].
  - assert (X : contains "complex_output" (p_ch p) || contains "real_output" (p_ch p) = true) by (specialize (h3 eq_refl); revert h3; generalize (p_ch p); apply (proj1 (Forall_forall (fun x => contains "complex_output" x || contains "real_output" x = true) _)); repeat constructor).
    assert (Y : contains "complex_input" inp || contains "real_input" inp = true) by (revert h2; generalize inp; apply (proj1 (Forall_forall (fun x => contains "complex_input" x || contains "real_input" x = true) _)); repeat constructor).
    rewrite X, Y. reflexivity.
  - assert (X : contains "complex_output" (p_ch p) = true) by (specialize (h4 eq_refl); revert h4; generalize (p_ch p); apply (proj1 (Forall_forall (fun x => contains "complex_output" x = true) _)); repeat constructor).
    assert (Y : contains "complex_input" inp = true) by (revert h2; generalize inp; apply (proj1 (Forall_forall (fun x => contains "complex_input" x = true) _)); repeat constructor).
    rewrite X. cbn [forallb]. rewrite Y. reflexivity. Qed.
Lemma ready_port hw E n port : (1 <= n)%nat -> Ready hw E port -> exists p k, lport hw E n port = Ok [(p_cl p, p)] /\ Planned hw E port p k.
Proof. intros hn (cl & m & i & mods & k & ch & h1 & h2 & h3 & h4 & h5). destruct h5 as [((x & hc & hx) & ho)|(inp & (x & x' & hc & hc' & hx & hl) & hr)].
  - exists {| p_cl := cl; p_mod := m; p_ch := ch; p_idx := i; p_meas := None |}, k. pose proof (single_nbrs _ _ _ hx) as nb. assert (ed : Edge E port x) by now apply hx. split.
    + unfold lport. assert (M : memb port (nodes E) = true) by (apply memb_in, nodes_in; exists x; exact ed). rewrite M, nb. cbn [foldM]. unfold lstep. rewrite (proj1 (channel_path _ _ _ _ _ hc)), (from_channel _ _ _ _ _ _ hc h3). reflexivity.
    + exists mods. cbn. repeat (split; [auto; fail|]). split; [exists x; auto|auto].
  - assert (ne : x <> x'). { intros e. subst x'. destruct (channel_fun _ _ _ _ _ _ _ _ hc hc') as (_ & _ & ->). apply readout_names in hr as (a & b). congruence. }
    exists {| p_cl := cl; p_mod := m; p_ch := ch; p_idx := i; p_meas := Some [inp] |}, k. pose proof (pair_nbrs _ _ _ _ ne hx hl) as nb. assert (ed : Edge E port x) by (apply hx; auto). split.
    + unfold lport. assert (M : memb port (nodes E) = true) by (apply memb_in, nodes_in; exists x; exact ed). rewrite M, nb. cbn [foldM].
      assert (L1 : lstep hw E n [] x = Ok [(cl, {| p_cl := cl; p_mod := m; p_ch := ch; p_idx := i; p_meas := None |})]) by (unfold lstep; rewrite (proj1 (channel_path _ _ _ _ _ hc)), (from_channel _ _ _ _ _ _ hc h3); reflexivity).
      rewrite L1. cbn [bind]. unfold lstep. rewrite (proj1 (channel_path _ _ _ _ _ hc')), (from_channel _ _ _ _ _ _ hc' h3). cbn [bind p_cl p_mod p_ch].
      rewrite !String.eqb_refl. cbn [andb bind]. destruct n as [|n]; [lia|]. cbn [iter_add]. unfold add_meas at 1. cbn [p_meas]. rewrite (proj1 (readout_names _ _ _ hr)). cbn [p_cl p_mod p_ch p_idx]. rewrite iter_in by reflexivity. reflexivity.
    + exists mods. cbn. repeat (split; [auto; fail|]). split; [exists x; auto|eauto]. Qed.
Lemma planned_fits hw E port p k : Planned hw E port p k -> validate k p = Ok tt /\ forall i a, In (i, a) (allowed k) -> fits p a = true.
Proof. intros (mods & _ & _ & nq & _ & _ & h). split.
  - destruct (p_meas p) as [l|] eqn:M; [|unfold validate; now rewrite M]. destruct h as (inp & -> & h). eapply readout_validate; eauto.
  - intros i a ha. destruct (allowed_spec _ _ _ ha) as (_ & ho & hi). unfold fits. destruct (p_meas p) as [l|].
    + destruct h as (inp & -> & h). destruct (readout_lists _ _ _ h) as (_ & r1 & r2 & _). apply outs_spec in r1. apply ins_spec in r2. apply (output_alike k i _ nq), ho in r1. apply (input_alike k i _ nq), hi in r2. apply memb_in in r1, r2. rewrite r1. cbn. now rewrite r2.
    + apply orb_true_iff. rewrite !memb_in, ho, hi, (output_alike k i _ nq), (input_alike k i _ nq). exact h. Qed.

Lemma dash_split p c : Lacks "-" p -> Lacks "-" c -> split_on "-" (pc_key p c) = [p; c].
Proof. rewrite !lacks_absent. intros a b. unfold pc_key. change ("-" ++ c)%string with (String "-" c). rewrite split_app, !split_absent; auto. Qed.

Lemma bind_ok {A B} (x : result A) (f : A -> result B) : (exists a, x = Ok a) -> (forall a, exists b, f a = Ok b) -> exists b, bind x f = Ok b.
Proof. intros (a & ->) h. cbn. apply h. Qed.
(** Used port-clocks without dashes, on ports that are ready, with on each module at most as many port-clocks as it has sequencers, are accepted. *)
Theorem C43_accept : forall hw E opts used, WfHw hw -> NoDup used ->
  (forall port clock, In (port, clock) used -> Lacks "-" port /\ Lacks "-" clock /\ Ready hw E port) ->
  (forall cl mods i k l, In (cl, HCluster mods) hw -> In (i, k) mods -> NoDup l -> (forall port clock, In (port, clock) l -> In (port, clock) used /\ exists m ch, Number m i /\ Direct hw E port cl m ch) -> Z.of_nat (List.length l) <= n_sequencers k) ->
  exists res, assign_sequencers hw E opts used = Ok res.
Proof. intros hw E opts used wf nu ok room.
  assert (d : Distinct used). { intros p c p' c' h h' e. apply (key_inj p c p' c' p c); [apply dash_split; now apply (ok _ _ h)|exact e]. }
  assert (nm : forall port clock x, In (port, clock) used -> ~ AtMixer hw E port x).
  { intros port clock x h (t & h1 & h2 & h3). destruct (ok _ _ h) as (_ & _ & cl & m & i & mods & k & ch & a1 & a2 & a3 & a4 & a5). apply h3. assert (C : exists m' ch', Channel hw t cl m' ch').
    { destruct a5 as [((y & hc & hx) & _)|(inp & (y & y' & hc & hc' & hx & _) & _)]; apply hx in h2; [subst; eauto|]. destruct h2 as [-> | ->]; eauto. }
    destruct C as (m' & ch' & (-> & b1 & _ & _ & md & b4)). exists cl, md. split; auto. split; auto. right. eexists; reflexivity. }
  assert (pl : Plain hw E used) by (intros port clock x hu hx; exfalso; eapply nm; eauto).
  assert (LO : exists new, locals hw E used = Ok new).
  { unfold locals. apply mapM_all_ok. intros (port, clks) hp. apply p2c_spec in hp as (-> & ne). destruct (clocks_of port used) as [|k l] eqn:D; [easy|]. assert (hu : In (port, k) used) by (apply clocks_in; rewrite D; now left).
    destruct (ready_port hw E (List.length (k :: l)) port ltac:(cbn; lia) (proj2 (proj2 (ok _ _ hu)))) as (p & kd & e & _). rewrite e. cbn. eauto. }
  destruct LO as (new & LO). pose proof (all_sim hw E used wf nu d pl) as s. rewrite LO in s. destruct s as (st & loc & s1 & s2). pose proof (all_paths_shape _ _ _ _ s1) as sh.
  assert (P : forall c key p, In (key, p) (paths_of st (pcs st) c) -> exists port clock k, In (port, clock) used /\ key = pc_key port clock /\ p_cl p = c /\ Planned hw E port p k).
  { intros c key p h. apply (final_paths _ _ _ _ _ _ _ s2 (proj1 sh)) in h as (port & clks & L & k & a1 & a2 & -> & a4). apply (locals_in _ _ _ _ _ _ _ LO) in a1 as (a1 & a3). apply p2c_spec in a1 as (-> & ne). assert (hu : In (port, k) used) by now apply clocks_in.
    destruct (ready_port hw E (List.length (clocks_of port used)) port ltac:(destruct (clocks_of port used); [easy|cbn; lia]) (proj2 (proj2 (ok _ _ hu)))) as (q & kd & e & pq). rewrite e in a3. inversion a3; subst L. cbn in a4. destruct (String.eqb_spec (p_cl q) c); [|discriminate]. inversion a4; subst. exists port, k, kd. auto. }
  unfold assign_sequencers. rewrite s1. cbn [bind]. apply mapM_all_ok. intros (c, mods) hc. apply filter_In in hc as (hc & _). apply clusters_in in hc.
  change (exists y, bind (cluster_cfg mods (paths_of st (pcs st) c) (paths_of st (los st) c) (restrict_options opts (paths_of st (pcs st) c))) (fun r => Ok (c, r)) = Ok y). rewrite (los_empty _ _ _ _ c nm s1). set (ps := paths_of st (pcs st) c) in *. pose proof (paths_nodup st (pcs st) c (proj1 sh)) as nd. fold ps in nd.
  assert (MU : forall i k k', In (i, k) mods -> In (i, k') mods -> k = k').
  { intros i k k' d1 d1'. pose proof (proj2 wf _ _ hc) as nm'. clear - d1 d1' nm'. induction mods as [|(j, x) l IH]; [destruct d1|]. cbn in nm'. inversion nm'; subst. destruct d1 as [q|q], d1' as [q'|q'].
    - congruence.
    - exfalso. inversion q; subst. apply H1. apply in_map_iff. now exists (i, k').
    - exfalso. inversion q'; subst. apply H1. apply in_map_iff. now exists (i, k).
    - auto. }
  assert (PM : forall key p, In (key, p) ps -> exists port clock k, In (port, clock) used /\ key = pc_key port clock /\ Planned hw E port p k /\ p_cl p = c /\ In (p_idx p, k) mods).
  { intros key p h. destruct (P _ _ _ h) as (port & clock & k & a1 & a2 & a3 & a4). exists port, clock, k. repeat (split; [auto; fail|]). destruct a4 as (mods' & b1 & b2 & _). rewrite a3 in b1. pose proof (in_get _ _ _ (proj1 wf) hc). pose proof (in_get _ _ _ (proj1 wf) b1). congruence. }
  assert (OK : exists r, cluster_cfg mods ps [] (restrict_options opts ps) = Ok r); [|destruct OK as (r & ->); cbn; eauto].
  unfold cluster_cfg. fold on. rewrite app_nil_r. set (ms := filter _ mods).
  assert (MS : forall i k, In (i, k) ms -> In (i, k) mods) by (intros i k h; now apply filter_In in h as (h & _)).
  apply bind_ok; [apply mapM_all_ok|intros _; apply bind_ok; [apply mapM_all_ok|intros _; apply mapM_all_ok]].
  { intros (key, p) h. destruct (PM _ _ h) as (port & clock & k & _ & _ & _ & _ & b). assert (X : existsb (fun '(i, _) => i =? p_idx p) ms = true). { apply existsb_exists. exists (p_idx p, k). split; [|apply Z.eqb_refl]. apply filter_In. split; auto. apply existsb_exists. exists (key, p). split; auto. apply Z.eqb_refl. }
    rewrite X. eauto. }
  { intros (i, k) hi. apply mapM_all_ok. intros (key, p) hk. apply on_in in hk as (hk & <-). destruct (PM _ _ hk) as (port & clock & k' & _ & _ & b1 & _ & b2). rewrite (MU _ _ _ (MS _ _ hi) b2). rewrite (proj1 (planned_fits _ _ _ _ _ b1)). eauto. }
  change (forall x, In x ms -> exists y, (let '(i, k) := x in bind (sequencer_cfgs (allowed k) (on i ps) (on i []) (restrict_options (restrict_options opts ps) (on i ps))) (fun s => Ok (i, s))) = Ok y).
  intros (i, k) hi. apply MS in hi. assert (X : exists ss, sequencer_cfgs (allowed k) (on i ps) (on i []) (restrict_options (restrict_options opts ps) (on i ps)) = Ok ss); [|destruct X as (ss & ->); cbn; eauto].
  apply cfgs_ok; [apply allowed_nodup|now apply filter_nodup| | |].
  - intros key p j a hk ha. apply on_in in hk as (hk & <-). destruct (PM _ _ hk) as (port & clock & k' & _ & _ & b1 & _ & b2). rewrite <- (MU _ _ _ hi b2) in b1. exact (proj2 (planned_fits _ _ _ _ _ b1) _ _ ha).
  - apply Nat2Z.inj_le. rewrite allowed_length. pose (inv := fun key => match split_on "-" key with [a; b] => (a, b) | _ => ("", "") end). pose (l := map (fun x => inv (fst x)) (on i ps)).
    assert (I : forall key p, In (key, p) (on i ps) -> exists port clock, inv key = (port, clock) /\ key = pc_key port clock /\ In (port, clock) used /\ exists m ch, Number m i /\ Direct hw E port c m ch).
    { intros key p hk. apply on_in in hk as (hk & <-). destruct (PM _ _ hk) as (port & clock & k' & b0 & -> & (mods' & _ & _ & _ & b3 & b4 & _) & b2 & _). exists port, clock. split; [|split; [auto|split; [auto|]]].
      - unfold inv. rewrite dash_split; [auto|apply (ok _ _ b0)..].
      - rewrite b2 in b4. eauto. }
    replace (List.length (on i ps)) with (List.length l) by (unfold l; now rewrite map_length). apply (room c mods i k l hc hi).
    + unfold l. rewrite <- map_map. assert (nk : NoDup (map fst (on i ps))) by now apply filter_nodup. assert (J : forall key, In key (map fst (on i ps)) -> key = pc_key (fst (inv key)) (snd (inv key))). { intros key hk. apply in_map_iff in hk as ((key', p) & e & hk). cbn in e; subst key'. destruct (I _ _ hk) as (port & clock & -> & -> & _). reflexivity. }
      clearbody inv. clear - nk J. induction (map fst (on i ps)) as [|a r IH]; cbn [map]; [constructor|]. inversion nk; subst. constructor; [|apply IH; auto; intros; apply J; now right]. intros q. apply in_map_iff in q as (b & e & hb). apply H1. rewrite (J a (or_introl eq_refl)), <- e, <- (J b (or_intror hb)). exact hb.
    + intros port clock hl. unfold l in hl. apply in_map_iff in hl as ((key, p) & e & hk). cbn [fst] in e. destruct (I _ _ hk) as (port' & clock' & e' & _ & b). rewrite e' in e. inversion e; subst. exact b.
  - intros key p hk. apply on_in in hk as (hk & _). destruct (PM _ _ hk) as (port & clock & k' & b0 & -> & _). exists port, clock. apply dash_split; apply (ok _ _ b0). Qed.
