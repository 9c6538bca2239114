(** C49: the acquisition settings of a UHFQA fit the acquisitions it is given. *)
From Verif Require Import Base NumericModel NumericProps ZiModel ZiSpec ZiProps ZiProps2 ZiProps3 ZiClock ZiTable ZiTable2 ZiCorr ZiShift ZiThms1 ZiCompile ZiThms2 ZiIds ZiThms3 ZiQa.
From Coq Require Import Permutation.
Open Scope Z_scope.

Lemma scheduled_acq s oc : In oc (occurrences s) -> nth_error (o_acqs (oc_operation oc)) (oc_index oc) = Some (oc_info oc) -> In (oc_info oc) (flat_map (fun '(h, _) => match zget (s_operations s) h with Some o => o_acqs o | None => [] end) (s_schedulables s)).
Proof. unfold occurrences. intros h hn. apply in_flat_map in h. destruct h as ([hh a] & hs & h). apply in_flat_map. exists (hh, a). split; [exact hs|]. destruct a as [t|]; [|destruct h]. destruct (zget (s_operations s) hh) as [o|] eqn:e; [|destruct h]. assert (oc_operation oc = o). { unfold occurrences_of in h. apply in_app_or in h. destruct h as [h|h]; apply in_map_iff in h; destruct h as ([n i] & <- & _); reflexivity. } subst o. eapply nth_error_In; eauto. Qed.
Lemma protocol_eqb_eq a b : protocol_eqb a b = true -> a = b.
Proof. destruct a, b; cbn; try discriminate; auto. intros h. apply String.eqb_eq in h. congruence. Qed.
Lemma bin_mode_eqb_eq a b : bin_mode_eqb a b = true -> a = b.
Proof. destruct a, b; cbn; try discriminate; auto. Qed.
Lemma one_protocol s bm : acquisition_bin_mode s = Ok bm -> exists p, forall oc, In oc (occurrences s) -> nth_error (o_acqs (oc_operation oc)) (oc_index oc) = Some (oc_info oc) -> i_protocol (oc_info oc) = p /\ i_bin_mode (oc_info oc) = bm.
Proof. unfold acquisition_bin_mode. cbn zeta. intros h. set (infos := flat_map _ _) in h. assert (IN : forall oc, In oc (occurrences s) -> nth_error (o_acqs (oc_operation oc)) (oc_index oc) = Some (oc_info oc) -> In (oc_info oc) infos) by (intros; now apply scheduled_acq). destruct infos as [|i is_]; [discriminate|]. destruct (forallb _ (i :: is_)) eqn:f; [|discriminate]. injection h as <-. exists (i_protocol i). intros oc h1 h2. specialize (IN oc h1 h2). rewrite forallb_forall in f. specialize (f _ IN). apply andb_true_iff in f. destruct f as [f1 f2]. split; [now apply protocol_eqb_eq|now apply bin_mode_eqb_eq]. Qed.
Lemma acq_row_info s ops devs lat k oc v e : operations_by_str s = Ok ops -> tidy s -> In oc (occurrences s) -> ent devs lat ((k, oc), v) e -> r_is_acq (e_row e) = true -> acq_info ops e = Some (oc_info oc) /\ nth_error (o_acqs (oc_operation oc)) (oc_index oc) = Some (oc_info oc).
Proof. intros ho ht hoc (q1 & _) ha. cbn [fst snd] in q1. rewrite q1 in ha. destruct (occurrence_of s oc hoc) as (h & hop & hn). destruct (ht h _ hop) as [t1 t2]. rewrite Forall_forall in t1. change (i_is_acq (oc_info oc) = true) in ha.
  assert (N : nth_error (o_acqs (oc_operation oc)) (oc_index oc) = Some (oc_info oc)) by (destruct hn as [hn|hn]; [rewrite (t1 _ (nth_error_In _ _ hn)) in ha; discriminate|exact hn]). split; [|exact N]. unfold acq_info. rewrite q1. change (match sget ops (o_str (oc_operation oc)) with Some o => nth_error (o_acqs o) (oc_index oc) | None => None end = Some (oc_info oc)). rewrite (by_str _ _ ho h _ hop). exact N. Qed.
Definition acquisitions_on (ch : chan) (l : list entry) : list entry := filter (fun e => r_is_acq (e_row e)) (rows_on ch l).

(** The result length and the number of averages: all acquisitions of the schedule have one bin mode; in average mode the n acquisitions of a repetition are averaged over the repetitions, in append mode n times the number of repetitions results are taken. *)
Theorem C49_results srt s devs lat cfg : sorts srt -> compile srt s devs lat = Ok cfg -> tidy s -> forall d a q, configured cfg devs d (UhfqaConfig a q) -> exists l, corrected_table srt s devs lat = Ok l /\
  let n := List.length (acquisitions_on (d_name d, 0%nat) l) in
  q_n_acquisitions q = n /\ q_bin_mode q <> OtherBinMode
  /\ (forall oc, In oc (occurrences s) -> i_is_acq (oc_info oc) = true -> i_bin_mode (oc_info oc) = q_bin_mode q)
  /\ ((0 < n)%nat -> q_bin_mode q = Average -> q_length q = Some (Z.of_nat n) /\ q_averages q = Some (s_repetitions s))
  /\ ((0 < n)%nat -> q_bin_mode q = Append -> q_length q = Some (Z.of_nat n * s_repetitions s) /\ q_averages q = Some 1)
  /\ (n = 0%nat -> q_length q = None /\ q_averages q = None /\ q_integration q = None).
Proof. intros hs h ht d a q hc. destruct (configured_inv _ _ _ _ _ _ _ h hc) as (l & ops & wf & hl & ho & hw & hk & bm & hb & ha). exists l. split; [exact hl|]. cbn zeta. destruct (compile_uhfqa_inv _ _ _ _ _ _ _ _ ha) as (st & R). cbn zeta in R. destruct R as (r1 & r2 & r3 & r4 & r5 & r6 & r7 & r8). fold (acquisitions_on (d_name d, 0%nat) l) in *. rewrite r3. split; [exact r2|]. split; [exact r4|]. split; [|split; [|split]].
  - intros oc hoc hacq. destruct (one_protocol _ _ hb) as (p & hp). destruct (occurrence_of s oc hoc) as (hh & hop & hn). destruct (ht hh _ hop) as [t1 _]. rewrite Forall_forall in t1. destruct hn as [hn|hn]; [rewrite (t1 _ (nth_error_In _ _ hn)) in hacq; discriminate|]. apply (hp oc hoc hn).
  - intros n0 e. destruct r7 as (x1 & x2 & _); [destruct (acquisitions_on _ l); [cbn in n0; lia|discriminate]|]. rewrite e in *. rewrite x1, x2. split; [f_equal; lia|reflexivity].
  - intros n0 e. destruct r7 as (x1 & x2 & _); [destruct (acquisitions_on _ l); [cbn in n0; lia|discriminate]|]. rewrite e in *. auto.
  - intros n0. apply r8. destruct (acquisitions_on _ l); [reflexivity|cbn in n0; discriminate]. Qed.

(** For every acquisition: the integration time is its duration in samples; a weighted integration has its own weights at the two nodes of its acquisition channel, and its result is read from these; a trace uses weights of one and is read from the monitor. *)
Theorem C49_weights srt s devs lat cfg : sorts srt -> compile srt s devs lat = Ok cfg -> tidy s -> numbered devs -> forall d a q, configured cfg devs d (UhfqaConfig a q) -> exists l, corrected_table srt s devs lat = Ok l /\
  forall e, In e (acquisitions_on (d_name d, 0%nat) l) -> exists oc v du, In oc (occurrences s) /\ stands_for devs lat oc v e /\ q_integration q = Some (py_round (du * inject_Z (sample_rate d))) /\
    (same_named s oc \/ unmistakable oc -> (du == i_duration (oc_info oc))%Q /\ let c := i_acq_channel (oc_info oc) in
       match i_protocol (oc_info oc) with
       | SSBIntegrationComplex => (c < 5)%nat /\ exists w, own_wave devs oc (d_name d, 0%nat) w /\ nth_error (q_weights q) (2 * c) = Some {| n_real := RealPart w; n_imag := ImagPart w |} /\ nth_error (q_weights q) (2 * c + 1) = Some {| n_real := ImagPart w; n_imag := MinusRealPart w |} /\ In (c, ResultWaves (2 * c) (2 * c + 1)) (q_resolvers q)
       | Trace => q_weights q = repeat {| n_real := Ones; n_imag := Ones |} 10 /\ In (c, MonitorWaves) (q_resolvers q)
       | OtherProtocol _ => False
       end).
Proof. intros hs h ht hnum d a q hc. destruct (configured_inv _ _ _ _ _ _ _ h hc) as (l & ops & wf & hl & ho & hw & hk & bm & hb & ha). exists l. split; [exact hl|]. intros e he. destruct (compile_uhfqa_inv _ _ _ _ _ _ _ _ ha) as (st & R). cbn zeta in R. destruct R as (r1 & r2 & r3 & r4 & r5 & r6 & r7 & r8). fold (acquisitions_on (d_name d, 0%nat) l) in *. set (acqs := acquisitions_on (d_name d, 0%nat) l) in *.
  destruct r7 as (_ & _ & du & ed & ei); [intros q0; rewrite q0 in he; destruct he|].
  assert (SUB : forall x, In x acqs -> In x l /\ r_is_acq (e_row x) = true /\ e_channel x = Some (d_name d, 0%nat)). { intros x hx. unfold acqs, acquisitions_on in hx. apply filter_In in hx. destruct hx as [hx hxa]. unfold rows_on in hx. apply filter_In in hx. destruct hx as [hx hxc]. split; [exact hx|]. split; [exact hxa|]. destruct (e_channel x) as [[nm n]|]; [|discriminate]. cbn [fst snd] in hxc. apply andb_true_iff in hxc. destruct hxc as [c1 c2]. apply String.eqb_eq in c1. apply Nat.eqb_eq in c2. subst. reflexivity. }
  destruct (SUB e he) as (hel & hacq & hch). destruct (row_entry _ _ _ _ _ _ hs hl hel) as (k & oc & v & hoc & hent & hst). exists oc, v, du. split; [exact hoc|]. split; [exact hst|]. split; [exact ei|]. intros hsn.
  assert (HSN : same_named s oc) by (destruct hsn as [hsn|hsn]; [exact hsn|eapply unmistakable_named; eauto]).
  destruct (acq_row_info _ _ _ _ _ _ _ _ ho ht hoc hent hacq) as [inf nacq]. destruct (one_protocol _ _ hb) as (p & hp). destruct (hp oc hoc nacq) as [hp1 _].
  (* the acquisition that stands for this id *)
  destruct (dd_first acqs [] e he (fun x => x)) as (e1 & f1 & u1 & id1). destruct (first_with_id _ _ _ f1) as [_ in1]. destruct (SUB e1 in1) as (e1l & e1a & _). destruct (row_entry _ _ _ _ _ _ hs hl e1l) as (k1 & od & v1 & hod & ent1 & _).
  assert (SI : oc_info od = oc_info oc). { apply HSN; [exact hod|]. rewrite (ent_id _ _ _ _ _ _ ent1), (ent_id _ _ _ _ _ _ hent) in id1. apply waveform_id_inj in id1. exact id1. }
  destruct (acq_row_info _ _ _ _ _ _ _ _ ho ht hod ent1 e1a) as [inf1 _]. rewrite SI in inf1.
  assert (PR : forall x i, In x (drop_duplicates [] acqs) -> acq_info ops x = Some i -> i_protocol i = p). { intros x i hx hi. apply dd_in in hx. destruct (SUB x hx) as (xl & xa & _). destruct (row_entry _ _ _ _ _ _ hs hl xl) as (k2 & o2 & v2 & ho2 & ent2 & _). destruct (acq_row_info _ _ _ _ _ _ _ _ ho ht ho2 ent2 xa) as [inf2 nac2]. rewrite hi in inf2. injection inf2 as ->. apply (hp o2 ho2 nac2). }
  assert (DU : (du == i_duration (oc_info oc))%Q).
  { (* the duration is that of every acquisition *) assert (F : forall us st1 st2 x i, foldM (acq_step ops wf) us st1 = Ok st2 -> In x us -> acq_info ops x = Some i -> exists dd, as_duration st2 = Some dd /\ (dd == i_duration i)%Q).
    { assert (K : forall us st1 st2 dd, foldM (acq_step ops wf) us st1 = Ok st2 -> as_duration st1 = Some dd -> as_duration st2 = Some dd). { induction us as [|y us IH]; intros st1 st2 dd hf hd; cbn [foldM] in hf; [injection hf as <-; exact hd|]. apply bind_Ok in hf. destruct hf as (st3 & g1 & hf). apply acq_step_inv in g1. destruct g1 as (i & _ & _ & e3 & _). rewrite hd in e3. eapply IH; eauto. }
      induction us as [|y us IH]; intros st1 st2 x i hf hx hi; [destruct hx|]. cbn [foldM] in hf. apply bind_Ok in hf. destruct hf as (st3 & g1 & hf). destruct hx as [->|hx]; [|eapply IH; eauto]. apply acq_step_inv in g1. destruct g1 as (i' & e1' & e2 & e3 & _). rewrite hi in e1'. injection e1' as <-. eexists. split; [eapply K; eauto|]. destruct (as_duration st1); [exact e2|reflexivity]. }
    destruct (F _ _ _ _ _ r1 u1 inf1) as (dd & q1 & q2). rewrite ed in q1. injection q1 as <-. exact q2. }
  split; [exact DU|]. cbn zeta. rewrite hp1. destruct p as [| |nm] eqn:ep.
  - pose proof (good_all ops wf _ [] _ _ (good_start ops wf) PR r1) as G. cbn [app] in G. destruct (g_each _ _ _ _ G e1 _ u1 inf1 hp1) as (w & w1 & w2 & w3 & w4 & w5). split; [exact w2|]. exists w. rewrite r5, r6. split; [|auto]. rewrite id1 in w1. apply (table_own srt s devs lat l ops wf e _ w hs hl ho hw ht hnum hel hch w1 k oc v hoc hent HSN).
  - destruct (trace_all ops wf _ _ _ PR r1 eq_refl) as (t1 & t2 & _). rewrite r5, r6. split; [apply t1; intros q0; rewrite q0 in u1; destruct u1|]. eapply t2; eauto.
  - clear -r1 u1 inf1 hp1. revert r1 u1. generalize start_state. induction (drop_duplicates [] acqs) as [|y us IH]; intros st1 hf hx; [destruct hx|]. cbn [foldM] in hf. apply bind_Ok in hf. destruct hf as (st3 & g1 & hf). destruct hx as [->|hx]; [|eapply IH; eauto]. apply acq_step_inv in g1. destruct g1 as (i & e1' & _ & _ & _ & _ & g). rewrite inf1 in e1'. injection e1' as <-. rewrite hp1 in g. exact g. Qed.

(** Weighted integration: the nodes that belong to no acquisition are zero, and two acquisitions of the same acquisition channel are described in the same way, so that no acquisition overwrites the weights of another. *)
Theorem C49_exclusive srt s devs lat cfg : sorts srt -> compile srt s devs lat = Ok cfg -> tidy s -> forall d a q, configured cfg devs d (UhfqaConfig a q) -> (exists oc, In oc (occurrences s) /\ i_is_acq (oc_info oc) = true /\ i_protocol (oc_info oc) = SSBIntegrationComplex) -> exists l, corrected_table srt s devs lat = Ok l /\
  (forall e f oc od v w, In e (acquisitions_on (d_name d, 0%nat) l) -> In f (acquisitions_on (d_name d, 0%nat) l) -> In oc (occurrences s) -> In od (occurrences s) -> stands_for devs lat oc v e -> stands_for devs lat od w f -> same_named s oc -> same_named s od -> i_acq_channel (oc_info oc) = i_acq_channel (oc_info od) -> oc_info oc = oc_info od) /\
  (forall n, (n < 10)%nat -> (forall e oc v, In e (acquisitions_on (d_name d, 0%nat) l) -> In oc (occurrences s) -> stands_for devs lat oc v e -> n <> (2 * i_acq_channel (oc_info oc))%nat /\ n <> (2 * i_acq_channel (oc_info oc) + 1)%nat) -> nth_error (q_weights q) n = Some {| n_real := Zeros; n_imag := Zeros |}).
Proof. intros hs h ht d a q hc (oz & hoz & haz & hpz). destruct (configured_inv _ _ _ _ _ _ _ h hc) as (l & ops & wf & hl & ho & hw & hk & bm & hb & ha). exists l. split; [exact hl|]. destruct (compile_uhfqa_inv _ _ _ _ _ _ _ _ ha) as (st & R). cbn zeta in R. destruct R as (r1 & r2 & r3 & r4 & r5 & r6 & _). fold (acquisitions_on (d_name d, 0%nat) l) in *. set (acqs := acquisitions_on (d_name d, 0%nat) l) in *.
  assert (SUB : forall x, In x acqs -> In x l /\ r_is_acq (e_row x) = true). { intros x hx. unfold acqs, acquisitions_on in hx. apply filter_In in hx. destruct hx as [hx hxa]. unfold rows_on in hx. apply filter_In in hx. tauto. }
  destruct (one_protocol _ _ hb) as (p & hp).
  assert (TA : forall oc, In oc (occurrences s) -> i_is_acq (oc_info oc) = true -> nth_error (o_acqs (oc_operation oc)) (oc_index oc) = Some (oc_info oc)). { intros oc hoc hacq. destruct (occurrence_of s oc hoc) as (hh & hop & hn). destruct (ht hh _ hop) as [t1 _]. rewrite Forall_forall in t1. destruct hn as [hn|hn]; [rewrite (t1 _ (nth_error_In _ _ hn)) in hacq; discriminate|exact hn]. }
  destruct (hp oz hoz (TA oz hoz haz)) as [pz _]. rewrite hpz in pz. subst p.
  assert (INFO : forall x oc v, In x acqs -> In oc (occurrences s) -> stands_for devs lat oc v x -> acq_info ops x = Some (oc_info oc) /\ i_protocol (oc_info oc) = SSBIntegrationComplex).
  { intros x oc v hx hoc (s1 & s2 & s3 & _). destruct (SUB x hx) as [_ xa]. rewrite s3 in xa. pose proof (TA oc hoc xa) as N. split; [|apply (hp oc hoc N)]. unfold acq_info. rewrite s1, s2. destruct (occurrence_of s oc hoc) as (hh & hop & _). rewrite (by_str _ _ ho hh _ hop). exact N. }
  assert (STANDS : forall x, In x acqs -> exists oc v, In oc (occurrences s) /\ stands_for devs lat oc v x). { intros x hx. destruct (SUB x hx) as [xl _]. destruct (row_entry _ _ _ _ _ _ hs hl xl) as (k & oc & v & a1 & _ & a3). eauto. }
  assert (PR : forall x i, In x (drop_duplicates [] acqs) -> acq_info ops x = Some i -> i_protocol i = SSBIntegrationComplex). { intros x i hx hi. apply dd_in in hx. destruct (STANDS x hx) as (oc & v & a1 & a2). destruct (INFO x oc v hx a1 a2) as [b1 b2]. rewrite hi in b1. injection b1 as ->. exact b2. }
  pose proof (good_all ops wf _ [] _ _ (good_start ops wf) PR r1) as G. cbn [app] in G. destruct (g_channels _ _ _ _ G) as (is_ & g1 & g2 & _). pose proof (g_nodup _ _ _ _ G) as nd. rewrite g2 in nd.
  split.
  - intros e f oc od v w he hf hoc hod se sf ne nf ec.
    (* two entries of the duplicate-free list with equal channels are equal *)
    assert (UN : forall x y i j, In x (drop_duplicates [] acqs) -> In y (drop_duplicates [] acqs) -> acq_info ops x = Some i -> acq_info ops y = Some j -> i_acq_channel i = i_acq_channel j -> e_id x = e_id y).
    { clear -g1 nd. revert is_ g1 nd. induction (drop_duplicates [] acqs) as [|z zs IH]; intros is_ g nd x y i j hx hy hi hj e; [destruct hx|]. destruct is_ as [|i0 is_]; [discriminate|]. cbn [map] in g. injection g as gz g. cbn [map] in nd. inversion nd as [|? ? n1 n2]; subst.
      assert (M : forall y j, In y zs -> acq_info ops y = Some j -> In (i_acq_channel j) (map i_acq_channel is_)). { intros y' j' hy' hj'. apply in_map. assert (In (Some j') (map Some is_)) by (rewrite <- g, <- hj'; now apply in_map). apply in_map_iff in H. destruct H as (u & [= ->] & hu). exact hu. }
      destruct hx as [<-|hx], hy as [<-|hy]; [reflexivity| | |eapply IH; eauto].
      - exfalso. apply n1. rewrite gz in hi. injection hi as ->. rewrite e. eapply M; eauto.
      - exfalso. apply n1. rewrite gz in hj. injection hj as ->. rewrite <- e. eapply M; eauto. }
    (* the entries whose settings are used for e and f *)
    assert (REP : forall x o v', In x acqs -> In o (occurrences s) -> stands_for devs lat o v' x -> same_named s o -> exists y o', In y (drop_duplicates [] acqs) /\ In o' (occurrences s) /\ oc_info o' = oc_info o /\ acq_info ops y = Some (oc_info o) /\ exists k u, ent devs lat ((k, o'), u) y).
    { intros x o v' hx hox sx hn. destruct (dd_first acqs [] x hx (fun z => z)) as (y & fy & uy & idy). destruct (first_with_id _ _ _ fy) as [_ iny]. destruct (SUB y iny) as [yl ya]. destruct (SUB x hx) as [xl xa]. destruct (row_entry _ _ _ _ _ _ hs hl yl) as (k1 & o1 & v1 & ho1 & ent1 & st1). destruct (row_entry _ _ _ _ _ _ hs hl xl) as (k2 & o2 & v2 & ho2 & ent2 & st2).
      exists y, o1. split; [exact uy|]. split; [exact ho1|]. assert (SI : oc_info o1 = oc_info o). { apply hn; [exact ho1|]. rewrite (ent_id _ _ _ _ _ _ ent1), (ent_id _ _ _ _ _ _ ent2) in idy. apply waveform_id_inj in idy. destruct sx as (x1 & x2 & _), st2 as (x3 & x4 & _). rewrite <- x1, <- x2, x3, x4. exact idy. }
      split; [exact SI|]. split; [rewrite <- SI; apply (acq_row_info _ _ _ _ _ _ _ _ ho ht ho1 ent1 ya)|eauto]. }
    destruct (REP e oc v he hoc se ne) as (y1 & o1 & a1 & a2 & a3 & a4 & (k1 & z1 & a5)). destruct (REP f od w hf hod sf nf) as (y2 & o2 & b1 & b2 & b3 & b4 & (k2 & z2 & b5)).
    pose proof (UN y1 y2 _ _ a1 b1 a4 b4 ec) as id.
    assert (y1 = y2) by (eapply dd_unique; eauto). subst y2. congruence.
  - intros n hn hno. rewrite r5. apply (g_rest _ _ _ _ G n hn). intros c hcn. rewrite g2 in hcn. apply in_map_iff in hcn. destruct hcn as (i & <- & hi). assert (EX : exists x, In x (drop_duplicates [] acqs) /\ acq_info ops x = Some i). { assert (In (Some i) (map (acq_info ops) (drop_duplicates [] acqs))) by (rewrite g1; now apply in_map). apply in_map_iff in H. destruct H as (x & hx1 & hx2). eauto. }
    destruct EX as (x & hx & hxi). apply dd_in in hx. destruct (STANDS x hx) as (oc & v & a1 & a2). destruct (INFO x oc v hx a1 a2) as [b1 _]. rewrite hxi in b1. injection b1 as ->. apply (hno x oc v hx a1 a2). Qed.
