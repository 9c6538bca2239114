(** C43: sequencers are given to port-clock combinations according to the wiring. *)
From Verif Require Import Base CircModel CircProps CircProps5 PathModel PathStr PathSpec PathProps PathProps2 PathProps3.
From Coq Require Import Ascii DecimalString Lia Permutation.
Open Scope string_scope.
Open Scope list_scope.
Open Scope Z_scope.

(** where a configured sequencer comes from *)
Lemma given_inv hw E opts used res cl i s : WfHw hw -> assign_sequencers hw E opts used = Ok res -> Given res cl i s ->
  exists st mods kd p a, all_paths hw E used = Ok st /\ Clean st /\ Shape st /\ In (cl, HCluster mods) hw /\ In (i, kd) mods /\ In (q_pc s, p) (paths_of st (pcs st) cl) /\ p_idx p = i /\ validate kd p = Ok tt /\
    In (q_idx s, a) (allowed kd) /\ fits p a = true /\ q_ch s = p_ch p /\ q_meas s = p_meas p /\ q_lo s = get (lo_map (on i (paths_of st (los st) cl))) (p_ch p) /\
    q_opts s = options_of (restrict_options (restrict_options opts (paths_of st (pcs st) cl)) (on i (paths_of st (pcs st) cl))) (q_pc s) /\ exists x y, split_on "-" (q_pc s) = [x; y].
Proof. intros wf h (ms & ss & g1 & g2 & g3). destruct (top_spec _ _ _ _ _ wf h) as (st & t1 & t2 & t3 & t4 & _). destruct (t4 _ _ g1) as (mods & hm & e). pose proof (paths_nodup st (pcs st) cl (proj1 t2)) as nd.
  destruct (cluster_spec _ _ _ _ _ nd e) as (_ & k2 & _). destruct (k2 _ _ g2) as (kd & hk & e1 & hv). apply cfgs_spec in e1 as (_ & _ & _ & f); [|apply filter_nodup; exact nd]. rewrite Forall_forall in f. destruct (f _ g3) as (p & a & f1 & f2 & f3 & f4 & f5 & f6 & f7 & f8).
  exists st, mods, kd, p, a. pose proof f1 as f1'. apply on_in in f1 as (f1 & fi). apply clusters_in in hm. repeat (split; [eauto; fail|]). eauto. Qed.

Lemma pick (f : string -> bool) (l tgt : list string) x : In x l -> f x = true -> forallb (fun y => negb (f y) || memb y tgt) l = true -> In x tgt.
Proof. intros h1 h2 h3. rewrite forallb_forall in h3. specialize (h3 _ h1). rewrite h2 in h3. now apply memb_in. Qed.

(** Every configured sequencer belongs to a used port-clock; the module is in the slot of the wiring and described as a module of type [k]; all channels of the sequencer are wired to the port and this sequencer of such a module can be connected to them. *)
Theorem C43_wired : forall hw E opts used res cl i s, WfHw hw -> assign_sequencers hw E opts used = Ok res -> Given res cl i s ->
  exists port clock m mods k, In (port, clock) used /\ For s port clock /\ Lacks "-" port /\ Lacks "-" clock /\ In (cl, HCluster mods) hw /\ In (i, k) mods /\ Slot m i /\
    (forall ch, Uses s ch -> Wired hw E port cl m ch) /\ Connectable k s.
Proof. intros hw E opts used res cl i s wf h g. destruct (given_inv _ _ _ _ _ _ _ _ wf h g) as (st & mods & kd & p & a & h1 & h2 & h3 & h4 & h5 & h6 & h7 & h8 & h9 & h10 & h11 & h12 & _ & _ & x & y & hs).
  destruct (all_paths_inv _ _ _ _ (clusters_nodup _ (proj1 wf)) h1 h2) as (own & _ & _ & (i3a & i3 & _) & i4 & _). destruct (paths_in _ _ _ _ _ h6 (proj1 h3)) as (l & e1 & e2). destruct (i4 _ _ _ e1) as (p' & port & xx & clock & e3 & e4 & e5 & e6 & e7).
  rewrite e2 in e3. inversion e3; subst p'; clear e3. rewrite e7 in hs. destruct (key_split _ _ _ _ hs) as (_ & _ & d1 & d2). destruct (i3 _ _ _ _ e2 e4) as (w1 & w2). exists port, clock, (p_mod p), mods, kd. rewrite !lacks_absent.
  split; [exact e6|]. split; [exact e7|]. split; [exact d1|]. split; [exact d2|]. split; [exact h4|]. split; [exact h5|]. split; [subst i; now apply slot_of|]. split; [|exact (fits_connectable _ _ _ _ h9 h10 h11 h12)].
  intros ch hc. rewrite <- e5. apply w1. unfold Uses in hc. now rewrite h11, h12 in hc. Qed.

(** Two sequencers of one module differ in their number and in their port-clock. *)
Theorem C43_distinct : forall hw E opts used res cl i s s', WfHw hw -> assign_sequencers hw E opts used = Ok res -> Given res cl i s -> Given res cl i s' ->
  q_idx s = q_idx s' \/ q_pc s = q_pc s' -> s = s'.
Proof. intros hw E opts used res cl i s s' wf h (ms & ss & g1 & g2 & g3) (ms' & ss' & g1' & g2' & g3') e. destruct (top_spec _ _ _ _ _ wf h) as (st & t1 & t2 & t3 & t4 & _ & t6).
  assert (ms' = ms) by (pose proof (in_get _ _ _ t6 g1); pose proof (in_get _ _ _ t6 g1'); congruence). subst ms'. destruct (t4 _ _ g1) as (mods & hm & e0). pose proof (paths_nodup st (pcs st) cl (proj1 t2)) as nd.
  destruct (cluster_spec _ _ _ _ _ nd e0) as (_ & k2 & k3). apply clusters_in in hm. specialize (k3 (proj2 wf _ _ hm)).
  assert (ss' = ss). { clear - k3 g2 g2'. induction ms as [|(j, x) ms IH]; [destruct g2|]. cbn in k3. inversion k3; subst. destruct g2 as [q|q], g2' as [q'|q'].
    - congruence.
    - exfalso. inversion q; subst. apply H1. apply in_map_iff. now exists (i, ss').
    - exfalso. inversion q'; subst. apply H1. apply in_map_iff. now exists (i, ss).
    - auto. }
  subst ss'. destruct (k2 _ _ g2) as (kd & _ & e1 & _). apply cfgs_spec in e1 as (_ & n1 & n2 & _); [|apply filter_nodup; exact nd].
  assert (G : forall {B} (f : seqcfg -> B), NoDup (map f ss) -> f s = f s' -> s = s').
  { intros B f n ef. clear - g3 g3' n ef. induction ss as [|z ss IH]; [destruct g3|]. cbn in n. inversion n; subst. destruct g3 as [->|g3], g3' as [->|g3']; auto; exfalso; apply H1; [rewrite ef|rewrite <- ef]; now apply in_map. }
  destruct e as [e|e]; [now apply (G _ q_idx)|now apply (G _ q_pc)]. Qed.

(** A sequencer with additional input channels is on a readout module, with an analog output. *)
Theorem C43_measure : forall hw E opts used res cl i s l, WfHw hw -> assign_sequencers hw E opts used = Ok res -> Given res cl i s -> q_meas s = Some l ->
  exists mods k, In (cl, HCluster mods) hw /\ In (i, k) mods /\ (k = QRM \/ k = QRM_RF \/ k = QRC) /\ (one_of "complex_output_" 0 6 (q_ch s) \/ one_of "real_output_" 0 2 (q_ch s)) /\
    (k = QRM -> (exists c, l = [c]) \/ (List.length l = 2%nat /\ In "real_input_0" l /\ In "real_input_1" l)).
Proof. intros hw E opts used res cl i s l wf h g hl. destruct (given_inv _ _ _ _ _ _ _ _ wf h g) as (st & mods & kd & p & a & h1 & h2 & h3 & h4 & h5 & h6 & h7 & h8 & h9 & h10 & h11 & h12 & _).
  exists mods, kd. split; auto. split; auto. destruct (fits_connectable _ _ _ _ h9 h10 h11 h12) as (_ & c). rewrite hl in c. destruct c as (c & _). rewrite hl in h12. unfold validate in h8. rewrite <- h12, <- h11 in h8.
  apply outs_spec in c. destruct kd; try discriminate.
  - split; [auto|]. split.
    + assert (X : contains "complex_output" (q_ch s) || contains "real_output" (q_ch s) = true).
      { destruct (contains "complex_output" (q_ch s) || contains "real_output" (q_ch s)); auto. destruct l as [|? [|? [|]]]; cbn in h8; discriminate. }
      rewrite !one_of_in, <- in_app_iff. apply (pick (fun x => contains "complex_output" x || contains "real_output" x) _ _ _ c X). vm_compute; reflexivity.
    + intros _. destruct l as [|m [|m' [|]]]; try discriminate; [eauto|]. right. split; auto. destruct (contains "complex_output" (q_ch s) || contains "real_output" (q_ch s)); [|discriminate]. cbn [negb orb] in h8. destruct (memb "real_input_0" [m; m']) eqn:A; [|discriminate]. destruct (memb "real_input_1" [m; m']) eqn:B; [|discriminate]. apply memb_in in A, B. auto.
  - split; [auto|]. split; [|discriminate]. rewrite !one_of_in, <- in_app_iff. destruct (contains "complex_output" (q_ch s)) eqn:X; [|discriminate].
    apply (pick (contains "complex_output") _ _ _ c X). vm_compute; reflexivity.
  - split; [auto|]. split; [|discriminate]. rewrite !one_of_in. left. clear - c h8. destruct (contains "complex" (q_ch s)) eqn:X; [|discriminate]. cbn [outs] in c. apply in_app_or in c as [c|c].
    { apply (pick (contains "complex") _ _ _ c X). vm_compute; reflexivity. }
    destruct (q_idx s <? 8); [|apply one_of_in in c; apply one_of_in; destruct c as (n & hn & e); exists n; split; [lia|auto]].
    apply in_app_or in c as [c|[c|[]]]; [apply one_of_in in c; apply one_of_in; destruct c as (n & hn & e); exists n; split; [lia|auto]|]. apply one_of_in. rewrite <- c. eexists; split; [|reflexivity]. pose proof (Z.mod_pos_bound (q_idx s) 4). lia. Qed.

(** A sequencer has the hardware options given for its port-clock, and no others. *)
Theorem C43_options : forall hw E opts used res cl i s o, WfHw hw -> NoDup (map fst opts) -> assign_sequencers hw E opts used = Ok res -> Given res cl i s ->
  get (q_opts s) o = match get opts o with Some vals => get vals (q_pc s) | None => None end.
Proof. intros hw E opts used res cl i s o wf nd h g. destruct (given_inv _ _ _ _ _ _ _ _ wf h g) as (st & mods & kd & p & a & h1 & h2 & h3 & h4 & h5 & h6 & h7 & h8 & h9 & h10 & h11 & h12 & _ & h13 & _). rewrite h13. clear h13.
  assert (R : forall (ps : dict path) q, In (q_pc s, q) ps -> has ps (q_pc s) = true). { intros ps q hq. unfold has. destruct (get ps (q_pc s)) eqn:D; auto. exfalso. clear - hq D. induction ps as [|(k, v) ps IH]; [destruct hq|]. cbn [get] in D. destruct (String.eqb_spec k (q_pc s)); [discriminate|]. destruct hq as [e|hq]; [inversion e; congruence|auto]. }
  pose proof (R _ _ h6) as r1. assert (r2 : has (on i (paths_of st (pcs st) cl)) (q_pc s) = true) by (apply (R _ p); now apply on_in). clear - nd r1 r2. set (A := paths_of st (pcs st) cl) in *. set (B := on i A) in *. clearbody A B.
  unfold restrict_options. rewrite map_map. induction opts as [|(o', v) opts IH]; cbn; auto. inversion nd; subst. rewrite !get_filter, r1, r2. unfold options_of in *. destruct (get v (q_pc s)) as [z|] eqn:D.
  - cbn. destruct (String.eqb_spec o' o); [auto|]. now apply IH.
  - destruct (String.eqb_spec o' o) as [->|]; [|now apply IH]. cbn [app]. rewrite D. etransitivity; [exact (IH H2)|]. destruct (get opts o) eqn:G; auto. apply get_in in G. exfalso. apply H1. apply in_map_iff. now exists (o, d). Qed.

(** If no port is wired both to channels and to mixers: the local oscillator of a sequencer is connected to a mixer that is connected to a used port and to the channel of the sequencer. *)
Theorem C43_lo : forall hw E opts used res cl i s lo, WfHw hw -> assign_sequencers hw E opts used = Ok res -> Given res cl i s -> q_lo s = Some lo ->
  (forall port clock x n, In (port, clock) used -> AtMixer hw E port x -> Edge E port n -> ~ OfCluster hw n) ->
  exists port clock x m t n, In (port, clock) used /\ AtMixer hw E port x /\ Slot m i /\ Behind hw E x cl m (q_ch s) /\ Terminal t x /\ Edge E t n /\ OfLO hw n lo.
Proof. intros hw E opts used res cl i s lo wf h g hl nomix. destruct (given_inv _ _ _ _ _ _ _ _ wf h g) as (st & mods & kd & p & a & h1 & h2 & h3 & h4 & h5 & h6 & h7 & h8 & h9 & h10 & h11 & h12 & h13 & _). rewrite hl in h13. symmetry in h13. apply lo_map_get in h13 as (q & hq & eq). apply on_in in hq as (hq & eqi).
  destruct (all_paths_inv _ _ _ _ (clusters_nodup _ (proj1 wf)) h1 h2) as (own & _ & _ & (i3a & i3 & i3c) & _ & i5). destruct (paths_in _ _ _ _ _ hq (proj2 h3)) as (l & e1 & e2). destruct (i5 _ _ _ e1) as (p' & port & xx & clock & e3 & e4 & e5 & e6 & t & n & e7 & e8 & e9).
  rewrite e2 in e3. inversion e3; subst p'; clear e3. destruct (i3c _ _ _ _ e2 e4) as (m1 & m2). destruct (i3 _ _ _ _ e2 e4) as (_ & w2). exists port, clock, xx, (p_mod q), t, n. split; [auto|]. split; [auto|]. split; [rewrite <- eqi; now apply slot_of|]. split; [|auto].
  destruct m2 as [(n' & d1 & d2)|(m2 & _)]; [exfalso; eapply nomix; eauto|]. rewrite h11, <- eq, <- e5. exact m2. Qed.
