(** C48: the waveform played for a row is its own. *)
From Verif Require Import Base NumericModel NumericProps ZiModel ZiSpec ZiProps ZiProps2 ZiProps3 ZiClock ZiTable ZiTable2 ZiCorr ZiShift ZiThms1 ZiCompile ZiThms2 ZiIds.
From Coq Require Import Permutation.
Open Scope Z_scope.

Lemma zget_in {A} (d : list (Z * A)) k v : zget d k = Some v -> In (k, v) d.
Proof. induction d as [|[k' v'] d IH]; cbn [zget]; [discriminate|]. destruct (Z.eqb_spec k k') as [->|_]; [intros [= ->]; now left|right; auto]. Qed.
Lemma occurrence_of s oc : In oc (occurrences s) -> exists h, In (h, oc_operation oc) (s_operations s) /\ (nth_error (o_pulses (oc_operation oc)) (oc_index oc) = Some (oc_info oc) \/ nth_error (o_acqs (oc_operation oc)) (oc_index oc) = Some (oc_info oc)).
Proof. unfold occurrences. intros h. apply in_flat_map in h. destruct h as ([hh a] & _ & h). destruct a as [t|]; [|destruct h]. destruct (zget (s_operations s) hh) as [o|] eqn:e; [|destruct h]. exists hh. unfold occurrences_of in h. apply in_app_or in h.
  destruct h as [h|h]; apply in_map_iff in h; destruct h as ([n i] & <- & h); apply combine_seq_in in h; destruct h as [_ h]; rewrite Nat.sub_0_r in h; cbn; (split; [eapply zget_in; eauto|]); auto. Qed.
Lemma distinct_nodup l : distinct l = true -> NoDup l.
Proof. induction l as [|x l IH]; cbn; [constructor|]. intros h. apply andb_true_iff in h. destruct h as [h1 h2]. constructor; [|auto]. intros hi. apply str_in_spec in hi. rewrite hi in h1. discriminate. Qed.
Lemma by_str s ops : operations_by_str s = Ok ops -> forall h o, In (h, o) (s_operations s) -> sget ops (o_str o) = Some o.
Proof. unfold operations_by_str. cbn zeta. destruct (distinct _) eqn:e; [|discriminate]. intros [= <-] h o hi. apply distinct_nodup in e. revert e hi. induction (s_operations s) as [|[h' o'] l IH]; intros nd hi; [destruct hi|]. cbn [map fst] in nd. inversion nd as [|? ? n1 n2]; subst. cbn [map sget]. destruct hi as [hi|hi].
  - injection hi as -> ->. now rewrite String.eqb_refl.
  - destruct (String.eqb_spec (o_str o) (o_str o')) as [q|_]; [|auto]. exfalso. apply n1. rewrite <- q. rewrite map_map. apply in_map_iff. exists (h, o). auto. Qed.
Lemma row_entry srt s devs lat l e : sorts srt -> corrected_table srt s devs lat = Ok l -> In e l -> exists k oc v, In oc (occurrences s) /\ ent devs lat ((k, oc), v) e /\ stands_for devs lat oc v e.
Proof. intros hs h he. destruct (ok_corrected _ _ _ _ _ hs h) as (los & shift & e0 & (p & _) & _ & _ & keys & f). apply In_nth_error in he. destruct he as (i & hi). destruct (forall2_nth_r _ _ _ f i e hi) as ([[k oc] v] & hx & q). apply combine_nth in hx. cbn [fst snd] in hx. destruct hx as [hx _]. exists k, oc, v. split; [|split; [exact q|apply (ent_stands devs lat _ _ keys q)]].
  apply nth_error_In in hx. apply Permutation_sym in p. apply (Permutation_in _ p), combine_seq_in in hx. eapply nth_error_In. apply hx. Qed.
Lemma ent_id devs lat k oc v e : ent devs lat ((k, oc), v) e -> e_id e = waveform_id (piece_name (o_str (oc_operation oc)) (oc_index oc)) (option_map snd (e_start e)).
Proof. intros (q1 & _ & _ & q4). rewrite q4, q1. reflexivity. Qed.

Lemma find_device_in devs nm d : find_device devs nm = Some d -> In d devs /\ d_name d = nm.
Proof. induction devs as [|x devs IH]; cbn [find_device]; [discriminate|]. destruct (find_device devs nm) as [d'|]; [intros [= ->]; destruct (IH eq_refl); split; [now right|auto]|]. destruct (String.eqb_spec (d_name x) nm) as [q|]; [intros [= ->]; split; [now left|exact q]|discriminate]. Qed.
Lemma find_channel_in d m : find_channel d m <> None <-> exists o, In (m, o) (d_channels d).
Proof. unfold find_channel. split.
  - destruct (find (fun c => Nat.eqb (fst c) m) (d_channels d)) as [[m' o]|] eqn:e; [|intros h; contradiction]. intros _. apply find_some in e. destruct e as [e1 e2]. cbn in e2. apply Nat.eqb_eq in e2. subst. eauto.
  - intros (o & h). destruct (find (fun c => Nat.eqb (fst c) m) (d_channels d)) as [[m' o']|] eqn:e; [discriminate|]. pose proof (find_none _ _ e _ h) as q. cbn in q. rewrite Nat.eqb_refl in q. discriminate. Qed.
Lemma find_channel_some d m o : find_channel d m = Some o -> In (m, o) (d_channels d).
Proof. unfold find_channel. destruct (find (fun c => Nat.eqb (fst c) m) (d_channels d)) as [[m' o']|] eqn:e; [|discriminate]. intros [= ->]. apply find_some in e. destruct e as [e1 e2]. cbn in e2. apply Nat.eqb_eq in e2. now subst. Qed.
Lemma channel_list_nth d n o : (n < 4)%nat -> (forall m, (m <= n)%nat -> exists o', In (m, o') (d_channels d)) -> nth_error (channel_list d) n = Some o -> In (n, o) (d_channels d).
Proof. intros hn hm h. unfold channel_list in h. cbn [flat_map] in h. assert (S : forall m, (m <= n)%nat -> exists o', find_channel d m = Some o') by (intros m hl; destruct (find_channel d m) eqn:e; [eauto|exfalso; eapply (find_channel_in d m); [apply hm, hl|exact e]]).
  apply find_channel_some. destruct n as [|[|[|[|n]]]]; [| | | |lia].
  - destruct (S 0%nat) as (o0 & e0); [lia|]. rewrite e0 in *. cbn in h. exact h.
  - destruct (S 0%nat) as (o0 & e0); [lia|]. destruct (S 1%nat) as (o1 & e1); [lia|]. rewrite e0, e1 in *. cbn in h. exact h.
  - destruct (S 0%nat) as (o0 & e0); [lia|]. destruct (S 1%nat) as (o1 & e1); [lia|]. destruct (S 2%nat) as (o2 & e2); [lia|]. rewrite e0, e1, e2 in *. cbn in h. exact h.
  - destruct (S 0%nat) as (o0 & e0); [lia|]. destruct (S 1%nat) as (o1 & e1); [lia|]. destruct (S 2%nat) as (o2 & e2); [lia|]. destruct (S 3%nat) as (o3 & e3); [lia|]. rewrite e0, e1, e2, e3 in *. cbn in h. exact h. Qed.

(** what the waveform table holds for a row *)
Lemma table_own srt s devs lat l ops wf e ch w : sorts srt -> corrected_table srt s devs lat = Ok l -> operations_by_str s = Ok ops -> waveform_table l ops devs = Ok wf -> tidy s -> numbered devs -> In e l -> e_channel e = Some ch -> last_get wf (e_id e) = Some w ->
  forall k oc v, In oc (occurrences s) -> ent devs lat ((k, oc), v) e -> same_named s oc -> own_wave devs oc ch w.
Proof. intros hs hl ho hw ht [hnd hnum] he hc hlg k oc v hoc hent hsn.
  destruct (dd_first l [] e he (fun x => x)) as (e1 & f1 & _ & id1). destruct (first_with_id _ _ _ f1) as [_ in1].
  destruct (row_entry _ _ _ _ _ _ hs hl in1) as (k1 & od & v1 & hod & ent1 & _).
  assert (SI : oc_info od = oc_info oc). { apply hsn; [exact hod|]. rewrite (ent_id _ _ _ _ _ _ ent1), (ent_id _ _ _ _ _ _ hent) in id1. apply waveform_id_inj in id1. exact id1. }
  destruct hent as (q1 & q2 & q3 & q4), ent1 as (p1 & p2 & p3 & p4). cbn [fst snd] in *.
  assert (CH : e_channel e1 = Some ch). { unfold channel_of in p2, q2. change (r_port (row_of lat k1 od)) with (i_port (oc_info od)) in p2. change (r_clock (row_of lat k1 od)) with (i_clock (oc_info od)) in p2. change (r_port (row_of lat k oc)) with (i_port (oc_info oc)) in q2. change (r_clock (row_of lat k oc)) with (i_clock (oc_info oc)) in q2. rewrite SI, q2 in p2. injection p2 as p2. congruence. }
  assert (CON : exists p c, i_port (oc_info oc) = Some p /\ i_clock (oc_info oc) = Some c /\ connected devs p c ch). { unfold channel_of in q2. change (r_port (row_of lat k oc)) with (i_port (oc_info oc)) in q2. change (r_clock (row_of lat k oc)) with (i_clock (oc_info oc)) in q2. rewrite hc in q2. destruct (i_port (oc_info oc)) as [p|]; [|discriminate]. destruct (i_clock (oc_info oc)) as [c|]; [|discriminate]. destruct (last_get (port_clock_map devs) (p ++ "-" ++ c)) as [ch'|] eqn:lg; [|discriminate]. injection q2 as ->. exists p, c. split; [reflexivity|]. split; [reflexivity|]. now apply connected_map. }
  destruct CON as (p & c & ip & ic & con).
  assert (HP : has_port e1 = true). { unfold has_port. rewrite p1. cbn [retime r_port]. unfold retime. cbn [r_port row_of]. rewrite SI, ip. reflexivity. }
  destruct (waveform_table_get l ops devs wf hw e e1 he f1 HP) as (ow & w1 & w2). rewrite hlg in w2. subst ow. unfold wave_of in w1. rewrite CH in w1. destruct ch as [nm n]. destruct (find_device devs nm) as [d|] eqn:fd; [|discriminate]. apply find_device_in in fd. destruct fd as [fd1 fd2]. destruct (nth_error (channel_list d) n) as [o|] eqn:no; [|discriminate]. apply bind_Ok in w1. destruct w1 as (i & hi & w1).
  assert (II : i = oc_info oc /\ r_is_acq (e_row e1) = i_is_acq (oc_info oc) /\ r_duration (e_row e1) = i_duration (oc_info oc)).
  { unfold entry_info in hi. rewrite p1 in *. cbn [retime row_of r_operation r_is_acq r_wf_idx r_duration] in *. unfold retime in *. cbn [row_of r_operation r_is_acq r_wf_idx r_duration] in *. rewrite SI. split; [|auto]. destruct (occurrence_of s od hod) as (h & hop & hnth). rewrite (by_str _ _ ho h _ hop) in hi. destruct (ht h _ hop) as [t1 t2]. rewrite Forall_forall in t1, t2. rewrite SI in *. destruct hnth as [hnth|hnth].
    - rewrite (t1 _ (nth_error_In _ _ hnth)), hnth in hi. congruence.
    - rewrite (t2 _ (nth_error_In _ _ hnth)), hnth in hi. congruence. }
  destruct II as (-> & ia & idur). rewrite ia, idur in w1. exists d, o. split; [exact fd1|]. split; [exact fd2|]. split.
  - destruct con as (devs1 & d' & devs2 & cs1 & o' & cs2 & ed & ec & en & _). cbn [fst snd] in *. assert (d' = d). { assert (IN' : In d' devs) by (rewrite ed; apply in_or_app; right; now left). assert (EQ : d_name d' = d_name d) by congruence. clear -hnd fd1 EQ IN'. induction devs as [|x devs IH]; [destruct fd1|]. cbn in hnd. inversion hnd as [|? ? n1 n2]; subst. destruct fd1 as [->|fd1], IN' as [->|IN']; auto; exfalso; apply n1; [rewrite <- EQ|rewrite EQ]; now apply in_map. }
    subst d'. destruct (hnum d n o' fd1) as [n4 nm']; [rewrite ec; apply in_or_app; right; now left|]. apply channel_list_nth; auto.
  - destruct (_ && _) in w1; [discriminate|]. destruct (out_modulate o); [discriminate|]. destruct (_ && _) in w1; [discriminate|]. injection w1 as <-. reflexivity. Qed.
Lemma unmistakable_named s ops oc : operations_by_str s = Ok ops -> In oc (occurrences s) -> unmistakable oc -> same_named s oc.
Proof. intros ho hoc [u1 u2] od hod e. symmetry in e. apply piece_strip_inj in e; [|intros (x & y & q); apply u1; exists x, y; exact q]. destruct e as [e1 e2]. destruct (occurrence_of s oc hoc) as (h & hop & hn). destruct (occurrence_of s od hod) as (h' & hop' & hn'). pose proof (by_str _ _ ho _ _ hop) as b1. pose proof (by_str _ _ ho _ _ hop') as b2. rewrite e1, b2 in b1. injection b1 as b1. rewrite b1, <- e2 in hn'. destruct u2 as [u2|u2]; rewrite u2 in *; destruct hn, hn'; congruence. Qed.

(** On an AWG of an HDAWG: the waveform played for a row is the one its occurrence asks for. *)
Theorem C48_hdawg srt s devs lat cfg : sorts srt -> compile srt s devs lat = Ok cfg -> tidy s -> numbered devs -> forall d awgs a, configured cfg devs d (HdawgConfig awgs) -> In a awgs -> exists l, corrected_table srt s devs lat = Ok l /\
  forall j e, nth_error (rows_on (d_name d, a_index a) l) j = Some e -> exists oc v w, In oc (occurrences s) /\ stands_for devs lat oc v e /\
    nth_error (fst (run Hdawg (effect (d_name d) a) 0 (p_body (a_program a)))) j = Some (start_clock e, Plays w) /\ (same_named s oc \/ unmistakable oc -> own_wave devs oc (d_name d, a_index a) w).
Proof. intros hs h ht hnum d awgs a hc hi. destruct (configured_inv _ _ _ _ _ _ _ h hc) as (l & ops & wf & hl & ho & hw & hk & ha). exists l. split; [exact hl|]. intros j e hj. destruct (hdawg_awg _ _ _ _ _ _ ha (table_started _ _ _ _ _ hs hl) hi) as (o & h1 & h2). cbn zeta in h2. destruct h2 as (r1 & _ & _ & _ & _ & _ & _ & _ & r9).
  pose proof (nth_error_In _ _ hj) as hm. destruct (r9 e hm) as (w & hw'). unfold rows_on in hm. apply filter_In in hm. destruct hm as [he hch]. destruct (row_entry _ _ _ _ _ _ hs hl he) as (k & oc & v & hoc & hent & hst). exists oc, v, w. split; [exact hoc|]. split; [exact hst|]. split; [rewrite r1, (map_nth_error _ _ _ hj), hw'; reflexivity|]. intros hsn.
  destruct (e_channel e) as [ch|] eqn:ec; [|discriminate]. apply andb_true_iff in hch. destruct hch as [c1 c2]. apply String.eqb_eq in c1. apply Nat.eqb_eq in c2. assert (ch = (d_name d, a_index a)) by (destruct ch; cbn in *; congruence). subst ch. eapply table_own; eauto. destruct hsn as [hsn|hsn]; [exact hsn|eapply unmistakable_named; eauto]. Qed.
(** On a UHFQA the same holds for every pulse for which there is a waveform at all. *)
Theorem C48_uhfqa srt s devs lat cfg : sorts srt -> compile srt s devs lat = Ok cfg -> tidy s -> numbered devs -> forall d a q, configured cfg devs d (UhfqaConfig a q) -> exists l, corrected_table srt s devs lat = Ok l /\
  forall j e, nth_error (rows_on (d_name d, 0%nat) l) j = Some e -> r_is_acq (e_row e) = false -> exists oc v, In oc (occurrences s) /\ stands_for devs lat oc v e /\
    (same_named s oc \/ unmistakable oc -> exists w, nth_error (fst (run Uhfqa (effect (d_name d) a) 0 (p_body (a_program a)))) j = Some (start_clock e, Plays w) /\ own_wave devs oc (d_name d, 0%nat) w).
Proof. intros hs h ht hnum d a q hc. destruct (configured_inv _ _ _ _ _ _ _ h hc) as (l & ops & wf & hl & ho & hw & hk & bm & _ & ha). exists l. split; [exact hl|]. intros j e hj hna. destruct (uhfqa_awg _ _ _ _ _ _ _ _ ha (table_started _ _ _ _ _ hs hl)) as (r1 & _).
  pose proof (nth_error_In _ _ hj) as hm. unfold rows_on in hm. apply filter_In in hm. destruct hm as [he hch]. destruct (row_entry _ _ _ _ _ _ hs hl he) as (k & oc & v & hoc & hent & hst). exists oc, v. split; [exact hoc|]. split; [exact hst|]. intros hsn.
  assert (HSN : same_named s oc) by (destruct hsn as [hsn|hsn]; [exact hsn|eapply unmistakable_named; eauto]).
  destruct (e_channel e) as [ch|] eqn:ec; [|discriminate]. apply andb_true_iff in hch. destruct hch as [c1 c2]. apply String.eqb_eq in c1. apply Nat.eqb_eq in c2. assert (ch = (d_name d, 0%nat)) by (destruct ch; cbn in *; congruence). subst ch.
  assert (W : exists w, last_get wf (e_id e) = Some w).
  { destruct (dd_first l [] e he (fun x => x)) as (e1 & f1 & _ & id1). destruct (first_with_id _ _ _ f1) as [_ in1]. destruct (row_entry _ _ _ _ _ _ hs hl in1) as (k1 & od & v1 & hod & ent1 & _).
    assert (SI : oc_info od = oc_info oc). { apply HSN; [exact hod|]. rewrite (ent_id _ _ _ _ _ _ ent1), (ent_id _ _ _ _ _ _ hent) in id1. apply waveform_id_inj in id1. exact id1. }
    destruct hent as (q1 & q2 & q3 & q4), ent1 as (p1 & p2 & p3 & p4). cbn [fst snd] in *.
    assert (NA : r_is_acq (e_row e1) = false). { rewrite p1. rewrite q1 in hna. cbn [retime row_of r_is_acq] in *. unfold retime in *. cbn [row_of r_is_acq] in *. rewrite SI. exact hna. }
    assert (HP : has_port e1 = true). { unfold has_port. rewrite p1. cbn zeta. unfold retime. cbn [r_port row_of]. rewrite SI. unfold channel_of in q2. change (r_port (row_of lat k oc)) with (i_port (oc_info oc)) in q2. destruct (i_port (oc_info oc)); [reflexivity|]. rewrite ec in q2. discriminate. }
    destruct (waveform_table_get l ops devs wf hw e e1 he f1 HP) as (ow & w1 & w2). rewrite w2. destruct ow as [w|]; [eauto|]. exfalso. unfold wave_of in w1. destruct (e_channel e1) as [[nm n]|]; [|discriminate]. destruct (find_device devs nm); [|discriminate]. destruct (nth_error _ n); [|discriminate]. apply bind_Ok in w1. destruct w1 as (i & _ & w1). rewrite NA in w1. cbn [andb] in w1. destruct (out_modulate _); discriminate. }
  destruct W as (w & hw'). exists w. split; [rewrite r1, (map_nth_error _ _ _ hj), hna, hw'; reflexivity|]. eapply table_own; eauto. Qed.
