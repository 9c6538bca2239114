(** C46: what the uploaded programs play, and when. *)
From Verif Require Import Base NumericModel NumericProps ZiModel ZiSpec ZiProps ZiProps2 ZiProps3 ZiClock ZiTable ZiTable2 ZiCorr ZiShift ZiThms1 ZiCompile.
From Coq Require Import Permutation Qfield.
Open Scope Z_scope.

Lemma configured_inv srt s devs lat cfg d c : compile srt s devs lat = Ok cfg -> configured cfg devs d c -> exists l ops wf, corrected_table srt s devs lat = Ok l /\ operations_by_str s = Ok ops /\ waveform_table l ops devs = Ok wf /\
    match c with
    | HdawgConfig awgs => (d_kind d = HDAWG8 \/ d_kind d = HDAWG4) /\ compile_hdawg d l wf (s_repetitions s) = Ok awgs
    | UhfqaConfig a q => d_kind d = UHFQA /\ exists bm, acquisition_bin_mode s = Ok bm /\ compile_uhfqa d l wf (s_repetitions s) ops bm = Ok (a, q)
    end.
Proof. intros h (i & h1 & h2). destruct (compile_inv _ _ _ _ _ h) as (l & ops & wf & hl & _ & ho & hw & _ & q). destruct (q i d h1) as (c' & h3 & _ & h4). rewrite h2 in h3. injection h3 as <-. exists l, ops, wf. auto. Qed.
Lemma table_nonempty srt s devs lat l : sorts srt -> corrected_table srt s devs lat = Ok l -> l <> [].
Proof. intros hs h. destruct (ok_corrected _ _ _ _ _ hs h) as (los & shift & e0 & (p & len & f & _) & _). unfold corrected_table in h. apply bind_Ok in h. destruct h as (t0 & h & _). unfold timing_table in h. apply bind_Ok in h. destruct h as (rows & hr & h). apply schedule_rows_occ in hr. intros ->. apply forall2_length in f. rewrite combine_length in f. cbn in f. apply Permutation_length in p. rewrite combine_length, seq_length in p. destruct rows; [discriminate|]. destruct (occurrences s); [discriminate|]. cbn in p. lia. Qed.

(** Every device gets a configuration, under its name. *)
Theorem C46_devices srt s devs lat cfg : compile srt s devs lat = Ok cfg -> List.length cfg = List.length devs /\ forall d, In d devs -> exists c, configured cfg devs d c.
Proof. intros h. destruct (compile_inv _ _ _ _ _ h) as (l & ops & wf & _ & _ & _ & _ & hl & q). split; [exact hl|]. intros d hd. apply In_nth_error in hd. destruct hd as (i & hi). destruct (q i d hi) as (c & hc & _). exists c, i. auto. Qed.

(** One repetition of the program of an AWG of an HDAWG plays the rows of its channel, one waveform each, in the order of the table and at their clock cycles; no acquisition among them; consecutive ones are at least 3 clock cycles apart. *)
Theorem C46_hdawg srt s devs lat cfg : sorts srt -> compile srt s devs lat = Ok cfg -> forall d awgs a, configured cfg devs d (HdawgConfig awgs) -> In a awgs -> exists l, corrected_table srt s devs lat = Ok l /\
  let mine := rows_on (d_name d, a_index a) l in
  (exists waves, List.length waves = List.length mine /\ fst (run Hdawg (effect (d_name d) a) 0 (p_body (a_program a))) = combine (map start_clock mine) (map Plays waves))
  /\ well_formed (p_body (a_program a)) /\ p_repetitions (a_program a) = s_repetitions s /\ (forall e, In e mine -> r_is_acq (e_row e) = false)
  /\ exists o, nth_error (channel_list d) (a_index a) = Some o /\ three_apart (trigger_clocks o) (map start_clock mine).
Proof. intros hs h d awgs a hc hi. destruct (configured_inv _ _ _ _ _ _ _ h hc) as (l & ops & wf & hl & ho & hw & hk & ha). exists l. split; [exact hl|]. cbn zeta. destruct (hdawg_awg _ _ _ _ _ _ ha (table_started _ _ _ _ _ hs hl) hi) as (o & h1 & h2). cbn zeta in h2. destruct h2 as (r1 & r2 & r3 & r4 & r5 & r6 & r7 & r8 & r9).
  split; [|split; [exact r2|split; [exact r3|split; [exact r6|exists o; auto]]]]. rewrite r1. clear r1 r5 r7 r8. induction (rows_on (d_name d, a_index a) l) as [|e mine IH]; [exists []; auto|]. destruct IH as (ws & hl1 & hl2); [intros e' he; apply r6; now right|intros e' he; apply r9; now right|]. destruct (r9 e (or_introl eq_refl)) as (w & hw'). exists (w :: ws). split; [cbn; congruence|]. cbn [map combine]. rewrite hw'. f_equal. exact hl2. Qed.

(** The clock cycle of a row: the row starts at sample n of it, n = 0..7, up to 2e-4 samples (a waveform is always played from the beginning of the clock cycle, so up to 7 samples early and never late). *)
Theorem C46_clock srt s devs lat l e ch : sorts srt -> corrected_table srt s devs lat = Ok l -> In e l -> e_channel e = Some ch -> exists fs n, name_rate (fst ch) = Ok fs /\ 0 <= n <= 7 /\ (Qabs (r_time (e_row e) * inject_Z fs - inject_Z (8 * start_clock e + n)) <= 2 # 10000)%Q.
Proof. intros hs hl he hc. pose proof (table_started _ _ _ _ _ hs hl e he) as st. rewrite hc in st. destruct st as (k & x & h1 & h2). unfold start_clock. rewrite h1. destruct ch as [nm m]. destruct (clock_sample_sound _ _ _ _ _ h2) as (fs & n & q1 & q2 & q3 & q4 & _). exists fs, n. split; [exact q1|]. split; [exact q2|]. unfold near in q3. apply qabs_le in q3. apply qabs_le. rewrite inj_add, inj_mul. change (inject_Z 8) with 8%Q. assert (U : (inject_Z n <= 7)%Q) by (change 7%Q with (inject_Z 7); apply up_le; lia). split; lra. Qed.

(** Without a trigger input, one repetition takes the duration of the schedule in clock cycles of 1/300 MHz, rounded down, and the repetitions follow each other at that distance. *)
Theorem C46_repetitions srt s devs lat cfg : sorts srt -> compile srt s devs lat = Ok cfg -> forall d awgs a o, configured cfg devs d (HdawgConfig awgs) -> In a awgs -> nth_error (channel_list d) (a_index a) = Some o -> out_trigger o = None -> exists l dur t, corrected_table srt s devs lat = Ok l /\ is_end l dur /\
  (0 <= inject_Z t <= dur * 300000000)%Q /\ (dur * 300000000 < inject_Z t + 1)%Q /\ ends (trigger_clocks o) (map start_clock (rows_on (d_name d, a_index a) l)) + 4 <= t /\
  let once := fst (run Hdawg (effect (d_name d) a) 0 (p_body (a_program a))) in
  forall n, fst (run_repeat Hdawg (effect (d_name d) a) n 0 (p_body (a_program a))) = flat_map (fun r => later (Z.of_nat r * t) once) (seq 0 n) /\ snd (run_repeat Hdawg (effect (d_name d) a) n 0 (p_body (a_program a))) = Z.of_nat n * t.
Proof. intros hs h d awgs a o hc hi ho ht. destruct (configured_inv _ _ _ _ _ _ _ h hc) as (l & ops & wf & hl & _ & hw & hk & ha). exists l, (schedule_duration l), (py_int (schedule_duration l * 300000000)). split; [exact hl|]. split; [apply schedule_duration_end; eapply table_nonempty; eauto|].
  destruct (hdawg_awg _ _ _ _ _ _ ha (table_started _ _ _ _ _ hs hl) hi) as (o' & h1 & h2). cbn zeta in h2. destruct h2 as (r1 & r2 & r3 & r4 & r5 & r6 & r7 & r8 & r9). rewrite ho in h1. injection h1 as <-. destruct (r7 ht) as [r7a r7b].
  assert (E0 : 0 <= ends (trigger_clocks o) (map start_clock (rows_on (d_name d, a_index a) l))). { assert (T0 : 0 <= trigger_clocks o) by (unfold trigger_clocks; destruct (out_markers o); [destruct (out_trigger o)|]; lia). clear -r5 T0. revert r5 T0. generalize (trigger_clocks o). induction (map start_clock (rows_on (d_name d, a_index a) l)) as [|k ks IH]; intros t h h0; cbn in *; [exact h0|]. apply IH; [apply h|lia]. }
  set (T := py_int (schedule_duration l * 300000000)) in *. assert (T4 : 4 <= T) by lia. assert (FT : T = Qfloor (schedule_duration l * 300000000) /\ (0 <= schedule_duration l * 300000000)%Q).
  { unfold T, py_int in *. destruct (Qle_bool 0 (schedule_duration l * 300000000)) eqn:e; [apply Qle_bool_iff in e; auto|]. exfalso. assert (~ (0 <= schedule_duration l * 300000000)%Q) by (intros q; apply Qle_bool_iff in q; congruence). assert (Qceiling (schedule_duration l * 300000000) <= 0); [|lia]. replace 0 with (Qceiling 0) by reflexivity. apply Qceiling_resp_le. lra. }
  destruct FT as [FT FT0]. destruct (Qfloor_spec (schedule_duration l * 300000000)) as [f1 f2]. rewrite <- FT in f1, f2. split; [split; [change 0%Q with (inject_Z 0); apply up_le; lia|exact f1]|]. split; [lra|]. split; [exact r7b|]. intros once n. destruct (run_repeat_later Hdawg (effect (d_name d) a) (p_body (a_program a)) n 0) as [q1 q2]. rewrite r7a in *. split; [exact q1|lia]. Qed.

(** With grouping 0 and channels numbered without a gap, every AWG whose channel is configured and exists on the device gets a program. *)
Theorem C46_covered srt s devs lat cfg : compile srt s devs lat = Ok cfg -> forall d awgs n, configured cfg devs d (HdawgConfig awgs) -> d_grouping d = 0 -> (n < n_awgs d)%nat -> (forall m, (m <= n)%nat -> find_channel d m <> None) -> exists a, In a awgs /\ a_index a = n.
Proof. intros h d awgs n hc hg hn hch. destruct (configured_inv _ _ _ _ _ _ _ h hc) as (l & ops & wf & _ & _ & _ & hk & ha). unfold compile_hdawg in ha. apply bind_Ok in ha. destruct ha as (step & h1 & ha). assert (step = 1%nat) by (unfold sequencer_step in h1; rewrite hg in h1; destruct hk as [hk|hk]; rewrite hk in h1; congruence). subst step.
  assert (CL : (n < List.length (channel_list d))%nat). { assert (n < 4)%nat by (unfold n_awgs in hn; destruct hk as [hk|hk]; rewrite hk in hn; lia). unfold channel_list. cbn [flat_map]. destruct n as [|[|[|[|n]]]]; [| | | |lia]; repeat match goal with |- context [match find_channel d ?m with _ => _ end] => let E := fresh in destruct (find_channel d m) eqn:E; [|try (exfalso; apply (hch m); [lia|exact E])] end; cbn; lia. }
  assert (EN : In n (enabled_awgs d 1)). { unfold enabled_awgs. rewrite Nat.div_1_r. apply filter_In. split; [apply in_seq; lia|]. apply andb_true_iff. split; [apply Nat.ltb_lt; lia|apply Nat.eqb_eq; apply Nat.mod_1_r]. }
  apply In_nth_error in EN. destruct EN as (i & hi). destruct (mapM_nth _ _ _ ha) as [_ q]. destruct (q i n hi) as (a & ha1 & ha2). exists a. split; [eapply nth_error_In; eauto|]. cbn zeta in ha2. destruct (nth_error (channel_list d) n); [|discriminate]. apply bind_Ok in ha2. destruct ha2 as (pt & _ & e). injection e as <-. reflexivity. Qed.

(** The program of a UHFQA: it waits for one trigger per repetition, then plays and acquires the rows of its channel 0, in order and at their clock cycles after the trigger; nothing is scheduled within 7 clock cycles of the start of an acquisition. *)
Theorem C46_uhfqa srt s devs lat cfg : sorts srt -> compile srt s devs lat = Ok cfg -> forall d a q, configured cfg devs d (UhfqaConfig a q) -> exists l, corrected_table srt s devs lat = Ok l /\
  let mine := rows_on (d_name d, 0%nat) l in
  (exists evs, Forall2 (fun e v => (r_is_acq (e_row e) = true -> v = Acquires) /\ (r_is_acq (e_row e) = false -> v <> Acquires)) mine evs /\ fst (run Uhfqa (effect (d_name d) a) 0 (p_body (a_program a))) = combine (map start_clock mine) evs)
  /\ well_formed (p_body (a_program a)) /\ p_repetitions (a_program a) = s_repetitions s /\ qa_ready 0 (map (fun e => (r_is_acq (e_row e), start_clock e)) mine)
  /\ exists o t body, nth_error (channel_list d) 0 = Some o /\ out_trigger o = Some t /\ 1 <= t <= 4 /\ p_body (a_program a) = WaitDigTrigger t :: body /\ Forall (fun s => forall u, s <> WaitDigTrigger u) body.
Proof. intros hs h d a q hc. destruct (configured_inv _ _ _ _ _ _ _ h hc) as (l & ops & wf & hl & _ & hw & hk & bm & _ & ha). exists l. split; [exact hl|]. cbn zeta. destruct (uhfqa_awg _ _ _ _ _ _ _ _ ha (table_started _ _ _ _ _ hs hl)) as (r1 & r2 & r3 & r4 & r5 & r6 & r7). split; [|split; [exact r2|split; [exact r3|split; [exact r6|exact r7]]]].
  rewrite r1. clear. induction (rows_on (d_name d, 0%nat) l) as [|e mine (evs & IH1 & IH2)]; [exists []; split; [constructor|reflexivity]|]. eexists (_ :: evs). split; [constructor; [|exact IH1]|cbn [map combine]; f_equal; exact IH2]. destruct (r_is_acq (e_row e)); split; intros; try discriminate; try reflexivity. destruct (last_get wf (e_id e)); discriminate. Qed.
