(** From the corrected table to the programs. *)
From Verif Require Import Base NumericModel NumericProps ZiModel ZiSpec ZiProps ZiProps2 ZiProps3 ZiClock ZiTable ZiTable2 ZiCorr ZiShift ZiThms1.
From Coq Require Import Permutation Qfield.
Open Scope Z_scope.

Lemma rows_on_filter ch l : rows_on ch l = filter (on_channel ch) l. Proof. reflexivity. Qed.
Lemma mapM_nth {A B} (f : A -> result B) l : forall ys, mapM f l = Ok ys -> List.length ys = List.length l /\ forall i x, nth_error l i = Some x -> exists y, nth_error ys i = Some y /\ f x = Ok y.
Proof. induction l as [|x l IH]; intros ys h; [injection h as <-; split; [reflexivity|]; intros [|i] ? ?; discriminate|]. apply mapM_cons_inv in h. destruct h as (y & ys' & h1 & h2 & ->). destruct (IH _ h2) as [l1 l2]. split; [cbn; congruence|]. intros [|i] x' hx; cbn in *; [injection hx as <-; eauto|eauto]. Qed.
Lemma mapM_in_r {A B} (f : A -> result B) l : forall ys y, mapM f l = Ok ys -> In y ys -> exists x, In x l /\ f x = Ok y.
Proof. induction l as [|x l IH]; intros ys y h hi; [injection h as <-; destruct hi|]. apply mapM_cons_inv in h. destruct h as (y' & ys' & h1 & h2 & ->). destruct hi as [->|hi]; [exists x; split; [now left|exact h1]|]. destruct (IH _ _ h2 hi) as (x' & h3 & h4). exists x'. split; [now right|exact h4]. Qed.

Lemma compile_inv srt s devs lat cfg : compile srt s devs lat = Ok cfg -> exists l ops wf, corrected_table srt s devs lat = Ok l /\ ensure_no_overlap l = Ok tt /\ operations_by_str s = Ok ops /\ waveform_table l ops devs = Ok wf /\ List.length cfg = List.length devs /\
  forall i d, nth_error devs i = Some d -> exists c, nth_error cfg i = Some (d_name d, c) /\ parse_device d = Ok tt /\
    match c with
    | HdawgConfig awgs => (d_kind d = HDAWG8 \/ d_kind d = HDAWG4) /\ compile_hdawg d l wf (s_repetitions s) = Ok awgs
    | UhfqaConfig a q => d_kind d = UHFQA /\ exists bm, acquisition_bin_mode s = Ok bm /\ compile_uhfqa d l wf (s_repetitions s) ops bm = Ok (a, q)
    end.
Proof. unfold compile. intros h. apply bind_Ok in h. destruct h as (u & _ & h). apply bind_Ok in h. destruct h as (l & hl & h). apply bind_Ok in h. destruct h as ([] & ho & h). apply bind_Ok in h. destruct h as (us & hp & h). apply bind_Ok in h. destruct h as (ops & hops & h). apply bind_Ok in h. destruct h as (wf & hwf & h).
  exists l, ops, wf. do 4 (split; [assumption|]). destruct (mapM_nth _ _ _ h) as [h1 h2]. split; [exact h1|]. intros i d hd. destruct (h2 i d hd) as (y & hy & e). destruct (mapM_nth _ _ _ hp) as [_ h3]. destruct (h3 i d hd) as ([] & _ & hpd).
  destruct (d_kind d) eqn:ek.
  - apply bind_Ok in e. destruct e as (awgs & e1 & e2). injection e2 as <-. eauto 10.
  - apply bind_Ok in e. destruct e as (awgs & e1 & e2). injection e2 as <-. eauto 10.
  - apply bind_Ok in e. destruct e as (bm & e1 & e). apply bind_Ok in e. destruct e as ([a q] & e2 & e). injection e as <-. exists (UhfqaConfig a q). cbn [fst snd] in *. eauto 10.
  - discriminate. Qed.

(** every row of a channel has a start *)
Definition started (l : list entry) : Prop := forall e, In e l -> match e_channel e with None => e_start e = None | Some ch => exists k s, e_start e = Some (k, s) /\ clock_sample ch (r_time (e_row e)) = Ok (k, s) end.
Lemma table_started srt s devs lat l : sorts srt -> corrected_table srt s devs lat = Ok l -> started l.
Proof. intros hs h e he. destruct (ok_corrected _ _ _ _ _ hs h) as (los & shift & e0 & _ & _ & _ & _ & f). apply In_nth_error in he. destruct he as (i & hi). destruct (forall2_nth_r _ _ _ f i e hi) as (x & _ & (_ & _ & q & _)). unfold start_ok in q. destruct (e_channel e); exact q. Qed.
Definition instr (e : entry) : instruction := if r_is_acq (e_row e) then Acquisition (e_id e) (start_clock e) else Wave (e_id e) (start_clock e).
Lemma instructions_of l ch : started l -> flat_map instruction_of (rows_on ch l) = map instr (rows_on ch l).
Proof. intros h. apply flat_map_single. intros e he. unfold rows_on in he. apply filter_In in he. destruct he as [he hc]. specialize (h e he). unfold instruction_of, instr, start_clock. destruct (e_channel e); [|discriminate]. destruct h as (k & s & -> & _). reflexivity. Qed.
Lemma clock_instr e : clock_of (instr e) = start_clock e. Proof. unfold instr. now destruct (r_is_acq (e_row e)). Qed.
Lemma id_instr e : id_of (instr e) = e_id e. Proof. unfold instr. now destruct (r_is_acq (e_row e)). Qed.
Lemma spaced_three is_ : forall t, spaced t is_ <-> three_apart t (map clock_of is_).
Proof. induction is_ as [|i is_ IH]; intros t; cbn; [tauto|]. now rewrite IH. Qed.
Lemma last_ends l : forall t, last l t = ends t l.
Proof. induction l as [|x l IH]; intros t; [reflexivity|]. rewrite last_cons. apply IH. Qed.
Lemma clocks_instr l : map clock_of (map instr l) = map start_clock l.
Proof. rewrite map_map. apply map_ext, clock_instr. Qed.
Lemma enabled_lt d step n : In n (enabled_awgs d step) -> exists o, nth_error (channel_list d) n = Some o.
Proof. unfold enabled_awgs. intros h. apply filter_In in h. destruct h as [_ h]. apply andb_true_iff in h. destruct h as [h _]. apply Nat.ltb_lt in h. destruct (nth_error (channel_list d) n) eqn:e; [eauto|]. apply nth_error_None in e. lia. Qed.

Lemma hdawg_awg d l wf reps awgs a : compile_hdawg d l wf reps = Ok awgs -> started l -> In a awgs -> exists o, nth_error (channel_list d) (a_index a) = Some o /\
  let mine := rows_on (d_name d, a_index a) l in
  fst (run Hdawg (effect (d_name d) a) 0 (p_body (a_program a))) = map (fun e => (start_clock e, match last_get wf (e_id e) with Some w => Plays w | None => Undefined end)) mine
  /\ well_formed (p_body (a_program a)) /\ p_repetitions (a_program a) = reps /\ p_before (a_program a) = [SetTrigger (TriggerNumber 0)]
  /\ three_apart (trigger_clocks o) (map start_clock mine) /\ (forall e, In e mine -> r_is_acq (e_row e) = false)
  /\ (out_trigger o = None -> snd (run Hdawg (effect (d_name d) a) 0 (p_body (a_program a))) = py_int (schedule_duration l * 300000000) /\ ends (trigger_clocks o) (map start_clock mine) + 4 <= py_int (schedule_duration l * 300000000))
  /\ (out_trigger o <> None -> snd (run Hdawg (effect (d_name d) a) 0 (p_body (a_program a))) = ends (trigger_clocks o) (map start_clock mine) + 1)
  /\ (forall e, In e mine -> exists w, last_get wf (e_id e) = Some w).
Proof. intros h st hi. unfold compile_hdawg in h. apply bind_Ok in h. destruct h as (step & _ & h). destruct (mapM_in_r _ _ _ _ h hi) as (n & hn & e). cbn zeta in e. destruct (enabled_lt _ _ _ hn) as (o & ho). rewrite ho in e. apply bind_Ok in e. destruct e as ([p t] & hp & e). injection e as <-. cbn [fst snd] in *.
  cbn [a_index a_program]. exists o. split; [exact ho|]. cbn zeta. rewrite <- (rows_on_filter (d_name d, n) l) in *. set (mine := rows_on (d_name d, n) l) in *. assert (IN : flat_map instruction_of mine = map instr mine) by (apply instructions_of, st). rewrite IN in hp.
  pose proof (assemble_hdawg_ok _ _ _ _ _ _ _ _ _ _ (d_name d) n hp (id_mapping_idm mine) (dd_nodup mine [])) as R. cbn zeta in R. destruct R as (r1 & r2 & r3 & r4 & r5 & r6 & r7 & r8 & r9). fold (trigger_clocks o) in *.
  unfold last_clock in *. rewrite clocks_instr, !last_ends in *. apply spaced_three in r5. rewrite clocks_instr in r5.
  split; [rewrite r1, map_map; apply map_ext; intros e; unfold played; now rewrite clock_instr, id_instr|]. split; [exact r2|]. split; [exact r3|]. split; [exact r4|]. split; [exact r5|]. split.
  { intros e he. rewrite forallb_forall in r6. specialize (r6 (instr e) (in_map instr _ _ he)). unfold instr in r6. destruct (r_is_acq (e_row e)); [discriminate|reflexivity]. }
  split; [exact r7|]. split; [exact r8|]. intros e he. destruct (r9 (instr e) (in_map instr _ _ he)) as (w & hw). rewrite id_instr in hw. eauto. Qed.

Lemma uhfqa_awg d l wf reps ops bm a q : compile_uhfqa d l wf reps ops bm = Ok (a, q) -> started l ->
  let mine := rows_on (d_name d, 0%nat) l in
  fst (run Uhfqa (effect (d_name d) a) 0 (p_body (a_program a))) = map (fun e => (start_clock e, if r_is_acq (e_row e) then Acquires else match last_get wf (e_id e) with Some w => Plays w | None => Undefined end)) mine
  /\ well_formed (p_body (a_program a)) /\ p_repetitions (a_program a) = reps /\ p_before (a_program a) = [] /\ a_index a = 0%nat
  /\ qa_ready 0 (map (fun e => (r_is_acq (e_row e), start_clock e)) mine)
  /\ exists o t body, nth_error (channel_list d) 0 = Some o /\ out_trigger o = Some t /\ 1 <= t <= 4 /\ p_body (a_program a) = WaitDigTrigger t :: body /\ Forall (fun s => forall u, s <> WaitDigTrigger u) body.
Proof. intros h st mine. unfold compile_uhfqa in h. destruct (filter out_real (channel_list d)) as [|o1 os]; [discriminate|]. destruct (channel_list d) as [|o os'] eqn:ec; [discriminate|]. cbn zeta in h. apply bind_Ok in h. destruct h as (p & hp & h). apply bind_Ok in h. destruct h as (la & _ & h). apply bind_Ok in h. destruct h as (ast & _ & h). injection h as <- _. cbn [a_program a_index].
  rewrite <- (rows_on_filter (d_name d, 0%nat) l) in *. fold mine in hp |- *. assert (IN : flat_map instruction_of mine = map instr mine) by (apply instructions_of, st). rewrite IN in hp.
  pose proof (assemble_uhfqa_ok _ _ wf _ _ _ _ _ 0 hp (id_mapping_idm mine) (dd_nodup mine [])) as R. cbn zeta in R. destruct R as (r1 & r2 & r3 & r4 & r5 & t & body & r6 & r7 & r8 & r9).
  split; [rewrite r1, map_map; apply map_ext; intros e; unfold played; rewrite clock_instr, id_instr; unfold instr; now destruct (r_is_acq (e_row e))|]. split; [exact r2|]. split; [exact r3|]. split; [exact r4|]. split; [reflexivity|]. split.
  { clear -r5. revert r5. generalize 0. induction mine as [|e mine IH]; intros z h; [exact I|]. cbn [map ready] in h. destruct h as [h1 h2]. cbn [map qa_ready]. rewrite clock_instr in h1. split; [exact h1|]. apply IH. unfold instr in h2. destruct (r_is_acq (e_row e)); exact h2. }
  exists o, t, body. auto. Qed.

(** repetitions *)
Lemma run_later i eff l : forall t d, run i eff (t + d) l = (later d (fst (run i eff t l)), snd (run i eff t l) + d).
Proof. induction l as [|s l IH]; intros t d; cbn [run fst snd later map]; [reflexivity|]. replace (t + d + clocks i s) with (t + clocks i s + d) by lia. rewrite IH. destruct (run i eff (t + clocks i s) l) as [evs e]. cbn [fst snd]. f_equal. unfold later. rewrite map_app, map_map. reflexivity. Qed.
Lemma run_repeat_later i eff body n : forall t, fst (run_repeat i eff n t body) = flat_map (fun r => later (t + Z.of_nat r * snd (run i eff 0 body)) (fst (run i eff 0 body))) (seq 0 n) /\ snd (run_repeat i eff n t body) = t + Z.of_nat n * snd (run i eff 0 body).
Proof. induction n as [|n IH]; intros t; [cbn; split; [reflexivity|lia]|]. cbn [run_repeat]. pose proof (run_later i eff body 0 t) as R. cbn [Z.add] in R. destruct (run i eff t body) as [evs e] eqn:E. injection R as -> ->. destruct (IH (snd (run i eff 0 body) + t)) as [h1 h2]. destruct (run_repeat i eff n (snd (run i eff 0 body) + t) body) as [evs' e']. cbn [fst snd] in *. split; [|lia].
  cbn [seq flat_map]. rewrite h1. f_equal; [f_equal; lia|]. rewrite <- seq_shift, flat_map_concat_map, flat_map_concat_map, map_map. f_equal. apply map_ext. intros r. f_equal. lia. Qed.
Lemma schedule_duration_end l : l <> [] -> is_end l (schedule_duration l).
Proof. intros hl. unfold schedule_duration. set (g := fun e => (r_time (e_row e) + r_duration (e_row e))%Q).
  assert (F : forall r x, (exists y, (y = x \/ In y r) /\ fold_left (fun a b => if Qlt_bool a b then b else a) r x = y) /\ (x <= fold_left (fun a b => if Qlt_bool a b then b else a) r x)%Q /\ forall y, In y r -> (y <= fold_left (fun a b => if Qlt_bool a b then b else a) r x)%Q).
  { induction r as [|z r IH]; intros x; cbn [fold_left].
    - split; [exists x; auto|]. split; [lra|]. intros y [].
    - destruct (Qlt_bool x z) eqn:e.
      + assert (x < z)%Q by (apply Qlt_bool_iff; exact e). destruct (IH z) as ((y & hy & ey) & h1 & h2). split; [exists y; split; [|exact ey]; destruct hy as [->|hy]; [right; now left|right; now right]|]. split; [lra|]. intros y' [->|hy']; [exact h1|auto].
      + assert (~ (x < z)%Q) by (intros hh; apply Qlt_bool_iff in hh; congruence). destruct (IH x) as ((y & hy & ey) & h1 & h2). split; [exists y; split; [|exact ey]; destruct hy as [->|hy]; [now left|right; now right]|]. split; [exact h1|]. intros y' [->|hy']; [lra|auto]. }
  destruct l as [|e l]; [contradiction|]. cbn [map]. destruct (F (map g l) (g e)) as ((y & hy & ey) & h1 & h2). unfold g in *. rewrite ey in *. split.
  - destruct hy as [->|hy]; [exists e; split; [now left|reflexivity]|]. apply in_map_iff in hy. destruct hy as (e' & <- & he). exists e'. split; [now right|reflexivity].
  - intros e' [<-|he]; [exact h1|]. apply h2. apply in_map_iff. exists e'. auto. Qed.
