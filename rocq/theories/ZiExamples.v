(** C46-C49: a worked case, and schedules for which the plain claims fail. *)
From Verif Require Import Base NumericModel QSort PathProps6 ZiModel ZiSpec.
From Coq Require Import Permutation Ascii.
Open Scope Z_scope.

Definition by_time := sortq r_time.
Lemma by_time_sorts : sorts by_time.
Proof. intros l. unfold by_time. split.
  - induction l as [|x l IH]; [constructor|]. rewrite sortq_cons. assert (P : forall r, Permutation (x :: r) (insertq r_time x r)). { induction r as [|y r IHr]; cbn [insertq]; [constructor; constructor|]. destruct (Qle_bool _ _); [apply Permutation_refl|]. rewrite perm_swap. now constructor. } rewrite <- P. now constructor.
  - pose proof (sortq_srt r_time l) as h. induction (sortq r_time l) as [|x r IH]; intros i j a b hij ha hb; [destruct i; discriminate|]. cbn [srtq] in h. destruct h as [h1 h2]. destruct j as [|j]; [lia|]. cbn in hb. destruct i as [|i]; cbn in ha; [injection ha as <-; rewrite Forall_forall in h1; apply h1; eapply nth_error_In; eauto|]. apply (IH h2 i j); auto; lia. Qed.

Definition ns (z : Z) : Q := z # 1000000000.
Definition pulse (p c : string) (t0 d : Q) (w : Z) : info := {| i_port := Some p; i_clock := Some c; i_t0 := t0; i_duration := d; i_is_acq := false; i_reference_magnitude := false; i_wave := w; i_weights := 0; i_acq_channel := 0; i_protocol := Trace; i_bin_mode := Average |}.
Definition acq (p c : string) (t0 d : Q) (w : Z) (ch : nat) (pr : protocol) (bm : bin_mode) : info := {| i_port := Some p; i_clock := Some c; i_t0 := t0; i_duration := d; i_is_acq := true; i_reference_magnitude := false; i_wave := w; i_weights := match pr with SSBIntegrationComplex => 2 | _ => 0 end; i_acq_channel := ch; i_protocol := pr; i_bin_mode := bm |}.
Definition op (s : string) (ps acs : list info) : operation := {| o_str := s; o_pulses := ps; o_acqs := acs; o_unsupported := false |}.
Definition out (p c : string) (t : option Z) (st : Z) : output := {| out_port := p; out_clock := c; out_trigger := t; out_markers := []; out_modulate := false; out_real := true; out_settings := st |}.
Definition hdawg : device := {| d_name := "ic_hdawg0"; d_kind := HDAWG8; d_clock_select := 0; d_grouping := 0; d_channels := [(0%nat, out "q0:mw" "q0.01" None 1); (1%nat, out "q1:mw" "q1.01" (Some 1) 2)] |}.
Definition uhfqa : device := {| d_name := "ic_uhfqa0"; d_kind := UHFQA; d_clock_select := 0; d_grouping := 0; d_channels := [(0%nat, out "q0:res" "q0.ro" (Some 2) 3)] |}.
Definition devs := [hdawg; uhfqa].
Definition x_gate := op "X(q0)" [pulse "q0:mw" "q0.01" 0 (ns 20) 11] [].
Definition y_gate := op "Y(q1)" [pulse "q1:mw" "q1.01" 0 (ns 20) 12] [].
Definition readout := op "Readout(q0)" [pulse "q0:res" "q0.ro" 0 (ns 300) 13] [].
Definition integrate := op "SSBIntegrationComplex(acq_channel=0,acq_index=0,phase=0)" [] [acq "q0:res" "q0.ro" 0 (ns 1000) 14 0 SSBIntegrationComplex Average].
Definition sched (l : list (operation * Q)) : schedule := {| s_operations := combine (map Z.of_nat (seq 0 (List.length l))) (map fst l); s_schedulables := combine (map Z.of_nat (seq 0 (List.length l))) (map (fun x => Some (snd x)) l); s_repetitions := 1024 |}.
Definition demo := sched [(x_gate, ns 40); (y_gate, ns 40); (readout, ns 100); (integrate, ns 205)].
Definition lat0 : list (string * Q) := [("q0:mw-q0.01"%string, ns 5)].

Definition table srt s ds lat := match corrected_table srt s ds lat with Ok l => l | Err _ => [] end.
Definition config srt s ds lat := match compile srt s ds lat with Ok c => c | Err _ => [] end.
Definition accepted {A} (r : result A) : bool := match r with Ok _ => true | Err _ => false end.
Definition events (cfg : list (string * device_config)) (i : nat) : list (list (Z * event) * Z) :=
  match nth_error cfg i with
  | Some (nm, HdawgConfig l) => map (fun a => run Hdawg (effect nm a) 0 (p_body (a_program a))) l
  | Some (nm, UhfqaConfig a _) => [run Uhfqa (effect nm a) 0 (p_body (a_program a))]
  | None => []
  end.
Definition code (e : event) : Z := match e with Plays w => i_wave (w_info w) | Acquires => 0 | Undefined => -1 end.
Definition short (l : list (list (Z * event) * Z)) : list (list (Z * Z)) := map (fun x => map (fun y => (fst y, code (snd y))) (fst x)) l.

(** The demonstration is accepted; its occurrences satisfy the hypotheses of the theorems. The acquisition is wanted at 205 ns = sample 369; everything is delayed by 15 samples of 1/1.8 GHz, so that it starts at clock 48 exactly. X (latency 5 ns) is wanted at 45 ns and played at clock 16, Y at clock 14, the readout pulse at clock 24. *)
Example demo_accepted : accepted (compile by_time demo devs lat0) = true. Proof. vm_compute. reflexivity. Qed.
Example demo_plays : short (events (config by_time demo devs lat0) 0) = [[(16, 11)]; [(14, 12)]] /\ short (events (config by_time demo devs lat0) 1) = [[(24, 13); (48, 0)]]. Proof. vm_compute. auto. Qed.
Example demo_table : map (fun e => (r_operation (e_row e), start_clock e, match e_start e with Some (_, x) => Qred x | None => 0%Q end)) (table by_time demo devs lat0) = [("Y(q1)"%string, 14, 4%Q); ("X(q0)"%string, 16, 0%Q); ("Readout(q0)"%string, 24, 3%Q); (o_str integrate, 48, 0%Q)]. Proof. vm_compute. reflexivity. Qed.
Example demo_repetition : map snd (events (config by_time demo devs lat0) 0) = [364; 15]. Proof. vm_compute. reflexivity. Qed.
Example demo_in_order : in_order lat0 (occurrences demo).
Proof. intros i j a b hij ha hb hq. assert (L : List.length (occurrences demo) = 4%nat) by reflexivity. assert (j < 4)%nat by (rewrite <- L; apply nth_error_Some; congruence).
  destruct j as [|[|[|[|j]]]]; [lia| | | |lia]; (destruct i as [|[|[|i]]]; [| | |lia]); try lia; vm_compute in ha, hb; injection ha as <-; injection hb as <-; destruct hq as [hq|hq]; try discriminate; vm_compute; reflexivity. Qed.
Example demo_tidy : tidy demo.
Proof. intros h o hi. cbn in hi. destruct hi as [hi|[hi|[hi|[hi|[]]]]]; injection hi as <- <-; cbn; repeat constructor. Qed.
Example demo_numbered : numbered devs.
Proof. split; [cbn; repeat constructor; cbn; intuition discriminate|]. intros d n o [<-|[<-|[]]] hi; cbn [hdawg uhfqa d_channels] in *.
  - destruct hi as [hi|[hi|[]]]; injection hi as <- <-; (split; [lia|]); intros m hm; destruct m as [|[|m]]; try lia; eexists; cbn; eauto.
  - destruct hi as [hi|[]]; injection hi as <- <-; (split; [lia|]); intros m hm; destruct m as [|m]; try lia; eexists; cbn; eauto. Qed.
Example demo_unmistakable : forall oc, In oc (occurrences demo) -> i_is_acq (oc_info oc) = false -> unmistakable oc.
Proof. intros oc hi ha. assert (N : forall o, PathModel.contains "acq_index=" (o_str o) = false -> ~ (exists x y, o_str o = x ++ "acq_index=" ++ y)%string). { intros o hc (x & y & e). rewrite <- not_true_iff_false in hc. apply hc. apply PathProps6.contains_spec. eauto. }
  cbn in hi. destruct hi as [<-|[<-|[<-|[<-|[]]]]]; try discriminate; (split; [apply N; reflexivity|right; reflexivity]). Qed.
Example demo_same_named : forall oc, In oc (occurrences demo) -> same_named demo oc.
Proof. intros oc hi od hd e. cbn in hi, hd. destruct hi as [<-|[<-|[<-|[<-|[]]]]], hd as [<-|[<-|[<-|[<-|[]]]]]; try reflexivity; exfalso; vm_compute in e; discriminate. Qed.
Example demo_placeable : Forall (placeable devs lat0) (occurrences demo).
Proof. assert (C0 : connected devs "q0:mw" "q0.01" ("ic_hdawg0"%string, 0%nat)). { exists [], hdawg, [uhfqa], [], (out "q0:mw" "q0.01" None 1), [(1%nat, out "q1:mw" "q1.01" (Some 1) 2)]. repeat split; try reflexivity; [intros d' n o' [<-|[]] [h|[]]; injection h as <- <-; discriminate|intros n o' [h|[]]; injection h as <- <-; discriminate]. }
  assert (C1 : connected devs "q1:mw" "q1.01" ("ic_hdawg0"%string, 1%nat)). { exists [], hdawg, [uhfqa], [(0%nat, out "q0:mw" "q0.01" None 1)], (out "q1:mw" "q1.01" (Some 1) 2), []. repeat split; try reflexivity; [intros d' n o' [<-|[]] [h|[]]; injection h as <- <-; discriminate|intros n o' []]. }
  assert (C2 : connected devs "q0:res" "q0.ro" ("ic_uhfqa0"%string, 0%nat)). { exists [hdawg], uhfqa, [], [], (out "q0:res" "q0.ro" (Some 2) 3), []. repeat split; try reflexivity; [intros d' n o' []|intros n o' []]. }
  cbn [occurrences demo]. repeat constructor; unfold placeable; cbn [oc_info i_port i_clock pulse acq]; do 3 eexists; (split; [first [exact C0|exact C1|exact C2]|]); (split; [reflexivity|]).
  - instantiate (1 := 108). vm_compute. reflexivity.
  - instantiate (1 := 96). vm_compute. reflexivity.
  - instantiate (1 := 180). vm_compute. reflexivity.
  - instantiate (1 := 369). vm_compute. reflexivity. Qed.

(** * What does not hold *)

(** A pulse is not played at its time but at the beginning of the clock cycle: Y is wanted at 4 samples after clock 14 and played at clock 14; the waveform is the same as for a pulse that starts with the cycle. *)
Theorem C46_early_refuted : exists e, nth_error (table by_time demo devs lat0) 0 = Some e /\ r_operation (e_row e) = "Y(q1)"%string /\ (r_time (e_row e) * 2400000000 == inject_Z (8 * 14 + 4))%Q /\ nth_error (short (events (config by_time demo devs lat0) 0)) 1 = Some [(14, 12)].
Proof. let c := eval vm_compute in (nth_error (table by_time demo devs lat0) 0) in match c with Some ?x => exists x end. split; [vm_compute; reflexivity|]. split; [reflexivity|]. split; vm_compute; reflexivity. Qed.

(** Acquisitions listed in another order than they happen: the later one (listed first, sample 2700 = 4 mod 8) is not put on the grid of the clock, although the schedule is accepted. *)
Definition acq_at (name : string) (ch : nat) := op name [] [acq "q0:res" "q0.ro" 0 (ns 1000) 14 ch SSBIntegrationComplex Average].
Definition reversed := sched [(acq_at "SSB(b)" 1, ns 1500); (acq_at "SSB(a)" 0, ns 205)].
Theorem C47_order_refuted : accepted (compile by_time reversed [uhfqa] []) = true /\ map (fun e => (r_operation (e_row e), r_is_acq (e_row e), start_clock e, match e_start e with Some (_, x) => Qred x | None => 0%Q end)) (table by_time reversed [uhfqa] []) = [("SSB(a)"%string, true, 48, 0%Q); ("SSB(b)"%string, true, 339, 3%Q)].
Proof. vm_compute. auto. Qed.
(** the same two, listed in the order of their times *)
Example ordered_aligned : map (fun e => match e_start e with Some (_, x) => Qred x | None => 0%Q end) (table by_time (sched [(acq_at "SSB(a)" 0, ns 205); (acq_at "SSB(b)" 1, ns 1500)]) [uhfqa] []) = [0%Q; 0%Q].
Proof. vm_compute. reflexivity. Qed.

(** One operation with a readout pulse (number 0) and an acquisition (number 0) that start at the same sample of a clock cycle: the weights of the acquisition are made from the readout pulse. *)
Definition measure := op "Measure(q0)" [pulse "q0:res" "q0.ro" 0 (ns 300) 13] [acq "q0:res" "q0.ro" (ns 40) (ns 1000) 14 0 SSBIntegrationComplex Average].
Definition weight_of (cfg : list (string * device_config)) (n : nat) : option (Z * bool) := match cfg with (_, UhfqaConfig _ q) :: _ => match nth_error (q_weights q) n with Some {| n_real := RealPart w |} => Some (i_wave (w_info w), w_is_pulse w) | _ => None end | _ => None end.
Theorem C48_collision_refuted : accepted (compile by_time (sched [(measure, ns 200)]) [uhfqa] []) = true /\ weight_of (config by_time (sched [(measure, ns 200)]) [uhfqa] []) 0 = Some (13, true).
Proof. vm_compute. auto. Qed.
(** Two operations that differ only after acq_index=: the second one is played with the waveform of the first. *)
Theorem C48_greedy_refuted : short (events (config by_time (sched [(op "Pulses(acq_index=0, amp=1)" [pulse "q0:res" "q0.ro" 0 (ns 40) 13] [], ns 40); (op "Pulses(acq_index=0, amp=2)" [pulse "q0:res" "q0.ro" 0 (ns 40) 15] [], ns 120); (acq_at "SSB(a)" 0, ns 200)]) [uhfqa] []) 0) = [[(9, 13); (27, 13); (45, 0)]].
Proof. vm_compute. reflexivity. Qed.

(** Two pulses of one channel may overlap: the first plays from clock 12 for 240 samples (30 clocks), the second from clock 24. *)
Definition overlapping := sched [(op "Long" [pulse "q0:mw" "q0.01" 0 (ns 100) 21] [], ns 40); (op "Short" [pulse "q0:mw" "q0.01" 0 (ns 20) 22] [], ns 80)].
Theorem C46_overlap_refuted : short (events (config by_time overlapping [hdawg] []) 0) = [[(12, 21); (24, 22)]; []] /\ (ns 80 < ns 40 + ns 100)%Q.
Proof. split; vm_compute; reflexivity. Qed.

(** Channels 0, 2 and 3: the pulse of channel 2 is computed with the settings of channel 3. *)
Definition gapped : device := {| d_name := "hdawg0"; d_kind := HDAWG8; d_clock_select := 0; d_grouping := 0; d_channels := [(0%nat, out "q0:mw" "q0.01" None 1); (2%nat, out "q2:mw" "q2.01" None 2); (3%nat, out "q3:mw" "q3.01" None 3)] |}.
Definition settings_played (cfg : list (string * device_config)) : list (list Z) := map (fun x => map (fun y => match snd y with Plays w => out_settings (w_output w) | _ => 0 end) (fst x)) (events cfg 0).
Definition on_q2 := sched [(op "X(q2)" [pulse "q2:mw" "q2.01" 0 (ns 20) 31] [], ns 40)].
Theorem C48_gap_refuted : settings_played (config by_time on_q2 [gapped] []) = [[]; []; [3]].
Proof. vm_compute. reflexivity. Qed.
(** The third channel of an HDAWG4, or the second one with grouping 1, is silently not played; likewise a second channel of a UHFQA. *)
Definition hdawg4 : device := {| d_name := "hdawg0"; d_kind := HDAWG4; d_clock_select := 0; d_grouping := 0; d_channels := [(0%nat, out "q0:mw" "q0.01" None 1); (1%nat, out "q1:mw" "q1.01" None 2); (2%nat, out "q2:mw" "q2.01" None 3)] |}.
Definition grouped : device := {| d_name := "hdawg0"; d_kind := HDAWG8; d_clock_select := 0; d_grouping := 1; d_channels := [(0%nat, out "q0:mw" "q0.01" None 1); (1%nat, out "q2:mw" "q2.01" None 2)] |}.
Theorem C46_dropped_refuted : map (fun e => e_channel e) (table by_time on_q2 [hdawg4] []) = [Some ("hdawg0"%string, 2%nat)] /\ short (events (config by_time on_q2 [hdawg4] []) 0) = [[]; []] /\ accepted (compile by_time on_q2 [hdawg4] []) = true
  /\ map (fun e => e_channel e) (table by_time on_q2 [grouped] []) = [Some ("hdawg0"%string, 1%nat)] /\ short (events (config by_time on_q2 [grouped] []) 0) = [[]].
Proof. vm_compute. auto. Qed.

(** Two acquisitions at the same time on one UHFQA are rejected, and so is a pulse less than 4 clock cycles before the end of the schedule. *)
Theorem C46_rejected : compile by_time (sched [(acq_at "SSB(a)" 0, ns 200); (acq_at "SSB(b)" 1, ns 200)]) [uhfqa] [] = Err ValueError /\ compile by_time (sched [(op "X(q0)" [pulse "q0:mw" "q0.01" 0 (ns 10) 11] [], ns 40)]) [hdawg] [] = Err ValueError.
Proof. vm_compute. auto. Qed.
(** The sampling rate that times are converted with follows the name of a device, not its type or its clock_select: a UHFQA named hdawg_ro plays a pulse wanted at 100 ns at clock 30 of 225 MHz, 133 ns. *)
Definition misnamed : device := {| d_name := "hdawg_ro"; d_kind := UHFQA; d_clock_select := 0; d_grouping := 0; d_channels := [(0%nat, out "q0:res" "q0.ro" (Some 2) 3)] |}.
Definition slow : device := {| d_name := "ic_hdawg0"; d_kind := HDAWG8; d_clock_select := 1; d_grouping := 0; d_channels := [(0%nat, out "q0:mw" "q0.01" None 1)] |}.
Theorem C46_rate_refuted : short (events (config by_time (sched [(readout, ns 100); (acq_at "SSB(a)" 0, ns 200)]) [misnamed] []) 0) = [[(30, 13); (60, 0)]] /\ short (events (config by_time (sched [(x_gate, ns 40)]) [slow] []) 0) = [[(12, 11)]] /\ sample_rate slow = 1200000000.
Proof. vm_compute. auto. Qed.
