(** C44: library schedules without a sweep. *)
From Verif Require Import Base TimingModel TimingSpec LibModel LibSpec LibProps LibEngine LibProps2 LibThms4 LibThms5.
Open Scope Q_scope.
Open Scope string_scope.
Open Scope list_scope.

(** [one_shot gdur gdelay s]: the time line of the explicit schedule [s] *)
Definition sched (reps : Z) (res : list (string * Q)) (es : list entry) : lsched := {| l_entries := es; l_res := l_res (new reps) ++ res; l_reps := reps |}.
Lemma run_sched gdur gdelay reps res es : es <> [] -> NoDup (names es) -> BackAll [] es -> (forall e, In e es -> leaf (e_op e) = true) ->
  exists T, Timeline gdur gdelay (sched reps res es) (tl_of es T) /\ Rel gdur gdelay (ldur gdur) es T.
Proof. exact (run_entries gdur gdelay (sched reps res es)). Qed.
Ltac one_shot gdur gdelay s T hT hR :=
  let d := eval cbv delta [s] in s in
  match d with sched ?reps ?res ?es => destruct (run_sched gdur gdelay reps res es) as (T & hT & hR) end;
  [ discriminate | repeat constructor; cbn [In]; intros hin; repeat (destruct hin as [hin|hin]; [discriminate hin|]); exact hin
  | cbn [BackAll app]; unfold Back1; cbn [e_tc fst snd mk_tc tc_pt tc_ptnew tc_ref names map e_name In]; repeat split; try discriminate; auto 10
  | intros e h; cbn in h; intuition (subst; reflexivity) | ].
Ltac prev hR k := rewrite (rel_prev _ _ _ _ k _ _ hR eq_refl eq_refl eq_refl); cbn [e_tc e_op fst snd mk_tc tc_pt tc_rel ldur to_op odelay op_delay]; try ring.
Ltac refto hR k j := rewrite (rel_ref _ _ _ _ k _ j _ hR eq_refl eq_refl ltac:(discriminate) eq_refl); cbn [e_tc e_op fst snd mk_tc tc_pt tc_rel ldur to_op odelay op_delay]; try ring.
Ltac tl_ok := split; [reflexivity|].

(** Heterodyne spectroscopy: the acquisition starts acquisition_delay after the start of the pulse *)
Theorem C44_heterodyne : forall u gdur gdelay amp dur f delay int port clock init reps port_out,
  ~ In clock ["cl0.baseband"; "digital"] ->
  let out := match port_out with Some p => p | None => port end in
  exists s t0 t1 t2, heterodyne_spec_sched u amp dur f delay int port clock init reps port_out = Ok s /\ l_reps s = reps /\ l_res s = l_res (new reps) ++ [(clock, f)] /\
    Timeline gdur gdelay s [ ("buffer", Idle init, t0); ("spec_pulse", Square dur amp out clock, t1); ("acquisition", SSB int port clock 0 (Some 0%Z) BinAverage 0, t2) ]%string /\
    t1 == t0 + init /\ t2 == t1 + delay.
Proof. intros u gdur gdelay amp dur f delay int port clock init reps port_out hc out. unfold heterodyne_spec_sched. rewrite add_clock_ok by exact hc. cbn [bind l_entries l_res l_reps]. fold out. cbv zeta.
  set (s := sched reps [(clock, f)] [ ("buffer", mk_tc None None 0, Idle init); ("spec_pulse", mk_tc None None 0, Square dur amp out clock); ("acquisition", mk_tc (Some "spec_pulse") (Some PtStart) delay, SSB int port clock 0 (Some 0%Z) BinAverage 0) ]%string).
  one_shot gdur gdelay s T hT hR. exists s, (T 0%nat), (T 1%nat), (T 2%nat). do 3 tl_ok. split; [exact hT|]. split; [prev hR 0%nat|]. refto hR 2%nat 1%nat. Qed.

(** Two-tone spectroscopy *)
Theorem C44_two_tone : forall u gdur gdelay amp dur port clock f ramp rdur rdelay rport rclock rf adelay int init reps,
  ~ In clock ["cl0.baseband"; "digital"] -> ~ In rclock ["cl0.baseband"; "digital"; clock] ->
  exists s t0 t1 t2 t3, two_tone_spec_sched u amp dur port clock f ramp rdur rdelay rport rclock rf adelay int init reps = Ok s /\ l_reps s = reps /\ l_res s = l_res (new reps) ++ [(clock, f); (rclock, rf)] /\
    Timeline gdur gdelay s [ ("buffer", Idle init, t0); ("spec_pulse", Square dur amp port clock, t1); ("readout_pulse", Square rdur ramp rport rclock, t2); ("acquisition", SSB int rport rclock 0 (Some 0%Z) BinAverage 0, t3) ]%string /\
    t1 == t0 + init /\ t2 == t1 + dur + rdelay /\ t3 == t2 + adelay.
Proof. intros u gdur gdelay amp dur port clock f ramp rdur rdelay rport rclock rf adelay int init reps hc hc2. unfold two_tone_spec_sched. rewrite add_clock_ok by exact hc. cbn [bind]. rewrite add_clock_ok by exact hc2. cbn [bind l_entries l_res l_reps].
  set (s := sched reps [(clock, f); (rclock, rf)] [ ("buffer", mk_tc None None 0, Idle init); ("spec_pulse", mk_tc None None 0, Square dur amp port clock); ("readout_pulse", mk_tc None None rdelay, Square rdur ramp rport rclock); ("acquisition", mk_tc (Some "readout_pulse") (Some PtStart) adelay, SSB int rport rclock 0 (Some 0%Z) BinAverage 0) ]%string).
  one_shot gdur gdelay s T hT hR. exists s, (T 0%nat), (T 1%nat), (T 2%nat), (T 3%nat). do 3 tl_ok. split; [exact hT|]. split; [prev hR 0%nat|]. split; [prev hR 1%nat|]. refto hR 3%nat 2%nat. Qed.

(** Pulse-level Rabi *)
Theorem C44_rabi_pulse : forall u gdur gdelay g d f mclock mport mdur ramp rdur rdelay rport rclock rf adelay int init reps,
  ~ In mclock ["cl0.baseband"; "digital"] -> ~ In rclock ["cl0.baseband"; "digital"; mclock] ->
  exists s t0 t1 t2 t3, rabi_pulse_sched u g d f mclock mport mdur ramp rdur rdelay rport rclock rf adelay int init reps = Ok s /\ l_reps s = reps /\ l_res s = l_res (new reps) ++ [(mclock, f); (rclock, rf)] /\
    Timeline gdur gdelay s [ ("qubit reset", Idle init, t0); ("Rabi_pulse", Drag mdur g d mport mclock 0, t1); ("readout_pulse", Square rdur ramp rport rclock, t2); ("acquisition", SSB int rport rclock 0 None BinAverage 0, t3) ]%string /\
    t1 == t0 + init /\ t2 == t1 + mdur + rdelay /\ t3 == t2 + adelay.
Proof. intros u gdur gdelay g d f mclock mport mdur ramp rdur rdelay rport rclock rf adelay int init reps hc hc2. unfold rabi_pulse_sched. rewrite add_clock_ok by exact hc. cbn [bind]. rewrite add_clock_ok by exact hc2. cbn [bind l_entries l_res l_reps].
  set (s := sched reps [(mclock, f); (rclock, rf)] [ ("qubit reset", mk_tc None None 0, Idle init); ("Rabi_pulse", mk_tc None (Some PtEnd) 0, Drag mdur g d mport mclock 0); ("readout_pulse", mk_tc None None rdelay, Square rdur ramp rport rclock); ("acquisition", mk_tc (Some "readout_pulse") (Some PtStart) adelay, SSB int rport rclock 0 None BinAverage 0) ]%string).
  one_shot gdur gdelay s T hT hR. exists s, (T 0%nat), (T 1%nat), (T 2%nat), (T 3%nat). do 3 tl_ok. split; [exact hT|]. split; [prev hR 0%nat|]. split; [prev hR 1%nat|]. refto hR 3%nat 2%nat. Qed.

(** Trace acquisition *)
Theorem C44_trace : forall u gdur gdelay amp dur pdelay f delay int port clock init reps,
  ~ In clock ["cl0.baseband"; "digital"] ->
  exists s t0 t1 t2, trace_schedule u amp dur pdelay f delay int port clock init reps = Ok s /\ l_reps s = reps /\ l_res s = l_res (new reps) ++ [(clock, f)] /\
    Timeline gdur gdelay s [ ("Dead time", Idle init, t0); ("trace_pulse", Square dur amp port clock, t1); ("acquisition", TraceAcq int port clock 0, t2) ]%string /\
    t1 == t0 + init + pdelay /\ t2 == t1 + delay.
Proof. intros u gdur gdelay amp dur pdelay f delay int port clock init reps hc. unfold trace_schedule. rewrite add_clock_ok by exact hc. cbn [bind l_entries l_res l_reps].
  set (s := sched reps [(clock, f)] [ ("Dead time", mk_tc None None 0, Idle init); ("trace_pulse", mk_tc None None pdelay, Square dur amp port clock); ("acquisition", mk_tc (Some "trace_pulse") (Some PtStart) delay, TraceAcq int port clock 0) ]%string).
  one_shot gdur gdelay s T hT hR. exists s, (T 0%nat), (T 1%nat), (T 2%nat). do 3 tl_ok. split; [exact hT|]. split; [prev hR 0%nat|]. refto hR 2%nat 1%nat. Qed.

(** Two-tone trace acquisition *)
Theorem C44_two_tone_trace : forall u gdur gdelay amp dur f port clock ramp rdur rdelay rport rclock rf adelay int init reps,
  ~ In clock ["cl0.baseband"; "digital"] -> ~ In rclock ["cl0.baseband"; "digital"; clock] ->
  exists s t0 t1 t2 t3, two_tone_trace_schedule u amp dur f port clock ramp rdur rdelay rport rclock rf adelay int init reps = Ok s /\ l_reps s = reps /\ l_res s = l_res (new reps) ++ [(clock, f); (rclock, rf)] /\
    Timeline gdur gdelay s [ ("Reset", Idle init, t0); ("qubit_pulse", Square dur amp port clock, t1); ("readout_pulse", Square rdur ramp rport rclock, t2); ("acquisition", TraceAcq int rport rclock 0, t3) ]%string /\
    t1 == t0 + init /\ t2 == t1 + dur + rdelay /\ t3 == t2 + adelay.
Proof. intros u gdur gdelay amp dur f port clock ramp rdur rdelay rport rclock rf adelay int init reps hc hc2. unfold two_tone_trace_schedule. rewrite add_clock_ok by exact hc. cbn [bind]. rewrite add_clock_ok by exact hc2. cbn [bind l_entries l_res l_reps].
  set (s := sched reps [(clock, f); (rclock, rf)] [ ("Reset", mk_tc None None 0, Idle init); ("qubit_pulse", mk_tc None None 0, Square dur amp port clock); ("readout_pulse", mk_tc None None rdelay, Square rdur ramp rport rclock); ("acquisition", mk_tc (Some "readout_pulse") (Some PtStart) adelay, TraceAcq int rport rclock 0) ]%string).
  one_shot gdur gdelay s T hT hR. exists s, (T 0%nat), (T 1%nat), (T 2%nat), (T 3%nat). do 3 tl_ok. split; [exact hT|]. split; [prev hR 0%nat|]. split; [prev hR 1%nat|]. refto hR 3%nat 2%nat. Qed.

(** Dark ESR at one frequency: every operation starts when the one before it ends *)
Theorem C44_nv_dark_esr : forall u gdur gdelay q reps, OnlyMeasureDelays gdelay ->
  exists s t0 t1 t2 t3 t4 t5, nv_dark_esr_sched u q reps = Ok s /\ l_reps s = reps /\
    Timeline gdur gdelay s [ ("Charge reset", ChargeReset q, t0); ("CRCount pre", CRCount q, t1); ("Reset", ResetGate [q], t2); ("Spectroscopy", Spectroscopy q, t3); ("Measure", MeasureGate [q] None None, t4); ("CRCount post", CRCount q, t5) ]%string /\
    t1 == t0 + gdur (ChargeReset q) /\ t2 == t1 + gdur (CRCount q) /\ t3 == t2 + gdur (ResetGate [q]) /\ t4 == t3 + gdur (Spectroscopy q) /\ t5 == t4 + gdur (MeasureGate [q] None None) + delay gdelay (MeasureGate [q] None None).
Proof. intros u gdur gdelay q reps hd.
  set (s := sched reps [] [ ("Charge reset", mk_tc None None 0, ChargeReset q); ("CRCount pre", mk_tc None None 0, CRCount q); ("Reset", mk_tc None None 0, ResetGate [q]); ("Spectroscopy", mk_tc None None 0, Spectroscopy q); ("Measure", mk_tc None None 0, MeasureGate [q] None None); ("CRCount post", mk_tc None None 0, CRCount q) ]%string).
  one_shot gdur gdelay s T hT hR. exists s, (T 0%nat), (T 1%nat), (T 2%nat), (T 3%nat), (T 4%nat), (T 5%nat). do 2 tl_ok. split; [exact hT|].
  split; [prev hR 0%nat; rel_ok hd|]. split; [prev hR 1%nat; rel_ok hd|]. split; [prev hR 2%nat; rel_ok hd|]. split; [prev hR 3%nat; rel_ok hd|]. prev hR 4%nat. unfold delay. destruct (gdelay _); ring. Qed.

(** a clock cannot be declared twice: the two clocks must differ, and none may be a clock every schedule has *)
Theorem C44_clock_reused : forall u fmt amp dur port clock f ramp rdur rdelay rport rf adelay int init reps freqs amps ch,
  two_tone_spec_sched u amp dur port clock f ramp rdur rdelay rport clock rf adelay int init reps = Err ValueError /\
  (freqs <> [] -> two_tone_spec_sched_nco u fmt amp dur port clock freqs ramp rdur rdelay rport clock rf adelay int init reps = Err ValueError) /\
  two_tone_trace_schedule u amp dur f port clock ramp rdur rdelay rport clock rf adelay int init reps = Err ValueError /\
  awg_staircase_sched u amps dur rf adelay int port rport clock clock init ch reps = Err ValueError /\
  multiplexing_staircase_sched u amps dur adelay int port clock clock f rf init reps = Err ValueError.
Proof. intros. assert (G : forall {A} reps f g (k : lsched -> result A), (do s <- add_clock (new reps) clock f; do s <- add_clock s clock g; k s) = Err ValueError).
  { intros A rp f' g k. unfold add_clock at 1. destruct (known clock (map fst (l_res (new rp)))); [reflexivity|]. cbn [bind]. unfold add_clock. rewrite known_true; [reflexivity|]. cbn [l_res]. rewrite map_app, in_app_iff. cbn; auto. }
  repeat split; [apply G|intros h; unfold two_tone_spec_sched_nco; destruct freqs; [easy|apply G]|apply G|apply G|apply G]. Qed.
