(** C44: library experiment schedules with frequency sweeps and staircases. *)
From Verif Require Import Base TimingModel TimingSpec LibModel LibSpec LibProps LibEngine LibProps2.
Open Scope Q_scope.
Open Scope string_scope.
Open Scope list_scope.

Definition b_het (fmt : Q -> string) (amp dur delay int : Q) (port clock : string) (init : Q) (port_out : string) (base i : nat) (f : Q) : list entry :=
  [ ("buffer " ++ dec i, mk_tc None None 0, Idle init); ("set_freq " ++ dec i ++ " (" ++ clock ++ " " ++ fmt f ++ " Hz)", mk_tc None None 0, SetFreq clock f);
    ("spec_pulse " ++ dec i ++ ")", mk_tc None None 0, Square dur amp port_out clock);
    ("acquisition " ++ dec i ++ ")", mk_tc (Some ("spec_pulse " ++ dec i ++ ")")) (Some PtStart) delay, SSB int port clock 0 (Some (Z.of_nat i)) BinAverage 0) ]%string.

(** Heterodyne spectroscopy with a frequency sweep: before the i-th pulse the clock is set to the i-th frequency, the acquisition with
    acquisition index i starts acquisition_delay after that pulse *)
Theorem C44_heterodyne_nco : forall u fmt gdur gdelay amp dur freqs delay int port clock init reps port_out,
  Uuids u -> freqs <> [] -> OnlyMeasureDelays gdelay -> ~ In clock ["cl0.baseband"; "digital"] ->
  let out := match port_out with Some p => p | None => port end in
  exists s tl, heterodyne_spec_sched_nco u fmt amp dur freqs delay int port clock init reps port_out = Ok s /\
    l_reps s = reps /\ l_res s = l_res (new reps) ++ [(clock, hd 0 freqs)] /\ Timeline gdur gdelay s tl /\ List.length tl = (4 * List.length freqs)%nat /\
    forall i f, nth_error freqs i = Some f ->
    exists n1 n2 n3 n4 t_idle t_set t_pulse t_acq,
      Segment tl (4 * i) [ (n1, Idle init, t_idle); (n2, SetFreq clock f, t_set); (n3, Square dur amp out clock, t_pulse);
                           (n4, SSB int port clock 0 (Some (Z.of_nat i)) BinAverage 0, t_acq) ]%string /\
      AfterPrevious gdur gdelay tl (4 * i) /\ t_set == t_idle + init /\ t_pulse == t_set /\ t_acq == t_pulse + delay.

Proof. intros u fmt gdur gdelay amp dur freqs delay int port clock init reps port_out hu hne hd hc out. unfold heterodyne_spec_sched_nco. destruct freqs as [|f0 fr] eqn:Ef; [easy|]. rewrite <- Ef in *. cbn zeta. rewrite add_clock_ok by exact hc. cbn [bind]. replace f0 with (List.hd 0 freqs) by now rewrite Ef. set (xs := freqs) in *. match goal with |- context [for_enum _ ?s _] => set (s0 := s) end. clear Ef.
  set (b := b_het fmt amp dur delay int port clock init out). lib_run u gdur gdelay hu (b_het fmt amp dur delay int port clock init out) hne T h1 h2 h3.
  exists (ext s0 (blocks b 0 0 xs)), (tl_of (blocks b 0 0 xs) T). split; [exact h1|]. repeat (split; [reflexivity|]). split; [exact h2|].
  split; [rewrite tl_len; now apply blocks_len|]. intros i f hi.
  destruct (block_at b xs i f 4 T (fun _ _ _ => eq_refl) hi) as (hs & _). do 4 eexists; exists (T (4 * i + 0)%nat), (T (4 * i + 1)%nat), (T (4 * i + 2)%nat), (T (4 * i + 3)%nat).
  split; [seg_ok hs|]. split; [lib_first b 4%nat hi h3 hd|]. split; [lib_prev b 4%nat hi h3 hd 0%nat|]. split; [lib_prev b 4%nat hi h3 hd 1%nat|]. lib_ref b 4%nat hi h3 hd 3%nat 2%nat. Qed.


Definition b_two (fmt : Q -> string) (amp dur : Q) (port clock : string) (ramp rdur rdelay : Q) (rport rclock : string) (adelay int init : Q) (base i : nat) (f : Q) : list entry :=
  [ ("buffer " ++ dec i, mk_tc None None 0, Idle init); ("set_freq " ++ dec i ++ " (" ++ clock ++ " " ++ fmt f ++ " Hz)", mk_tc None None 0, SetFreq clock f);
    ("spec_pulse " ++ dec i, mk_tc None None 0, Square dur amp port clock); ("readout_pulse " ++ dec i, mk_tc (Some ("spec_pulse " ++ dec i)) (Some PtEnd) rdelay, Square rdur ramp rport rclock);
    ("acquisition " ++ dec i, mk_tc (Some ("readout_pulse " ++ dec i)) (Some PtStart) adelay, SSB int rport rclock 0 (Some (Z.of_nat i)) BinAverage 0) ]%string.

(** Two-tone spectroscopy with a frequency sweep: the readout pulse starts ro_pulse_delay after the end of the spectroscopy pulse, the
    acquisition with acquisition index i starts ro_acquisition_delay after the start of the readout pulse *)
Theorem C44_two_tone_nco : forall u fmt gdur gdelay amp dur port clock freqs ramp rdur rdelay rport rclock rfreq adelay int init reps,
  Uuids u -> freqs <> [] -> OnlyMeasureDelays gdelay -> ~ In clock ["cl0.baseband"; "digital"] -> ~ In rclock ["cl0.baseband"; "digital"; clock] ->
  exists s tl, two_tone_spec_sched_nco u fmt amp dur port clock freqs ramp rdur rdelay rport rclock rfreq adelay int init reps = Ok s /\
    l_reps s = reps /\ l_res s = l_res (new reps) ++ [(clock, hd 0 freqs); (rclock, rfreq)] /\ Timeline gdur gdelay s tl /\ List.length tl = (5 * List.length freqs)%nat /\
    forall i f, nth_error freqs i = Some f ->
    exists n1 n2 n3 n4 n5 t_idle t_set t_pulse t_ro t_acq,
      Segment tl (5 * i) [ (n1, Idle init, t_idle); (n2, SetFreq clock f, t_set); (n3, Square dur amp port clock, t_pulse); (n4, Square rdur ramp rport rclock, t_ro);
                           (n5, SSB int rport rclock 0 (Some (Z.of_nat i)) BinAverage 0, t_acq) ]%string /\
      AfterPrevious gdur gdelay tl (5 * i) /\ t_set == t_idle + init /\ t_pulse == t_set /\ t_ro == t_pulse + dur + rdelay /\ t_acq == t_ro + adelay.

Proof. intros u fmt gdur gdelay amp dur port clock freqs ramp rdur rdelay rport rclock rfreq adelay int init reps hu hne hd hc hc2. unfold two_tone_spec_sched_nco. destruct freqs as [|f0 fr] eqn:Ef; [easy|]. rewrite <- Ef in *. cbn zeta. rewrite add_clock_ok by exact hc. cbn [bind]. rewrite add_clock_ok by exact hc2. cbn [bind l_entries l_res l_reps]. replace f0 with (List.hd 0 freqs) by now rewrite Ef. set (xs := freqs) in *. match goal with |- context [for_enum _ ?s _] => set (s0 := s) end. clear Ef.
  set (b := b_two fmt amp dur port clock ramp rdur rdelay rport rclock adelay int init). lib_run u gdur gdelay hu (b_two fmt amp dur port clock ramp rdur rdelay rport rclock adelay int init) hne T h1 h2 h3.
  exists (ext s0 (blocks b 0 0 xs)), (tl_of (blocks b 0 0 xs) T). split; [exact h1|]. repeat (split; [reflexivity|]). split; [exact h2|].
  split; [rewrite tl_len; now apply blocks_len|]. intros i f hi.
  destruct (block_at b xs i f 5 T (fun _ _ _ => eq_refl) hi) as (hs & _). do 5 eexists; exists (T (5 * i + 0)%nat), (T (5 * i + 1)%nat), (T (5 * i + 2)%nat), (T (5 * i + 3)%nat), (T (5 * i + 4)%nat).
  split; [seg_ok hs|]. split; [lib_first b 5%nat hi h3 hd|]. split; [lib_prev b 5%nat hi h3 hd 0%nat|]. split; [lib_prev b 5%nat hi h3 hd 1%nat|]. split; [lib_ref b 5%nat hi h3 hd 3%nat 2%nat|]. lib_ref b 5%nat hi h3 hd 4%nat 3%nat. Qed.


Definition b_stair (u : nat -> string) (dur delay int : Q) (pport pclock aport aclock : string) (init : Q) (ch : Z) (base i : nat) (amp : Q) : list entry :=
  [ (u (base + 0)%nat, mk_tc None None 0, Idle init); ("SquarePulse_" ++ dec i, mk_tc None None 0, Square dur amp pport pclock);
    ("Acquisition_" ++ dec i, mk_tc (Some ("SquarePulse_" ++ dec i)) (Some PtStart) delay, SSB int aport aclock ch None BinAverage 0) ]%string.


(** Staircase: the i-th pulse has the i-th amplitude, its acquisition starts acquisition_delay after it *)
Theorem C44_acquisition_staircase : forall u gdur gdelay amps dur f delay int port clock init ch reps,
  Uuids u -> as_array amps <> [] -> OnlyMeasureDelays gdelay -> ~ In clock ["cl0.baseband"; "digital"] ->
  exists s tl, acquisition_staircase_sched u amps dur f delay int port clock init ch reps = Ok s /\ l_reps s = reps /\ l_res s = l_res (new reps) ++ [(clock, f)] /\ Timeline gdur gdelay s tl /\ List.length tl = (3 * List.length (as_array amps))%nat /\
    forall i amp, nth_error (as_array amps) i = Some amp ->
    exists n1 t_idle t_pulse t_acq,
      Segment tl (3 * i) [ (n1, Idle init, t_idle); ("SquarePulse_" ++ dec i, Square dur amp port clock, t_pulse); ("Acquisition_" ++ dec i, SSB int port clock ch None BinAverage 0, t_acq) ]%string /\
      AfterPrevious gdur gdelay tl (3 * i) /\ t_pulse == t_idle + init /\ t_acq == t_pulse + delay.

Proof. intros u gdur gdelay amps dur f delay int port clock init ch reps hu hne hd hc. unfold acquisition_staircase_sched. rewrite add_clock_ok by exact hc. cbn [bind]. match goal with |- context [for_enum _ ?s _] => set (s0 := s) end. set (xs := as_array amps) in *.
  set (b := b_stair u dur delay int port clock port clock init ch). lib_run u gdur gdelay hu (b_stair u dur delay int port clock port clock init ch) hne T h1 h2 h3.
  exists (ext s0 (blocks b 0 0 xs)), (tl_of (blocks b 0 0 xs) T). split; [exact h1|]. repeat (split; [reflexivity|]). split; [exact h2|].
  split; [rewrite tl_len; now apply blocks_len|]. intros i amp hi.
  destruct (block_at b xs i amp 3 T (fun _ _ _ => eq_refl) hi) as (hs & _). do 1 eexists; exists (T (3 * i + 0)%nat), (T (3 * i + 1)%nat), (T (3 * i + 2)%nat).
  split; [seg_ok hs|]. split; [lib_first b 3%nat hi h3 hd|]. split; [lib_prev b 3%nat hi h3 hd 0%nat|]. lib_ref b 3%nat hi h3 hd 2%nat 1%nat. Qed.


(** Staircase: the i-th pulse has the i-th amplitude, its acquisition starts acquisition_delay after it *)
Theorem C44_awg_staircase : forall u gdur gdelay amps dur f delay int port rport clock rclock init ch reps,
  Uuids u -> as_array amps <> [] -> OnlyMeasureDelays gdelay -> ~ In clock ["cl0.baseband"; "digital"] -> ~ In rclock ["cl0.baseband"; "digital"; clock] ->
  exists s tl, awg_staircase_sched u amps dur f delay int port rport clock rclock init ch reps = Ok s /\ l_reps s = reps /\ l_res s = l_res (new reps) ++ [(clock, f); (rclock, f)] /\ Timeline gdur gdelay s tl /\ List.length tl = (3 * List.length (as_array amps))%nat /\
    forall i amp, nth_error (as_array amps) i = Some amp ->
    exists n1 t_idle t_pulse t_acq,
      Segment tl (3 * i) [ (n1, Idle init, t_idle); ("SquarePulse_" ++ dec i, Square dur amp port clock, t_pulse); ("Acquisition_" ++ dec i, SSB int rport rclock ch None BinAverage 0, t_acq) ]%string /\
      AfterPrevious gdur gdelay tl (3 * i) /\ t_pulse == t_idle + init /\ t_acq == t_pulse + delay.

Proof. intros u gdur gdelay amps dur f delay int port rport clock rclock init ch reps hu hne hd hc hc2. unfold awg_staircase_sched. rewrite add_clock_ok by exact hc. cbn [bind]. rewrite add_clock_ok by exact hc2. cbn [bind l_entries l_res l_reps]. match goal with |- context [for_enum _ ?s _] => set (s0 := s) end. set (xs := as_array amps) in *.
  set (b := b_stair u dur delay int port clock rport rclock init ch). lib_run u gdur gdelay hu (b_stair u dur delay int port clock rport rclock init ch) hne T h1 h2 h3.
  exists (ext s0 (blocks b 0 0 xs)), (tl_of (blocks b 0 0 xs) T). split; [exact h1|]. repeat (split; [reflexivity|]). split; [exact h2|].
  split; [rewrite tl_len; now apply blocks_len|]. intros i amp hi.
  destruct (block_at b xs i amp 3 T (fun _ _ _ => eq_refl) hi) as (hs & _). do 1 eexists; exists (T (3 * i + 0)%nat), (T (3 * i + 1)%nat), (T (3 * i + 2)%nat).
  split; [seg_ok hs|]. split; [lib_first b 3%nat hi h3 hd|]. split; [lib_prev b 3%nat hi h3 hd 0%nat|]. lib_ref b 3%nat hi h3 hd 2%nat 1%nat. Qed.
