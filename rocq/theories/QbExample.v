(** C51, C52: cases that meet the hypotheses, and refutations by example. *)
From Verif Require Import Base PathModel JsonModel QbModel QbSpec QbProps QbSeq QbSeq2 QbPrep QbThms QbMod4 QbCal2 QbCal3 QbCal4 QbAccept.
Local Open Scope string_scope.
Local Open Scope list_scope.

(** A driver with all parameters, that rejects only the sequence "bad"; a calibration writes the corrections (and makes their caches invalid) *)
Definition fresh (v : value) : cell := {| hw := v; cached := None |}.
Definition drv (force : bool) : driver := {|
  has := fun _ _ => true;
  accepts := fun _ _ v => negb (py_eq v (VSeq "bad"));
  sideband_cal := fun i m => upd m (LSeq i) "mixer_corr_gain_ratio" (fresh (VNum (11 # 10)));
  lo_cal := fun _ m => upd m LMod "out0_offset_path0" (fresh (VNum (1 # 100)));
  force_set := force |}.
Lemma drv_good : forall b, GoodCalibration (drv b).
Proof. assert (C : forall m l p v, Coherent m -> Coherent (upd m l p (fresh v))).
  { intros m l p v h l' p' w e. destruct (key_dec (l, p) (l', p')) as [x|x]; [injection x as <- <-; rewrite upd_same in e; discriminate|]. rewrite upd_other in e |- * by auto. auto. }
  intros b. constructor; cbn [drv sideband_cal lo_cal].
  - intros i m l p n. apply upd_other. intros e. injection e as <- <-. apply n. unfold mixer_param. auto.
  - intros i m l p n. apply upd_other. intros e. injection e as <- <-. apply n. split; [auto|]. cbn. auto.
  - auto.
  - auto. Qed.
Definition boot : comp := {| mem := fun _ _ => fresh VNone; names := []; nco_changed := []; cals := []; mgr := None |}.
Lemma boot_coherent : Coherent (mem boot).
Proof. intros l p v e. discriminate. Qed.

Definition sq (prog : string) (f : Q) (thr : option Q) : aset := {|
  sync_en := true; channel_name := "complex_output_0"; outs := [0; 1]%Z; ins := [0; 1]%Z; sequence := Some prog; triggers := [(2, {| t_invert := Some false; t_count := Some 1%Z |}); (15, {| t_invert := None; t_count := Some 3%Z |})]%Z;
  write_en := Some true; write_address := Some 2%Z; write_invert := false;
  nco_en := true; offset_I := 0; offset_Q := 0; gain_I := 1; gain_Q := 1; mod_freq := Some f;
  mixer_phase := Some (3 # 1); mixer_gain := Some (1 # 1); auto_sb := SbOnIf;
  integration_length := Some 1000%Z; thr_threshold := thr; thr_rotation := Some (90 # 1); ttl_input := None; ttl_threshold := None; ttl_auto := None |}.
Definition bp : filt := {| coeffs := None; fconfig := "bypassed"; fmarker := "bypassed" |}.
Definition mod_settings (lo : Q) : mset := {|
  off0I := Some (1 # 10); off0Q := Some 0%Q; off1I := None; off1Q := None; in0_gain := Some 2%Z; in1_gain := None;
  dists := [{| exps := [{| coeffs := Some [(100 # 1); (1 # 10)]; fconfig := "enabled"; fmarker := "delay_comp" |}]; fir := bp |}];
  lo0_cal := LoOnLoIf; lo1_cal := LoOff; lo_freqs := [Some lo; None]; out_atts := [Some 10%Z; None]; in0_att := Some 4%Z |}.
Definition prog (lo f0 f1 : Q) (thr : option Q) (name : string) : program aset := {|
  p_settings := Some (mod_settings lo);
  p_seqs := [("seq0", sq name f0 thr); ("seq3", sq name f1 thr)];
  p_mapping := Some [("seq0", [("ch0", Some 0%Z)]); ("seq3", [("ch1", Some 1%Z)])] |}.
Definition data : channels_data := [("ch0", false); ("ch1", true)].
Lemma prog_dicts : forall lo f0 f1 thr name, Dicts (prog lo f0 f1 thr name).
Proof. intros. constructor.
  - cbn [prog p_seqs map fst]. repeat constructor; cbn; intuition discriminate.
  - intros n s h. cbn [prog p_seqs In] in h. destruct h as [h|[h|[]]]; injection h as <- <-; cbn; repeat constructor; cbn; intuition discriminate. Qed.
(** All kinds of modules accept the program, from a fresh instrument and again after it (the same with other frequencies) *)
Local Notation runs k b c p := (prepare (drv b) k data p c).
Example C51_example : forallb (fun k => match snd (runs k false boot (prog 5%Q 100%Q 200%Q (Some 1%Q) "a")), snd (runs k false (fst (runs k false boot (prog 5%Q 100%Q 200%Q (Some 1%Q) "a"))) (prog 6%Q 100%Q 250%Q None "b")) with Ok _, Ok _ => true | _, _ => false end) [QCM; QRM; QCM_RF; QRM_RF; QRC] = true.
Proof. vm_compute. reflexivity. Qed.
Definition kinds_of_calls (c : comp) : list calib := map fst (cals c).
(** on a fresh QRM-RF both sequencers and the LO are calibrated; with another frequency for seq3 only, it is calibrated and, in this mode, the LO *)
Example C52_example : let c1 := fst (runs QRM_RF false boot (prog 5%Q 100%Q 200%Q None "a")) in kinds_of_calls c1 = [SidebandCal 0; SidebandCal 3; LoCal "out0_in0_lo_cal"] /\
  kinds_of_calls (fst (runs QRM_RF false c1 (prog 5%Q 100%Q 250%Q None "b"))) = [SidebandCal 0; SidebandCal 3; LoCal "out0_in0_lo_cal"; SidebandCal 3; LoCal "out0_in0_lo_cal"] /\
  kinds_of_calls (fst (runs QRM_RF false c1 (prog 5%Q 100%Q 200%Q None "b"))) = [SidebandCal 0; SidebandCal 3; LoCal "out0_in0_lo_cal"].
Proof. vm_compute. auto. Qed.

Lemma result_pair {A B} (x : A * B) b : snd x = b -> x = (fst x, b).
Proof. intros <-. apply surjective_pairing. Qed.
(** After a [prepare] that raises, the retry does not make the calibration the first attempt owed: the frequency is the cached one already. *)
Theorem C52_retry_refuted : exists d p1 p2 c c1 c2 s, GoodCalibration d /\ Dicts p1 /\ Dicts p2 /\ Coherent (mem c) /\
  prepare d QCM data p1 c = (c1, Err OtherErr) /\ prepare d QCM data p2 c1 = (c2, Ok tt) /\ In ("seq0", s) (p_seqs p2) /\ SidebandDue (mem c) 0 s /\ calls (SidebandCal 0) (cals c2) = [].
Proof. exists (drv false), (prog 5%Q 100%Q 200%Q None "bad"), (prog 5%Q 100%Q 200%Q None "good"), boot.
  eexists (fst (runs QCM false boot (prog 5%Q 100%Q 200%Q None "bad"))), (fst (runs QCM false (fst (runs QCM false boot (prog 5%Q 100%Q 200%Q None "bad"))) (prog 5%Q 100%Q 200%Q None "good"))), (sq "good" 100%Q None).
  split; [apply drv_good|]. split; [apply prog_dicts|]. split; [apply prog_dicts|]. split; [apply boot_coherent|].
  assert (E : snd (runs QCM false boot (prog 5%Q 100%Q 200%Q None "bad")) = Err OtherErr) by (vm_compute; reflexivity).
  assert (F : snd (runs QCM false (fst (runs QCM false boot (prog 5%Q 100%Q 200%Q None "bad"))) (prog 5%Q 100%Q 200%Q None "good")) = Ok tt) by (vm_compute; reflexivity).
  split; [exact (result_pair _ _ E)|]. split; [exact (result_pair _ _ F)|]. split; [cbn; auto|]. split; [split; [reflexivity|]; split; [reflexivity|]; intros w e; discriminate e|]. vm_compute. reflexivity. Qed.
(** When the cache of a parameter is not what the instrument has (another client, a reset of the instrument), [prepare] may leave the wrong value, and says nothing. *)
Definition reset (c : comp) : comp := {| mem := fun l p => {| hw := VNone; cached := cached (mem c l p) |}; names := names c; nco_changed := nco_changed c; cals := cals c; mgr := mgr c |}.
Theorem C51_stale_cache_refuted : exists d p c c' s v, GoodCalibration d /\ Dicts p /\ force_set d = false /\ prepare d QRM data p c = (c', Ok tt) /\ In ("seq0", s) (p_seqs p) /\ SeqWants QRM s "sequence" v /\ ~ Holds (mem c') (LSeq 0) "sequence" v.
Proof. set (c := reset (fst (runs QRM false boot (prog 5%Q 100%Q 200%Q None "a")))). exists (drv false), (prog 5%Q 100%Q 200%Q None "a"), c, (fst (runs QRM false c (prog 5%Q 100%Q 200%Q None "a"))), (sq "a" 100%Q None), (VSeq "a").
  split; [apply drv_good|]. split; [apply prog_dicts|]. split; [reflexivity|]. assert (F : snd (runs QRM false c (prog 5%Q 100%Q 200%Q None "a")) = Ok tt) by (vm_compute; reflexivity).
  split; [exact (result_pair _ _ F)|]. split; [cbn; auto|]. split; [now apply w_sequence|]. unfold Holds. vm_compute. discriminate. Qed.
(** A [prepare] that raises may leave the sequencers with programs of different schedules, all enabled. *)
Definition bad2 : program aset := {| p_settings := None; p_seqs := [("seq0", sq "new" 100%Q None); ("seq3", sq "bad" 100%Q None)]; p_mapping := None |}.
Theorem C51_mixture_refuted : exists d p1 p2 c c1 c2 e, GoodCalibration d /\ Dicts p1 /\ Coherent (mem c) /\ prepare d QRM data p1 c = (c1, Ok tt) /\ prepare d QRM data p2 c1 = (c2, Err e) /\
  Holds (mem c2) (LSeq 0) "sequence" (VSeq "new") /\ Holds (mem c2) (LSeq 3) "sequence" (VSeq "a") /\ Holds (mem c2) (LSeq 0) "sync_en" (VBool true) /\ Holds (mem c2) (LSeq 3) "sync_en" (VBool true).
Proof. set (c1 := fst (runs QRM false boot (prog 5%Q 100%Q 200%Q None "a"))). exists (drv false), (prog 5%Q 100%Q 200%Q None "a"), bad2, boot, c1, (fst (runs QRM false c1 bad2)), OtherErr.
  split; [apply drv_good|]. split; [apply prog_dicts|]. split; [apply boot_coherent|].
  assert (E : snd (runs QRM false boot (prog 5%Q 100%Q 200%Q None "a")) = Ok tt) by (vm_compute; reflexivity). assert (F : snd (runs QRM false c1 bad2) = Err OtherErr) by (vm_compute; reflexivity).
  split; [exact (result_pair _ _ E)|]. split; [exact (result_pair _ _ F)|]. unfold Holds. vm_compute. auto. Qed.
(** the hypotheses of [C51_leftover] and [C52_calibrated_at_old_lo_refuted] *)
Example C51_leftover_example : let c1 := fst (runs QRM_RF false boot (prog 5%Q 100%Q 200%Q (Some (1 # 2)%Q) "a")) in let c2 := fst (runs QRM_RF false c1 (prog 6%Q 100%Q 250%Q None "b")) in
  snd (runs QRM_RF false boot (prog 5%Q 100%Q 200%Q (Some (1 # 2)%Q) "a")) = Ok tt /\ snd (runs QRM_RF false c1 (prog 6%Q 100%Q 250%Q None "b")) = Ok tt /\ hw (mem c2 (LSeq 3) "thresholded_acq_threshold") = VNum (1 # 2) /\
  map (fun m => hw (m LMod "out0_in0_lo_freq")) (calls (SidebandCal 3) (cals c2)) = [VNone; VNum 5] /\ hw (mem c2 LMod "out0_in0_lo_freq") = VNum 6.
Proof. vm_compute. auto. Qed.
(** the same program meets the hypotheses of [C51_accepts] on every analog module *)
Example C51_acceptable_example : forall k lo f0 f1 thr, k <> QTM -> Acceptable k data (prog lo f0 f1 thr "a").
Proof. intros k lo f0 f1 thr hk. constructor.
  - intros n s h. cbn [prog p_seqs In] in h. destruct h as [h|[h|[]]]; injection h as <- <-; [exists 0%nat|exists 3%nat]; (split; [reflexivity|destruct k; cbn; repeat constructor]).
  - intros _ n s h. cbn [prog p_seqs In] in h. destruct h as [h|[h|[]]]; injection h as <- <-; reflexivity.
  - intros _ st o dc i cs e1 e2 _ _ e3. cbn in e1. injection e1 as <-. cbn in e2. destruct o as [|o]; [|destruct o; discriminate]. cbn in e2. injection e2 as <-. cbn [exps] in e3. destruct i as [|[|i]]; cbn in e3; [|discriminate..]. injection e3 as <-. cbn. repeat constructor.
  - intros _ hwm e. cbn in e. injection e as <-. split; [|split].
    + intros n chans h. cbn in h. destruct h as [h|[h|[]]]; injection h as <- <-; [exists 0%nat|exists 3%nat]; (split; [reflexivity|destruct k; cbn; repeat constructor]).
    + intros n chans ch h _ h2. cbn in h. destruct h as [h|[h|[]]]; injection h as <- <-; cbn in h2; destruct h2 as [h2|[]]; discriminate.
    + intros n chans m chans' ch ch' a b h1 h2 d1 d2 i1 i2. cbn in h1, h2, d1, d2. assert (ch = "ch1") by (destruct d1 as [d1|[d1|[]]]; congruence). assert (ch' = "ch1") by (destruct d2 as [d2|[d2|[]]]; congruence). subst.
      destruct h1 as [h1|[h1|[]]]; injection h1 as <- <-; destruct h2 as [h2|[h2|[]]]; injection h2 as <- <-; auto; cbn in i1, i2; intuition discriminate. Qed.
