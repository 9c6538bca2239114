(** C74: which configurations are accepted; refutations and cases that meet the hypotheses. *)
From Verif Require Import Base CircModel PathModel JsonModel QbModel QbSpec QbProps QbSeq QbThms QbCal2 QbExample FreqModel FreqProps AcqSetModel AcqSetSpec InitModel InitProps InitProps2 InitThms InitThms2.
From Coq Require Import Ascii.
Local Open Scope string_scope.
Local Open Scope list_scope.

(** Exactly: options and corrections in range, a channel of a known class with a number, and, on RF modules, in the table of markers *)
Theorem C74_accepted_iff : forall k c, is_ok (init k c) <-> Startable k c.
Proof. intros k c. split; [intros [[s m] h]; now apply init_inv in h|apply init_total]. Qed.

Definition path_kind (k : kind) : PathModel.kind := match k with QCM => PathModel.QCM | QRM => PathModel.QRM | QCM_RF => PathModel.QCM_RF | QRM_RF => PathModel.QRM_RF | QRC => PathModel.QRC | QTM => PathModel.QTM end.
Definition fine (k : kind) (ch : string) : bool :=
  match class_of ch, output_indices ch, input_indices ch None with Ok _, Ok _, Ok _ => match default_markers k with Some t => match get t ch with Some _ => true | None => String.eqb ch "complex_output_1" && match k with QRM_RF => true | _ => false end end | None => true end | _, _, _ => false end.
(** Every channel that may be given to a sequencer of a module starts, except the second output of a QRM-RF *)
Theorem C74_channels : forall k j a ch c, k <> QTM -> In (j, a) (allowed (path_kind k)) -> In ch (fst a ++ snd a) -> c_channel c = ch -> c_measure c = None ->
  Within (-1) 1 (option_of c g_off_I) /\ Within (-1) 1 (option_of c g_off_Q) /\ Within (-1) 1 (option_of c g_gain_I) /\ Within (-1) 1 (option_of c g_gain_Q) -> Within (1 # 2) 2 (mixer_of c g_ratio) /\ Within (-45) 45 (mixer_of c g_phase) ->
  ~ (k = QRM_RF /\ ch = "complex_output_1") -> is_ok (init k c).
Proof. intros k j a ch c nk ha hch hc hm ho hx nn. apply C74_accepted_iff.
  assert (F : forallb (fun x : Z * (list string * list string) => forallb (fine k) (fst (snd x) ++ snd (snd x))) (allowed (path_kind k)) = true) by (destruct k; [vm_compute; reflexivity..|now destruct nk]).
  rewrite forallb_forall in F. specialize (F _ ha). cbn [snd fst] in F. rewrite forallb_forall in F. specialize (F _ hch). unfold fine in F.
  destruct (class_of ch) as [cl|] eqn:E1; [|discriminate]. destruct (output_indices ch) as [ol|] eqn:E2; [|discriminate]. destruct (input_indices ch None) as [il|] eqn:E3; [|discriminate].
  constructor; auto; unfold is_ok; rewrite ?hc, ?hm; eauto. intros t ht e. rewrite ht, e in F. apply andb_prop in F. destruct F as [f1 f2]. apply String.eqb_eq in f1. apply nn. split; [|auto]. destruct k; congruence. Qed.
(** That one is among the channels of a sequencer but has no marker: KeyError *)
Theorem C74_second_output_refuted : exists c, (forall j a, In (j, a) (allowed (path_kind QRM_RF)) -> In (c_channel c) (fst a)) /\ c_options c = None /\ c_mixer c = None /\ init QRM_RF c = Err KeyError.
Proof. exists {| c_channel := "complex_output_1"; c_measure := None; c_desc := None; c_options := None; c_interm := Some 100; c_mixer := None |}. split; [|split; [|split]]; try reflexivity.
  intros j a h. cbn in h. repeat (destruct h as [h|h]; [injection h as <- <-; cbn; tauto|]). destruct h. Qed.

(** *** Refutations *)
Definition plain (ch : string) (f : option Q) : cfg := {| c_channel := ch; c_measure := None; c_desc := None; c_options := None; c_interm := f; c_mixer := None |}.
Definition no_los : los := {| ext := None; int := fun _ => None |}.
Definition ssb : acq := {| protocol := SSBIntegrationComplex; bin_mode := AVERAGE; duration := 1000; channel := 0; rotation := None; threshold := None; addr := None; counts := None; dual := None; addrs := None; time := None |}.
(** An input of a QRM with an intermediate frequency of 100 MHz: its acquisitions are not demodulated *)
Theorem C74_demodulation_refuted : exists c s, c_interm c = Some 100000000 /\ settings QRM c (Some 100000000) no_los [ssb] "program" [] = Ok (no_los, s) /\
  forall d data p x x' i, Loaded d QRM data p x x' i s -> Holds (mem x') (LSeq i) "integration_length_acq" (VNum 1000) /\ Holds (mem x') (LSeq i) "demod_en_acq" (VBool false).
Proof. exists (plain "complex_input_0" (Some 100000000)). eexists. split; [reflexivity|]. split; [vm_compute; reflexivity|]. intros d data p x x' i ld. split.
  - apply (loaded_holds _ _ _ _ _ _ _ _ _ _ ld). apply (w_len _ _ 1000%Z); [now left|reflexivity].
  - apply (loaded_holds _ _ _ _ _ _ _ _ _ _ ld). apply w_demod. now left. Qed.
(** A digital channel of a QRC always has its NCO on, without a frequency: a driver that does not accept [None] for one cannot be prepared *)
Definition picky : driver := {| QbModel.has := fun _ _ => true; accepts := fun _ q v => negb (String.eqb q "nco_freq" && match v with VNone => true | _ => false end); sideband_cal := fun _ m => m; lo_cal := fun _ m => m; force_set := true |}.
Definition single (s : aset) : program aset := {| p_settings := None; p_seqs := [("seq0", s)]; p_mapping := None |}.
Theorem C74_qrc_marker_refuted : exists s, settings QRC (plain "digital_output_0" None) (Some 5) no_los [] "program" [] = Ok (no_los, s) /\ snd (prepare picky QRC [] (single s) boot) = Err OtherErr /\
  exists s', settings QCM (plain "digital_output_0" None) (Some 5) no_los [] "program" [] = Ok (no_los, s') /\ snd (prepare picky QCM [] (single s') boot) = Ok tt.
Proof. eexists. split; [vm_compute; reflexivity|]. split; [vm_compute; reflexivity|]. eexists. split; vm_compute; reflexivity. Qed.
(** So it is for an input of a QRC *)
Theorem C74_qrc_input_refuted : exists s, settings QRC (plain "complex_input_0" None) (Some 5) no_los [ssb] "program" [] = Ok (no_los, s) /\ snd (prepare picky QRC [] (single s) boot) = Err OtherErr.
Proof. eexists. split; vm_compute; reflexivity. Qed.

(** *** Cases that meet the hypotheses: a measurement on a QRM with options, and the outputs of the other modules *)
Definition measure : cfg := {| c_channel := "complex_output_0"; c_measure := Some ["complex_input_0"]; c_desc := None;
  c_options := Some {| g_off_I := Some (1 # 10); g_off_Q := None; g_gain_I := Some (9 # 10); g_gain_Q := None; g_ttl := Some (1 # 2) |}; c_interm := None;
  c_mixer := Some {| g_ratio := Some (95 # 100); g_phase := None; g_sideband := SbOff |} |}.
Lemma drv_force_loaded k s x' : k <> QTM -> snd (prepare (drv true) k [] (single s) boot) = Ok tt -> x' = fst (prepare (drv true) k [] (single s) boot) -> NoDup (map fst (QbModel.triggers s)) -> Loaded (drv true) k [] (single s) boot x' 0 s.
Proof. intros nk h -> nd. constructor; auto; [apply drv_good| | |].
  - constructor; [cbn; repeat constructor; tauto|]. intros n t [e|[]]. injection e as <- <-. auto.
  - now apply result_pair.
  - cbn. auto. Qed.
Example C74_example : exists s x', settings QRM measure (Some 50000000) no_los [ssb] "program" [] = Ok (no_los, s) /\ Loaded (drv true) QRM [] (single s) boot x' 0 s /\ acquires measure "complex" 0 /\ modes QRM "complex" /\ c_channel measure = chan "complex" "output" 0 /\
  hw (mem x' (LSeq 0) "nco_freq") = VNum 50000000 /\ hw (mem x' (LSeq 0) "connect_acq_Q") = VStr "in1".
Proof. eexists. eexists. split; [vm_compute; reflexivity|]. split; [apply drv_force_loaded; [discriminate|vm_compute; reflexivity|reflexivity|constructor]|].
  split; [split; [constructor|]; right; exists "complex", 0%nat; repeat split; constructor|]. split; [split; [constructor|discriminate]|]. split; [reflexivity|]. split; vm_compute; reflexivity. Qed.
(** an RF module with its own oscillator; a QRM with an external one *)
Example C74_example_rf : exists s l' x', settings QCM_RF (plain "complex_output_1" (Some 100)) (Some 5000) no_los [] "program" [] = Ok (l', s) /\ int l' 1%nat = Some 4900 /\ Loaded (drv true) QCM_RF [] (single s) boot x' 0 s /\ hw (mem x' (LSeq 0) "connect_out1") = VStr "IQ".
Proof. eexists. eexists. eexists. split; [vm_compute; reflexivity|]. split; [vm_compute; reflexivity|]. split; [apply drv_force_loaded; [discriminate|vm_compute; reflexivity|reflexivity|constructor]|]. vm_compute. reflexivity. Qed.
Example C74_example_ext : exists s l' x', settings QCM (plain "real_output_2" (Some 100)) (Some 5000) {| ext := Some None; int := fun _ => None |} [] "program" [] = Ok (l', s) /\ ext l' = Some (Some 4900) /\ Loaded (drv true) QCM [] (single s) boot x' 0 s /\ hw (mem x' (LSeq 0) "connect_out2") = VStr "I".
Proof. eexists. eexists. eexists. split; [vm_compute; reflexivity|]. split; [vm_compute; reflexivity|]. split; [apply drv_force_loaded; [discriminate|vm_compute; reflexivity|reflexivity|constructor]|]. vm_compute. reflexivity. Qed.
