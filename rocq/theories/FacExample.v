(** C62: concrete measurements and gates (the hypotheses of the theorems are met), and where a measurement is not what was asked for. *)
From Coq Require Import Ascii Lqa.
From Verif Require Import Base DevModel DevSpec DevProps DevThms DevThms2 DevConf DevConfSpec DevConfThms DevConfThms2 DevConfThms4 TimingModel TimingSpec FacModel FacSpec FacProps FacThms FacThms2 FacThms3 FacThms4 FacThms5 FacThms6 FacThms7 FacThms8 FacThms9.
Local Open Scope string_scope.

Definition bench : list DevModel.op :=
  [Create BasicTransmonElement (Element "q0") []; Create BasicTransmonElement (Element "q1") []; Create BasicElectronicNVElement (Element "e0") []; Create CompositeSquareEdge (EdgeOf "q0" "q1") [];
   AddElement "q0"; AddElement "q1"; AddElement "e0"; AddEdge "q0_q1";
   SetParam "q0" "measure" "pulse_amp" (VNum (1#4)); SetParam "q0" "measure" "pulse_duration" (VNum (1#50000)); SetParam "q0" "measure" "acq_delay" (VNum (1#20000)); SetParam "q0" "measure" "integration_time" (VNum (1#20000));
   SetParam "q0" "rxy" "amp180" (VNum (1#2)); SetParam "q0" "rxy" "duration" (VNum (1#1000)); SetParam "q0_q1" "cz" "square_amp" (VNum (1#2)); SetParam "q0_q1" "cz" "square_duration" (VNum (1#1000));
   SetParam "q0_q1" "cz" "q1_phase_correction" (VInt 45); SetParam "e0" "measure" "acq_delay" (VNum (1#100))].
Local Notation lab := (session "lab" bench).
Definition cfg : config := match device_config (fst lab) (snd lab) with Ok c => c | Err _ => {| celements := []; cclocks := []; cedges := []; cstrategy := "" |} end.
Definition elem (m : string) : instr := match find_instrument (fst lab) m with Ok x => x | Err _ => {| iid := Element ""; icls := BasicTransmonElement; isubs := [] |} end.
Lemma is_configured : forall m, In m ["q0"; "q1"; "e0"; "q0_q1"] -> configured cfg m (elem m).
Proof.
  intros m I. exists "lab", bench, (fst lab), (snd lab). split; [apply surjective_pairing|]. split; [vm_compute; reflexivity|]. destruct I as [<-|[<-|[<-|[<-|[]]]]]; (split; [vm_compute; tauto | vm_compute; reflexivity]).
Qed.
(** Measure(q0) with the given protocol and bin mode *)
Definition measure_of (protocol bin channel : cval) : dict :=
  [("acq_channel_override", channel); ("coords", none); ("acq_index", none); ("bin_mode", bin); ("acq_protocol", protocol); ("feedback_trigger_label", none)].
Definition plain_measure := measure_of none none none.
Lemma gate_keys : forall p b c k, In k measure_gate_info -> lookup k (measure_of p b c) <> None.
Proof. intros p b c k I. cbn in I. destruct I as [<-|[<-|[<-|[<-|[<-|[<-|[]]]]]]]; discriminate. Qed.

(** C62_measure, C62_dispersive and C62_no_delay: there is an acquisition 10 ms after the start, and the next operation is moved by -10 ms *)

Ltac step n := eapply (Plays_item _ _ _ _ _ _ n); [reflexivity | reflexivity | reflexivity |].
Ltac pl := eapply Plays_entry; [left; reflexivity | reflexivity |]; vm_compute; reflexivity.
(** C62_measure, C62_dispersive and C62_no_delay: there is an acquisition 50 us after the start, and the next operation is moved by -50 us *)
Example measure_example : exists d o o' e s, gate_op cfg "q0" "measure" true plain_measure [] = Ok d /\ timing d = Ok o /\ determine ASAP o = Ok o' /\ Plays d o' 0 e s /\ is_acquisition e /\
  s == 1#20000 /\ moved o' == -1#20000 /\ (exists D, op_dur o' = Some D /\ D == 1#10000) /\ measures (icls (elem "q0")) = Some "dispersive_measurement_transmon".
Proof.
  eexists _, _, _, _, (1#20000)%Q. split; [vm_compute; reflexivity|]. split; [vm_compute; reflexivity|]. split; [vm_compute; reflexivity|]. split; [step 2%nat; pl|].
  split; [discriminate|]. split; [reflexivity|]. split; [vm_compute; reflexivity|]. split; [eexists; split; [vm_compute; reflexivity | vm_compute; reflexivity] | reflexivity].
Qed.
(** an acquisition delay given to Measure is not the delay that the next operation is moved by *)
Theorem C62_no_delay_override_refuted : ~ NextNotDelayed ["acq_delay"].
Proof.
  intros R. eassert (X : _) by (eapply (R cfg "q0" (elem "q0") _ plain_measure [("acq_delay", numq (1#40000))] _ _ _ _ (1#40000)%Q (is_configured _ (or_introl eq_refl)) eq_refl (gate_keys _ _ _));
    [discriminate | intros k [<-|[]]; now left | eexists _, _; split; vm_compute; reflexivity | vm_compute; reflexivity | vm_compute; reflexivity | vm_compute; reflexivity | step 2%nat; pl | discriminate]).
  vm_compute in X. discriminate X.
Qed.
(** with a frequency, the next operation is not moved *)
Theorem C62_no_delay_frequency_refuted : ~ NextNotDelayed ["freq"].
Proof.
  intros R. eassert (X : _) by (eapply (R cfg "q0" (elem "q0") _ plain_measure [("freq", numq 5000000000)] _ _ _ _ (1#20000)%Q (is_configured _ (or_introl eq_refl)) eq_refl (gate_keys _ _ _));
    [discriminate | intros k [<-|[]]; now left | eexists _, _; split; vm_compute; reflexivity | vm_compute; reflexivity | vm_compute; reflexivity | vm_compute; reflexivity | step 1%nat; step 2%nat; pl | discriminate]).
  vm_compute in X. discriminate X.
Qed.
(** and the frequency is set back while the acquisition is still running *)
Theorem C62_frequency_no_delay_refuted : ~ FrequencyHeld true.
Proof.
  intros R. eassert (X : _) by (eapply (R cfg "q0" (elem "q0") _ plain_measure [("freq", numq 5000000000)] _ _ _ _ (1#20000)%Q (1#20000)%Q _ (1#20000)%Q (is_configured _ (or_introl eq_refl)) eq_refl (gate_keys _ _ _));
    [discriminate | intros k [<-|[]]; reflexivity | eexists _, _; split; vm_compute; reflexivity | vm_compute; reflexivity | vm_compute; reflexivity | vm_compute; reflexivity | step 1%nat; step 2%nat; pl | discriminate |
     vm_compute; reflexivity | step 2%nat; pl | intros N; apply N; reflexivity | reflexivity]).
  vm_compute in X. now apply X.
Qed.
(** the hypotheses of C62_frequency_held *)
Example frequency_example : exists d o o' e b s t, gate_op cfg "q0" "measure" false plain_measure [("freq", numq 5000000000)] = Ok d /\ timing d = Ok o /\ determine ASAP o = Ok o' /\ Plays d o' 0 e s /\ is_acquisition e /\ Plays d o' 0 b t /\
  lookup "clock_freq_new" b = Some none /\ s == 1#20000 /\ t == 1#10000.
Proof.
  eexists _, _, _, _, _, (1#20000)%Q, (1#10000)%Q. split; [vm_compute; reflexivity|]. split; [vm_compute; reflexivity|]. split; [vm_compute; reflexivity|]. split; [step 1%nat; step 2%nat; pl|].
  split; [discriminate|]. split; [step 2%nat; pl|]. repeat split.
Qed.

(** Every acquisition of a measurement has the acquisition channel and the bin mode that were asked for. *)
Definition ChannelKept (protocol : string) : Prop := forall a d o o' t e s, dispersive a = Ok d -> is_none (at_ a "freq") = true -> chosen_protocol a = str protocol -> timing d = Ok o -> determine ASAP o = Ok o' ->
  Plays d o' t e s -> is_acquisition e -> at_ e "acq_channel" = chosen_channel a.
Definition BinModeKept (protocol : string) : Prop := forall a d o o' t e s, dispersive a = Ok d -> is_none (at_ a "freq") = true -> chosen_protocol a = str protocol -> timing d = Ok o -> determine ASAP o = Ok o' ->
  Plays d o' t e s -> is_acquisition e -> at_ e "bin_mode" = chosen_bin_mode "average" a.
Definition args (protocol bin channel : string) : dict :=
  [("pulse_amp", numq (1#4)); ("pulse_duration", numq (1#50000)); ("port", str "q0:res"); ("clock", str "q0.ro"); ("acq_duration", numq (1#20000)); ("acq_delay", zero); ("acq_channel", str channel); ("pulse_type", str "SquarePulse");
   ("bin_mode", str bin); ("acq_protocol", str protocol); ("reset_clock_phase", CV (VBool true)); ("num_points", CV (VInt 3)); ("next_operation_delay", zero)].
Lemma only_acquisition : forall a d o o' t e s, dispersive a = Ok d -> is_none (at_ a "freq") = true -> chosen_protocol a <> str "LongTimeTrace" -> timing d = Ok o -> determine ASAP o = Ok o' -> Plays d o' t e s -> is_acquisition e ->
  exists P, chosen_protocol a = str P /\ acquires a P e.
Proof.
  intros a d o o' t e s H Fr NL T Dt Pl Ia. destruct (C62_dispersive _ _ H Fr NL) as [P [ro [ac [rs [g [EP [_ [_ [_ [Ac [_ [_ [Np X]]]]]]]]]]]]]. destruct (X o T) as [o2 [D [E1 [_ [_ [Pls _]]]]]]. rewrite Dt in E1. injection E1 as <-.
  rewrite Forall_forall in Np. apply Pls in Pl as [[I _]|[q [_ [-> _]]]]; [now elim Ia; apply Np in I | eauto].
Qed.
Theorem C62_channel_kept : forall protocol, protocol <> "LongTimeTrace" -> ChannelKept protocol.
Proof.
  intros pr N a d o o' t e s H Fr EP T Dt Pl Ia. destruct (only_acquisition _ _ _ _ _ _ _ H Fr ltac:(rewrite EP; intros E; injection E; auto) T Dt Pl Ia) as [P [_ [Ac _]]]. eapply field_at; [exact Ac | cbn; tauto].
Qed.
Theorem C62_bin_mode_kept : forall protocol, protocol <> "LongTimeTrace" -> protocol <> "Trace" -> BinModeKept protocol.
Proof.
  intros pr N N2 a d o o' t e s H Fr EP T Dt Pl Ia. destruct (only_acquisition _ _ _ _ _ _ _ H Fr ltac:(rewrite EP; intros E; injection E; auto) T Dt Pl Ia) as [P [E2 [_ [Ac _]]]]. rewrite EP in E2. injection E2 as <-. eapply field_at; [exact (Ac N2) | cbn; tauto].
Qed.
(** a long time trace is always acquired on channel 0 *)
Theorem C62_long_time_trace_channel_refuted : ~ ChannelKept "LongTimeTrace".
Proof.
  intros R. eassert (X : _) by (eapply (R (args "LongTimeTrace" "append" "ch_7") _ _ _ 0 _ 0); [vm_compute; reflexivity | reflexivity | reflexivity | vm_compute; reflexivity | vm_compute; reflexivity |
    step 1%nat; eapply (Plays_round _ _ _ _ 0); [split; [apply Z.le_refl | reflexivity] | reflexivity |]; step 1%nat; pl | discriminate]).
  vm_compute in X. discriminate X.
Qed.
(** a trace always averages *)
Theorem C62_trace_bin_mode_refuted : ~ BinModeKept "Trace".
Proof.
  intros R. eassert (X : _) by (eapply (R (args "Trace" "append" "ch_7") _ _ _ 0 _ 0); [vm_compute; reflexivity | reflexivity | reflexivity | vm_compute; reflexivity | vm_compute; reflexivity | step 2%nat; pl | discriminate]).
  vm_compute in X. discriminate X.
Qed.
(** The rotation configured for thresholding is used. *)
Definition RotationKept (protocol : string) : Prop := forall a d o o' t e s, dispersive a = Ok d -> is_none (at_ a "freq") = true -> chosen_protocol a = str protocol -> timing d = Ok o -> determine ASAP o = Ok o' ->
  Plays d o' t e s -> is_acquisition e -> at_ e "acq_rotation" = at_ a "acq_rotation".
Theorem C62_rotation_kept : RotationKept "ThresholdedAcquisition".
Proof.
  intros a d o o' t e s H Fr EP T Dt Pl Ia. destruct (only_acquisition _ _ _ _ _ _ _ H Fr ltac:(rewrite EP; discriminate) T Dt Pl Ia) as [P [E2 [_ [_ [_ [_ [Ac _]]]]]]]. rewrite EP in E2. injection E2 as <-. eapply field_at; [exact (Ac eq_refl) | cbn; tauto].
Qed.
Theorem C62_weighted_rotation_refuted : ~ RotationKept "WeightedThresholdedAcquisition".
Proof.
  intros R. eassert (X : _) by (eapply (R (args "WeightedThresholdedAcquisition" "append" "ch_7" ++ [("acq_rotation", numq 30); ("acq_weights_a", CV (VList [VInt 1; VInt 1])); ("acq_weights_b", CV (VList [VInt 1; VInt 1])); ("acq_weights_sampling_rate", numq 1000000000)])%list _ _ _ 0 _ 0);
    [vm_compute; reflexivity | reflexivity | reflexivity | vm_compute; reflexivity | vm_compute; reflexivity | step 2%nat; pl | discriminate]).
  vm_compute in X. discriminate X.
Qed.

(** gates: the hypotheses of C62_rxy_transmon, C62_cz, C62_optical and C62_hadamard *)
Example rxy_example : exists e amp, gate_op cfg "q0" "Rxy" false [("theta", CV (VInt 90)); ("phi", zero)] [] = Ok (DOp "DRAGPulse" [e] []) /\ amp == 1#4 /\ at_ e "G_amp" = numq amp /\ at_ e "clock" = str "q0.01".
Proof. eexists _, _. split; [vm_compute; reflexivity|]. split; [|split; vm_compute; reflexivity]. vm_compute. reflexivity. Qed.
Example cz_example : exists sq zp zc, gate_op cfg "q0_q1" "CZ" false [] [] = Ok (DOp "SquarePulse" [sq; zp; zc] []) /\ at_ sq "port" = str "q0:fl" /\ at_ zc "phase_shift" = CV (VInt 45) /\ at_ zc "clock" = str "q1.01" /\
  connects (elem "q0_q1") "q0" "q1".
Proof. eexists _, _, _. split; [vm_compute; reflexivity|]. repeat split. Qed.
Example nv_example : exists ps q, gate_op cfg "e0" "measure" false plain_measure [] = Ok (DOp "OpticalMeasurement" ps [q]) /\ List.length ps = 1%nat /\ gate_op cfg "e0" "measure" true plain_measure [] = Err TypeError.
Proof. eexists _, _. split; [vm_compute; reflexivity|]. split; vm_compute; reflexivity. Qed.
Example hadamard_example : gate_op cfg "q1" "H" false [] [] = Ok (DSched None [(DGate "Z" ["q1"], None, zero); (DGate "Y90" ["q1"], None, zero)]).
Proof. vm_compute. reflexivity. Qed.
