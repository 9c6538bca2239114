(** C66: where the settings do not fit an acquisition. *)
From Verif Require Import Base NumericModel NumericProps AcqSetModel AcqSetSpec AcqSetProps AcqSetThms AcqSetThms2 AcqSetThms3.
Local Open Scope Q_scope.

Definition blank (p : prot) (m : binmode) (d : Q) (ch : nat) : acq :=
  {| protocol := p; bin_mode := m; duration := d; channel := ch; rotation := None; threshold := None; addr := None; counts := None; dual := None; addrs := None; time := None |}.
Definition thresholded (d r t : Q) (ch : nat) (z : option (option Z)) : acq :=
  {| protocol := ThresholdedAcquisition; bin_mode := AVERAGE; duration := d; channel := ch; rotation := Some r; threshold := Some t; addr := z; counts := None; dual := None; addrs := None; time := None |}.
Definition counting (d : Q) (ch : nat) (z : option (option Z)) (t : Z) (c : cond) : acq :=
  {| protocol := ThresholdedTriggerCount; bin_mode := APPEND; duration := d; channel := ch; rotation := None; threshold := None; addr := z; counts := Some (t, c); dual := None; addrs := None; time := None |}.
Definition tagging (p : prot) (d : Q) (s : tsource) (r : tref) (c : option Z) : acq :=
  {| protocol := p; bin_mode := APPEND; duration := d; channel := 0%nat; rotation := None; threshold := None; addr := None; counts := None; dual := None; addrs := None; time := Some (s, r, c) |}.
Lemma built_blank p m d ch : p <> ThresholdedAcquisition -> p <> WeightedThresholdedAcquisition -> p <> ThresholdedTriggerCount -> p <> DualThresholdedTriggerCount -> p <> Timetag -> p <> TimetagTrace -> built (blank p m d ch).
Proof. intros. unfold built. cbn. destruct p; intuition congruence. Qed.
Lemma built_thresholded d r t ch z : built (thresholded d r t ch z).
Proof. unfold built. cbn. intuition congruence. Qed.
Lemma built_counting d ch z t c : built (counting d ch z t c).
Proof. unfold built. cbn. intuition congruence. Qed.
Lemma built_tagging d s r c : built (tagging Timetag d s r c).
Proof. unfold built. cbn. intuition congruence. Qed.

Example qrm_example : exists st, qrm [0%nat] [thresholded 1000 90 (1#10) 0 (Some (Some 3%Z)); blank SSBIntegrationComplex AVERAGE 1000 1; blank TriggerCount DISTRIBUTION 500 2] = Ok st /\
  integration_length st = Some 1000%Z /\ write_address st = Some 3%Z /\ ttl_auto st = Some true /\ ttl_input st = Some 0%nat.
Proof. eexists. split; [vm_compute; reflexivity|]. repeat split; reflexivity. Qed.
Example qtm_example : exists st, qtm [counting 200 0 (Some (Some 5%Z)) 10 GREATER_THAN_EQUAL_TO; counting 300 1 (Some None) 10 GREATER_THAN_EQUAL_TO] = Ok st /\ sends st 10 = Some 5%Z /\ sends st 9 = Some 0%Z.
Proof. eexists. split; [vm_compute; reflexivity|]. repeat split; reflexivity. Qed.

(** Only the threshold per nanosecond is compared with the limit of the hardware, not the one that is set. *)
Theorem C66_threshold_beyond_limit_refuted : exists l st t, (forall a, In a l -> built a) /\ qrm [] l = Ok st /\ acq_threshold st = Some t /\ 16777212 < t.
Proof.
  exists [thresholded 1000 0 16777212 0 None]. eexists. eexists. split; [intros a [<-|[]]; apply built_thresholded|]. split; [vm_compute; reflexivity|]. split; [reflexivity|]. reflexivity.
Qed.
(** Next to a ThresholdedAcquisition, two thresholds for the counts of one acquisition channel are not noticed. *)
Theorem C66_two_count_thresholds_refuted : exists l st a b, (forall a, In a l -> built a) /\ qrm [0%nat] l = Ok st /\ In a l /\ In b l /\ protocol a = ThresholdedTriggerCount /\ protocol b = ThresholdedTriggerCount /\ channel a = channel b /\
  counts a <> counts b /\ qrm [0%nat] [a; b] = Err ValueError.
Proof.
  exists [thresholded 1000 0 0 0 None; counting 500 1 None 3 LESS_THAN; counting 500 1 None 9 LESS_THAN]. eexists. exists (counting 500 1 None 3 LESS_THAN), (counting 500 1 None 9 LESS_THAN).
  split; [intros a [<-|[<-|[<-|[]]]]; [apply built_thresholded|apply built_counting|apply built_counting]|]. split; [vm_compute; reflexivity|]. split; [cbn; auto|]. split; [cbn; auto|]. repeat split; try reflexivity. discriminate.
Qed.
(** Two acquisitions of different duration share one length; neither is refused for lying between two samples. *)
Theorem C66_two_durations_refuted : exists l st a b, (forall a, In a l -> built a) /\ qrm [] l = Ok st /\ In a l /\ In b l /\ samples a /\ samples b /\ ~ duration a == duration b /\ integration_length st = Some 1000%Z.
Proof.
  exists [blank SSBIntegrationComplex AVERAGE 1000 0; blank SSBIntegrationComplex AVERAGE (10004#10) 0]. eexists. exists (blank SSBIntegrationComplex AVERAGE 1000 0), (blank SSBIntegrationComplex AVERAGE (10004#10) 0).
  split; [intros a [<-|[<-|[]]]; apply built_blank; discriminate|]. split; [vm_compute; reflexivity|]. split; [cbn; auto|]. split; [cbn; auto|]. split; [unfold samples; cbn; auto|]. split; [unfold samples; cbn; auto|]. split; [discriminate|reflexivity].
Qed.
(** The length of a trace of a QTM is that of whatever acquisition comes first. *)
Theorem C66_trace_length_refuted : exists l st, (forall a, In a l -> built a) /\ qtm l = Ok st /\ trace_duration st = Some 100%Z /\ forall a, In a l -> protocol a = Trace -> duration a = 5000.
Proof.
  exists [blank TriggerCount APPEND 100 0; blank Trace FIRST 5000 1]. eexists. split; [intros a [<-|[<-|[]]]; apply built_blank; discriminate|]. split; [vm_compute; reflexivity|]. split; [reflexivity|]. intros a [<-|[<-|[]]] P; [discriminate|reflexivity].
Qed.
Theorem C66_trace_length_partial : forall a r st, qtm (a :: r) = Ok st -> protocol a = Trace -> trace_duration st = Some (py_round (duration a)).
Proof.
  intros a r st H P. unfold qtm in H. assert (X : has Trace (a :: r) = true) by (apply has_spec; exists a; split; [left; reflexivity|exact P]). rewrite X in H.
  destruct (true && has TimetagTrace (a :: r)); [discriminate|]. destruct (Nat.ltb 1 _); [discriminate|]. binv H sc E2. binv H tm E3. binv H w E4. injection E2 as <-.
  destruct tm as [[ts tr] tc]. destruct w as [[[[[[en tl] th] al] am] ah] ai]. injection H as <-. reflexivity.
Qed.
(** A ThresholdedTriggerCount without a label (its default) is refused on a QTM whatever else there is, *)
Theorem C66_unlabelled_count_refuted : forall l a, (forall b, In b l -> built b) -> In a l -> protocol a = ThresholdedTriggerCount -> addr a = None -> forall st, qtm l <> Ok st.
Proof.
  intros l a B Ia Pa Ea st H. assert (N : l <> []) by (intros ->; destruct Ia). assert (F : qtm_fits l) by (apply (C66_qtm_accepted_iff l N B); eauto). destruct (tfit_single _ F a Ia Pa) as [_ G]. destruct (G a Ia) as [_ [X _]]. exact (X Ea).
Qed.
(** and so is a Timetag next to another protocol. *)
Theorem C66_mixed_timetag_refuted : forall l a b, (forall b, In b l -> built b) -> In a l -> In b l -> protocol a = Timetag -> protocol b <> Timetag -> protocol b <> TimetagTrace -> forall st, qtm l <> Ok st.
Proof.
  intros l a b B Ia Ib Pa Pb Pb' st H. assert (N : l <> []) by (intros ->; destruct Ia). assert (F : qtm_fits l) by (apply (C66_qtm_accepted_iff l N B); eauto). pose proof (tfit_time _ F a Ia (or_introl Pa) b Ib) as E.
  destruct (B a Ia) as [_ [_ [_ [_ Ca]]]]. destruct (B b Ib) as [_ [_ [_ [Cb _]]]]. destruct Cb as [X|X]; [rewrite E; apply Ca; auto|congruence|congruence].
Qed.
Example mixed_timetag : qtm [tagging Timetag 100 SrcFirst RefStart None; blank TriggerCount APPEND 100 1] = Err KeyError /\ qtm [counting 100 0 None 3 LESS_THAN] = Err KeyError /\
  exists st, qtm [tagging Timetag 100 SrcLast RefPort (Some 2%Z)] = Ok st /\ t_channel st = Some 2%Z.
Proof. split; [reflexivity|]. split; [reflexivity|]. eexists. split; reflexivity. Qed.
