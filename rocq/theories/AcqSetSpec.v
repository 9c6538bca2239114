(** What a user says about the acquisitions of a sequencer. *)
From Verif Require Import Base NumericModel AcqSetModel.

(** The keys of acquisition_info as operations/acquisition_library.py writes them: rotation and threshold l.500-503, l.870-873; thresholds of counts l.1378-1382, l.1511-1516; times l.1122-1125, l.1263-1266 *)
Definition built (a : acq) : Prop :=
  match protocol a with
  | ThresholdedAcquisition | WeightedThresholdedAcquisition => rotation a <> None /\ threshold a <> None
  | _ => rotation a = None /\ threshold a = None
  end /\
  (counts a <> None <-> protocol a = ThresholdedTriggerCount) /\ (dual a <> None <-> protocol a = DualThresholdedTriggerCount) /\
  (time a <> None <-> protocol a = Timetag \/ protocol a = TimetagTrace).
(** thresholded by the input of a QRM *)
Definition discriminates (a : acq) : Prop := protocol a = ThresholdedAcquisition \/ protocol a = WeightedThresholdedAcquisition.
Definition triggers (a : acq) : Prop := protocol a = TriggerCount \/ protocol a = ThresholdedTriggerCount.
(** samples the input for its duration *)
Definition samples (a : acq) : Prop :=
  protocol a = Trace \/ protocol a = SSBIntegrationComplex \/ protocol a = ThresholdedAcquisition \/ protocol a = WeightedIntegratedSeparated \/ protocol a = NumericalSeparatedWeightedIntegration \/
  protocol a = NumericalWeightedIntegration \/ protocol a = WeightedThresholdedAcquisition.
(** The settings of a QRM sequencer can be the same for all its acquisitions [l] *)
Record qrm_fits (inputs : list nat) (l : list acq) : Prop := {
  fit_bins : forall a b, In a l -> In b l -> protocol a = TriggerCount -> protocol b = TriggerCount -> bin_mode a = DISTRIBUTION -> bin_mode b = DISTRIBUTION;
  fit_input : forall a, In a l -> triggers a -> exists n, inputs = [n];
  fit_address : forall c, In c l -> discriminates c \/ protocol c = ThresholdedTriggerCount -> forall a b x y, In a l -> In b l -> addr a = Some (Some x) -> addr b = Some (Some y) -> x = y;
  fit_threshold : forall a, In a l -> discriminates a -> exists r t, rotation a = Some r /\ threshold a = Some t /\ 0 <= r /\ r <= 360 /\ - (16777212) <= t /\ t <= 16777212 /\
      forall b, In b l -> discriminates b -> exists r' t', rotation b = Some r' /\ threshold b = Some t' /\ r' == r /\ t' == t;
  fit_counts : (forall c, In c l -> ~ discriminates c) -> forall a b, In a l -> In b l -> protocol a = ThresholdedTriggerCount -> protocol b = ThresholdedTriggerCount -> channel a = channel b -> counts a = counts b;
  fit_length : forall a b, In a l -> In b l -> samples a -> samples b -> py_round (duration a) = py_round (duration b) }.

(** QTM: the acquisitions of a sequencer are of one kind, apart from traces with counts *)
Record qtm_fits (l : list acq) : Prop := {
  tfit_trace : forall a b, In a l -> In b l -> protocol a = Trace -> protocol b <> TimetagTrace;
  tfit_count : forall a b, In a l -> In b l -> In (protocol a) [TriggerCount; ThresholdedTriggerCount; DualThresholdedTriggerCount] -> In (protocol b) [TriggerCount; ThresholdedTriggerCount; DualThresholdedTriggerCount] -> protocol a = protocol b;
  tfit_time : forall a, In a l -> protocol a = Timetag \/ protocol a = TimetagTrace -> forall b, In b l -> time b = time a;
  tfit_single : forall a, In a l -> protocol a = ThresholdedTriggerCount -> (exists b z, In b l /\ addr b = Some (Some z)) /\
      forall b, In b l -> counts b = counts a /\ addr b <> None /\ (forall c x y, In c l -> addr b = Some (Some x) -> addr c = Some (Some y) -> x = y);
  tfit_double : forall a, In a l -> protocol a = DualThresholdedTriggerCount -> forall b, In b l -> dual b = dual a /\ exists x y, addrs a = Some x /\ addrs b = Some y /\
      (let '(l1, m1, h1, i1) := x in let '(l2, m2, h2, i2) := y in or0 l1 = or0 l2 /\ or0 m1 = or0 m2 /\ or0 h1 = or0 h2 /\ or0 i1 = or0 i2) }.

(** The trigger that a QTM sequencer sends after [n] counts (0: none): below the low threshold, from the high threshold on, or between *)
Definition sends (s : qtm_settings) (n : Z) : option Z :=
  if w_en s then match thr_low s, thr_high s with
                 | Some lo, Some hi => Some (if (n <? lo)%Z then a_low s else if (n <? hi)%Z then a_mid s else a_high s)
                 | _, _ => None
                 end else Some 0%Z.
Definition holds (c : cond) (thr n : Z) : Prop := match c with LESS_THAN => (n < thr)%Z | GREATER_THAN_EQUAL_TO => (thr <= n)%Z end.
