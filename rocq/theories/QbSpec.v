(** What a user expects of [prepare] on a Qblox module: which value each parameter of the instrument must have for a given program. Written per parameter, without reference to the order in which the code sets them. *)
From Verif Require Import Base JsonModel QbModel.
Local Open Scope string_scope.

Definition Occurs (pat s : string) : Prop := exists a b, s = (a ++ pat ++ b)%string.

(** The cache of every parameter, where valid, is what the instrument has *)
Definition Coherent (m : memory) : Prop := forall l p v, cached (m l p) = Some v -> hw (m l p) = v.
(** The instrument holds (a value equal, for Python, to) [v] *)
Definition Holds (m : memory) (l : loc) (p : string) (v : value) : Prop := py_eq (hw (m l p)) v = true.

Definition mixer_param (p : string) : Prop := p = "mixer_corr_phase_offset_degree" \/ p = "mixer_corr_gain_ratio".
Definition offset_param (p : string) : Prop := In p ["out0_offset_path0"; "out0_offset_path1"; "out1_offset_path0"; "out1_offset_path1"].
(** Calibrations change, besides what is not a parameter, only the corrections they are about, and leave the cache right *)
Record GoodCalibration (d : driver) : Prop := {
  gc_sb : forall i m l p, ~ (l = LSeq i /\ mixer_param p) -> sideband_cal d i m l p = m l p;
  gc_lo : forall n m l p, ~ (l = LMod /\ offset_param p) -> lo_cal d n m l p = m l p;
  gc_sb_coh : forall i m, Coherent m -> Coherent (sideband_cal d i m);
  gc_lo_coh : forall n m, Coherent m -> Coherent (lo_cal d n m) }.

Definition baseband (k : kind) : Prop := k = QCM \/ k = QRM.
Definition readout (k : kind) : Prop := k = QRM \/ k = QRM_RF \/ k = QRC.
Definition rf (k : kind) : Prop := k = QCM_RF \/ k = QRM_RF \/ k = QRC.

(** The modules: number of sequencers, of outputs, of scope paths (components/qblox.py l.142-190) *)
Definition sequencers (k : kind) : nat := match k with QRC => 12 | QTM => 8 | QCM | QRM | QCM_RF | QRM_RF => 6 end.
Definition outputs (k : kind) : nat := match k with QCM => 4 | QRM => 2 | QCM_RF => 2 | QRM_RF => 1 | QRC => 6 | QTM => 8 end.
Definition scope_paths (k : kind) : nat := match k with QRM => 2 | QRM_RF => 2 | QRC => 4 | QCM | QCM_RF | QTM => 0 end.

(** To what output [ch] of the module is the sequencer connected *)
Inductive OutConn (k : kind) (s : aset) (ch : nat) : string -> Prop :=
  | oc_I : baseband k -> In (Z.of_nat ch) (outs s) -> Occurs "complex" (channel_name s) -> Nat.Even ch -> OutConn k s ch "I"
  | oc_Q : baseband k -> In (Z.of_nat ch) (outs s) -> Occurs "complex" (channel_name s) -> Nat.Odd ch -> OutConn k s ch "Q"
  | oc_real : baseband k -> In (Z.of_nat ch) (outs s) -> Occurs "real" (channel_name s) -> ~ Occurs "complex" (channel_name s) -> OutConn k s ch "I"
  | oc_not : baseband k -> ~ In (Z.of_nat ch) (outs s) \/ (~ Occurs "complex" (channel_name s) /\ ~ Occurs "real" (channel_name s)) -> OutConn k s ch "off"
  | oc_IQ : rf k -> outs s = [2 * Z.of_nat ch; 2 * Z.of_nat ch + 1]%Z -> ~ Occurs "digital" (channel_name s) -> OutConn k s ch "IQ"
  | oc_rfnot : rf k -> outs s <> [2 * Z.of_nat ch; 2 * Z.of_nat ch + 1]%Z \/ Occurs "digital" (channel_name s) -> OutConn k s ch "off".
(** To what inputs *)
Inductive InConn (k : kind) (s : aset) : string -> string -> Prop :=
  | ic_I : k = QRM -> In 0%Z (ins s) -> InConn k s "connect_acq_I" "in0"
  | ic_Ioff : k = QRM -> ~ In 0%Z (ins s) -> InConn k s "connect_acq_I" "off"
  | ic_Q : k = QRM -> In 1%Z (ins s) -> InConn k s "connect_acq_Q" "in1"
  | ic_Qoff : k = QRM -> ~ In 1%Z (ins s) -> InConn k s "connect_acq_Q" "off"
  | ic_0 : k = QRM_RF \/ k = QRC -> ins s = [0; 1]%Z -> InConn k s "connect_acq" "in0"
  | ic_1 : k = QRC -> ins s = [2; 3]%Z -> InConn k s "connect_acq" "in1"
  | ic_off : k = QRM_RF \/ k = QRC -> ins s <> [0; 1]%Z -> (k = QRC -> ins s <> [2; 3]%Z) -> InConn k s "connect_acq" "off".

(** [SeqWants k s p v]: the program wants parameter [p] of the sequencer with settings [s] to be [v] (mixer corrections apart) *)
Inductive SeqWants (k : kind) (s : aset) : string -> value -> Prop :=
  | w_sync : SeqWants k s "sync_en" (VBool (sync_en s))
  | w_sequence : forall q, sequence s = Some q -> SeqWants k s "sequence" (VSeq q)
  | w_nosequence : sequence s = None -> SeqWants k s "sequence" VNone
  | w_nco : forall f, nco_en s = true -> mod_freq s = Some f -> SeqWants k s "nco_freq" (VNum f)
  | w_nonco : nco_en s = true -> mod_freq s = None -> SeqWants k s "nco_freq" VNone
  | w_mod : k <> QRC -> SeqWants k s "mod_en_awg" (VBool (nco_en s))
  | w_demod : k = QRM \/ k = QRM_RF -> SeqWants k s "demod_en_acq" (VBool (nco_en s))
  | w_off0 : SeqWants k s "offset_awg_path0" (VNum (offset_I s))
  | w_off1 : SeqWants k s "offset_awg_path1" (VNum (offset_Q s))
  | w_gain0 : SeqWants k s "gain_awg_path0" (VNum (gain_I s))
  | w_gain1 : SeqWants k s "gain_awg_path1" (VNum (gain_Q s))
  | w_out : forall ch v, (ch < outputs k)%nat -> OutConn k s ch v -> SeqWants k s ("connect_out" ++ dec_n ch) (VStr v)
  | w_in : forall p v, InConn k s p v -> SeqWants k s p (VStr v)
  | w_invert : forall a t b, In (a, t) (triggers s) -> t_invert t = Some b -> SeqWants k s ("trigger" ++ dec_Z a ++ "_threshold_invert") (VBool b)
  | w_count : forall a t n, In (a, t) (triggers s) -> t_count t = Some n -> SeqWants k s ("trigger" ++ dec_Z a ++ "_count_threshold") (VNum (inject_Z n))
  | w_ovr : rf k -> SeqWants k s "marker_ovr_en" (VBool false)
  | w_len : forall n, readout k -> integration_length s = Some n -> SeqWants k s "integration_length_acq" (VNum (inject_Z n))
  | w_auto : forall b, readout k -> ttl_auto s = Some b -> SeqWants k s "ttl_acq_auto_bin_incr_en" (VBool b)
  | w_ttl : forall q, readout k -> ttl_threshold s = Some q -> SeqWants k s "ttl_acq_threshold" (VNum q)
  | w_ttlin : forall n, readout k -> ttl_input s = Some n -> SeqWants k s "ttl_acq_input_select" (VNum (inject_Z n))
  | w_rot : forall q, readout k -> thr_rotation s = Some q -> SeqWants k s "thresholded_acq_rotation" (VNum q)
  | w_thr : forall q, readout k -> thr_threshold s = Some q -> SeqWants k s "thresholded_acq_threshold" (VNum q)
  | w_addr : forall n, readout k -> write_address s = Some n -> SeqWants k s "thresholded_acq_trigger_address" (VNum (inject_Z n))
  | w_en : forall b, readout k -> write_en s = Some b -> SeqWants k s "thresholded_acq_trigger_en" (VBool b)
  | w_inv : forall b, readout k -> write_en s = Some b -> SeqWants k s "thresholded_acq_trigger_invert" (VBool (write_invert s)).
(** Mixer corrections *)
Inductive MixerWants (s : aset) : string -> value -> Prop :=
  | mw_phase : forall q, mixer_phase s = Some q -> MixerWants s "mixer_corr_phase_offset_degree" (VNum q)
  | mw_gain : forall q, mixer_gain s = Some q -> MixerWants s "mixer_corr_gain_ratio" (VNum q).

(** The dicts of a program have distinct keys *)
Record Dicts (p : program aset) : Prop := {
  d_seqs : NoDup (map fst (p_seqs p));
  d_trig : forall n s, In (n, s) (p_seqs p) -> NoDup (map fst (triggers s)) }.

(** ** Module parameters *)
Definition num (f : mset -> option Q) (st : mset) : option value := option_map VNum (f st).
Definition int (f : mset -> option Z) (st : mset) : option value := option_map (fun z => VNum (inject_Z z)) (f st).
(** Which setting each parameter of a module takes its value from *)
Definition fields (k : kind) : list (string * (mset -> option value)) :=
  match k with
  | QCM => [("out0_offset", num off0I); ("out1_offset", num off0Q); ("out2_offset", num off1I); ("out3_offset", num off1Q)]
  | QRM => [("out0_offset", num off0I); ("out1_offset", num off0Q); ("in0_gain", int in0_gain); ("in1_gain", int in1_gain)]
  | QCM_RF => [("out0_offset_path0", num off0I); ("out0_offset_path1", num off0Q); ("out1_offset_path0", num off1I); ("out1_offset_path1", num off1Q);
               ("out0_att", int (fun st => out_att st 0)); ("out1_att", int (fun st => out_att st 1)); ("out0_lo_freq", num (fun st => lo_freq st 0)); ("out1_lo_freq", num (fun st => lo_freq st 1))]
  | QRM_RF => [("out0_offset_path0", num off0I); ("out0_offset_path1", num off0Q); ("out0_att", int (fun st => out_att st 0)); ("in0_att", int in0_att); ("out0_in0_lo_freq", num (fun st => lo_freq st 0))]
  | QRC => [("out0_att", int (fun st => out_att st 0)); ("out1_att", int (fun st => out_att st 1)); ("out2_att", int (fun st => out_att st 2)); ("out3_att", int (fun st => out_att st 3)); ("out4_att", int (fun st => out_att st 4)); ("out5_att", int (fun st => out_att st 5));
            ("out0_in0_lo_freq", num (fun st => lo_freq st 0)); ("out1_in1_lo_freq", num (fun st => lo_freq st 1)); ("out2_lo_freq", num (fun st => lo_freq st 2)); ("out3_lo_freq", num (fun st => lo_freq st 3)); ("out4_lo_freq", num (fun st => lo_freq st 4)); ("out5_lo_freq", num (fun st => lo_freq st 5))]
  | QTM => []
  end.
(** The sequencer of which the scope is recorded: the one the acquisition channel of a trace is mapped to *)
Definition ScopeSeq (data : channels_data) (hwm : hw_mapping) (i : nat) : Prop := exists ch chans idx, In (ch, true) data /\ In (seq_name i, chans) hwm /\ In (ch, idx) chans.
Inductive ModWants (k : kind) (data : channels_data) (p : program aset) : string -> value -> Prop :=
  | m_field : forall st q f v, p_settings p = Some st -> In (q, f) (fields k) -> f st = Some v -> ModWants k data p q v
  | m_exp : forall st o dc i e, p_settings p = Some st -> baseband k -> (o < outputs k)%nat -> nth_error (dists st) o = Some dc -> (i < 4)%nat -> nth i (exps dc) nofilt = e ->
      ModWants k data p ("out" ++ dec_n o ++ "_exp" ++ dec_n i ++ "_config") (VStr (fconfig e))
  | m_exp_marker : forall st o dc i e, p_settings p = Some st -> k = QCM -> (o < outputs k)%nat -> nth_error (dists st) o = Some dc -> (i < 4)%nat -> nth i (exps dc) nofilt = e ->
      ModWants k data p ("marker" ++ dec_n o ++ "_exp" ++ dec_n i ++ "_config") (VStr (fmarker e))
  | m_exp_tau : forall st o dc i e tau rest, p_settings p = Some st -> k = QCM -> (o < outputs k)%nat -> nth_error (dists st) o = Some dc -> (i < 4)%nat -> nth i (exps dc) nofilt = e -> coeffs e = Some (tau :: rest) ->
      ModWants k data p ("out" ++ dec_n o ++ "_exp" ++ dec_n i ++ "_time_constant") (VNum tau)
  | m_exp_amp : forall st o dc i e tau amp rest, p_settings p = Some st -> k = QCM -> (o < outputs k)%nat -> nth_error (dists st) o = Some dc -> (i < 4)%nat -> nth i (exps dc) nofilt = e -> coeffs e = Some (tau :: amp :: rest) ->
      ModWants k data p ("out" ++ dec_n o ++ "_exp" ++ dec_n i ++ "_amplitude") (VNum amp)
  | m_fir : forall st o dc, p_settings p = Some st -> baseband k -> (o < outputs k)%nat -> nth_error (dists st) o = Some dc -> ModWants k data p ("out" ++ dec_n o ++ "_fir_config") (VStr (fconfig (fir dc)))
  | m_fir_marker : forall st o dc, p_settings p = Some st -> k = QCM -> (o < outputs k)%nat -> nth_error (dists st) o = Some dc -> ModWants k data p ("marker" ++ dec_n o ++ "_fir_config") (VStr (fmarker (fir dc)))
  | m_fir_coeffs : forall st o dc cs, p_settings p = Some st -> k = QCM -> (o < outputs k)%nat -> nth_error (dists st) o = Some dc -> coeffs (fir dc) = Some cs -> ModWants k data p ("out" ++ dec_n o ++ "_fir_coeffs") (VList cs)
  | m_trigger_mode : forall path, readout k -> (path < scope_paths k)%nat -> ModWants k data p ("scope_acq_trigger_mode_path" ++ dec_n path) (VStr "sequencer")
  | m_avg : forall path, readout k -> (path < scope_paths k)%nat -> ModWants k data p ("scope_acq_avg_mode_en_path" ++ dec_n path) (VBool true)
  | m_select : forall hwm i, readout k -> p_mapping p = Some hwm -> ScopeSeq data hwm i -> ModWants k data p "scope_acq_sequencer_select" (VNum (inject_Z (Z.of_nat i))).
(** Automatic LO calibration is off *)
Definition NoLoCal (k : kind) (st : mset) : Prop := match k with QCM_RF => lo0_cal st = LoOff /\ lo1_cal st = LoOff | QRM_RF => lo0_cal st = LoOff | _ => True end.
(** The attenuations of a QRC *)
Definition qrc_att (k : kind) (q : string) : Prop := k = QRC /\ In q ["out0_att"; "out1_att"; "out2_att"; "out3_att"; "out4_att"; "out5_att"].

(** ** Calibrations *)
(** The calls of a calibration in a log: the state of the instrument at each of them *)
Definition calib_dec (a b : calib) : {a = b} + {a <> b}.
Proof. decide equality; [apply Nat.eq_dec|apply string_dec]. Defined.
Fixpoint calls (who : calib) (l : list (calib * memory)) : list memory := match l with [] => [] | (k, m) :: r => if calib_dec who k then m :: calls who r else calls who r end.
(** As far as the cache tells, the parameter does not have this value *)
Definition Differs (m : memory) (l : loc) (p : string) (v : value) : Prop := forall w, cached (m l p) = Some w -> py_eq w v = false.
Definition freq (s : aset) : value := match mod_freq s with Some f => VNum f | None => VNone end.
(** The program changes the NCO frequency of sequencer [i] *)
Definition NcoChanges (m : memory) (i : nat) (s : aset) : Prop := nco_en s = true /\ Differs m (LSeq i) "nco_freq" (freq s).
Definition SidebandDue (m : memory) (i : nat) (s : aset) : Prop := auto_sb s = SbOnIf /\ NcoChanges m i s.
(** The program changes an LO frequency *)
Definition LoChanges (m : memory) (p : string) (o : option Q) : Prop := exists f, o = Some f /\ Differs m LMod p (VNum f).
(** a sequencer of the program that plays through LO number [n] gets another NCO frequency *)
Definition SomeNcoChanges (m : memory) (p : program aset) (n : nat) : Prop :=
  exists i s, In (seq_name i, s) (p_seqs p) /\ outs s = [2 * Z.of_nat n; 2 * Z.of_nat n + 1]%Z /\ ~ Occurs "digital" (channel_name s) /\ NcoChanges m i s.
Definition LoDue (m : memory) (p : program aset) (mode : lo_mode) (param : string) (o : option Q) (n : nat) : Prop :=
  match mode with LoOff => False | LoOnLo => LoChanges m param o | LoOnLoIf => LoChanges m param o \/ SomeNcoChanges m p n end.
(** The LOs of the RF modules with calibration: number, parameter, calibration, setting of the frequency, setting of the mode *)
Inductive Lo : kind -> nat -> string -> string -> (mset -> lo_mode) -> Prop :=
  | lo_qcm0 : Lo QCM_RF 0 "out0_lo_freq" "out0_lo_cal" lo0_cal
  | lo_qcm1 : Lo QCM_RF 1 "out1_lo_freq" "out1_lo_cal" lo1_cal
  | lo_qrm : Lo QRM_RF 0 "out0_in0_lo_freq" "out0_in0_lo_cal" lo0_cal.
(** The LO frequencies of a module with mixers *)
Definition lo_param (k : kind) (q : string) : Prop := match k with QCM_RF => q = "out0_lo_freq" \/ q = "out1_lo_freq" | QRM_RF => q = "out0_in0_lo_freq" | _ => False end.
(** The modules with mixers to calibrate *)
Definition with_mixer (k : kind) : Prop := k = QCM \/ k = QRM \/ k = QCM_RF \/ k = QRM_RF.
