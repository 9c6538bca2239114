(** C74: frequencies, mixer corrections and acquisitions on the instrument. *)
From Verif Require Import Base CircModel PathModel JsonModel QbModel QbSpec QbProps QbSeq QbThms QbCal2 FreqModel FreqProps AcqSetModel AcqSetProps AcqSetSpec AcqSetThms2 InitModel InitProps InitProps2 InitThms.
From Coq Require Import Ascii.
Local Open Scope string_scope.
Local Open Scope list_scope.

Lemma lo_lines n : lo_indices (lines "complex" n) = [n].
Proof. unfold lo_indices, lines. cbn [String.eqb Ascii.eqb Bool.eqb]. cbn [filter]. assert (E : Z.even (2 * Z.of_nat n) = true) by (rewrite Z.even_mul; reflexivity). assert (O : Z.even (2 * Z.of_nat n + 1) = false) by (rewrite Z.add_1_r, Z.even_succ, Z.odd_mul; reflexivity).
  rewrite E, O. cbn [map]. f_equal. rewrite Z.mul_comm, Z.div_mul by lia. lia. Qed.

(** What the channel description says: a complex channel may have a down-converter, and the mixer is used unless it says otherwise *)
Definition converter (c : cfg) (mode : string) : option Q := match c_desc c with Some d => if String.eqb mode "complex" then d_downconverter d else None | None => None end.
Definition mixed (c : cfg) : Prop := forall d, c_desc c = Some d -> d_mix_lo d = true.
Lemma converter_ok c mode n : Mode mode -> c_channel c = chan mode "output" n -> downconverter c = converter c mode.
Proof. intros m hc. unfold downconverter, converter. rewrite hc, class_chan by auto. destruct m, (c_desc c); reflexivity. Qed.
Lemma mixed_ok c : (mixed c <-> mixes c = true) /\ (~ mixed c <-> mixes c = false).
Proof. assert (M : mixed c <-> mixes c = true) by (unfold mixed, mixes; destruct (c_desc c) as [d|]; [split; [auto|intros e y [= <-]; auto]|split; [auto|discriminate]]). split; [exact M|]. rewrite M. destruct (mixes c); split; congruence. Qed.
(** The NCO of a sequencer of an analog output, modulated: without a local oscillator it has the frequency of the clock; with one, the two add up to the clock (or its image under down-conversion; without mixing, the oscillator alone), the frequencies that are given for them being kept *)
Theorem C74_frequency : forall d k data p x x' i s c f l l' acqs sq trg mode n, modes k mode -> mode <> "digital" -> c_channel c = chan mode "output" n -> settings k c (Some f) l acqs sq trg = Ok (l', s) -> Loaded d k data p x x' i s ->
  k = QRC \/ (forall q, c_interm c = Some q -> ~ q == 0) ->
  (baseband k -> ext l = None -> Holds (mem x') (LSeq i) "nco_freq" (VNum f) /\ forall q, c_interm c = Some q -> close q f) /\
  (forall o, baseband k -> ext l = Some o -> exists lo q, ext l' = Some (Some lo) /\ Holds (mem x') (LSeq i) "nco_freq" (VNum q) /\ (forall lo0, o = Some lo0 -> lo == lo0) /\ (forall q0, c_interm c = Some q0 -> q = q0) /\
     (mixed c -> close (lo + q) (rf_of f (converter c mode))) /\ (~ mixed c -> lo == rf_of f (converter c mode))) /\
  (rf k -> exists lo q, int l' n = Some lo /\ Holds (mem x') (LSeq i) "nco_freq" (VNum q) /\ (forall lo0, int l n = Some lo0 -> lo = lo0) /\ (forall q0, c_interm c = Some q0 -> q = q0) /\ close (lo + q) (rf_of f (converter c mode))).
Proof. intros d k data p x x' i s c f l l' acqs sq trg mode n [m mr] nd hc h ld hz. rewrite <- (converter_ok c mode n m hc). destruct (mixed_ok c) as [M1 M2]. apply settings_inv in h. destruct h as (s0 & mk & s1 & h1 & h2 & h3).
  apply init_inv in h1. destruct h1 as ([] & MF & _). assert (KS := assign_keeps _ _ _ _ _ _ _ h2). apply finish_inv in h3. destruct h3 as (_ & _ & _ & _ & _ & _ & N & _ & _ & _ & _ & F & _).
  assert (N1 : nco_en s1 = nco_en s0) by (rewrite KS; reflexivity). rewrite hc in *. rewrite outputs_chan in st_outs by (auto; constructor). injection st_outs as eo. cbn [String.eqb Ascii.eqb Bool.eqb] in eo.
  assert (DG : contains "digital" (channel_name s0) = false) by (rewrite st_name, digital_chan by (auto; constructor); destruct m; [reflexivity|reflexivity|now destruct nd]).
  assert (NE : nco_en s0 = true).
  { destruct st_nco as (cl & e1 & ->). rewrite class_chan in e1 by auto. injection e1 as <-. destruct hz as [->|hz]; [reflexivity|]. apply orb_true_iff. right. apply negb_true_iff. rewrite !orb_false_iff. split; [split|].
    - unfold is_zero. destruct (c_interm c) as [q|]; [|auto]. destruct (Qeq_bool q 0) eqn:E; [|auto]. apply Qeq_bool_iff in E. now destruct (hz _ eq_refl).
    - destruct m; [reflexivity|reflexivity|now destruct nd].
    - rewrite <- eo. unfold lines. now destruct (String.eqb mode "complex"). }
  assert (GO : forall q, mod_freq s1 = Some q -> Holds (mem x') (LSeq i) "nco_freq" (VNum q)) by (intros q hq; apply (loaded_holds _ _ _ _ _ _ _ _ _ _ ld); apply w_nco; congruence).
  assert (RB : baseband k -> is_rf k = false) by (intros [->| ->]; reflexivity). assert (RR : rf k -> is_rf k = true) by (intros [->|[->| ->]]; reflexivity).
  split; [|split].
  - intros b e. pose proof (assign_free _ _ _ _ _ _ _ (RB b) e DG h2) as A. rewrite NE in A. destruct A as [a1 a2]. split; [auto|]. intros q hq. apply a2. congruence.
  - intros o b e. destruct (assign_ext _ _ _ _ _ _ _ _ (RB b) e DG h2) as (lo & q & a1 & a2 & a3 & a4 & a5). exists lo, q. split; [auto|]. split; [auto|]. split; [auto|]. split; [intros q0 hq; apply a4; congruence|]. split; intros mm; [apply (proj1 M1) in mm|apply (proj1 M2) in mm]; rewrite mm in a5; exact a5.
  - intros r. destruct (assign_int _ _ _ _ _ _ _ (RR r) DG h2) as (a1 & a2 & a3). assert (mode = "complex") as -> by (destruct m; [auto|now destruct (mr r)|now destruct nd]).
    rewrite <- eo, lo_lines in a3. destruct a3 as (q & b1 & b2); [discriminate|]. destruct (b2 n) as (_ & lo & b3 & b4); [now left|]. exists lo, q. split; [auto|]. split; [auto|]. split; [intros lo0 hl; apply a2 in hl; congruence|].
    split; [|auto]. intros q0 hq. rewrite <- MF in hq. apply a1 in hq. congruence. Qed.

(** Mixer corrections that are not left to the automatic calibration *)
Theorem C74_mixer : forall d k data p x x' i s c clock l l' acqs sq trg m, with_mixer k -> settings k c clock l acqs sq trg = Ok (l', s) -> Loaded d k data p x x' i s -> c_mixer c = Some m -> g_sideband m = SbOff ->
  Holds (mem x') (LSeq i) "mixer_corr_phase_offset_degree" (VNum (chosen 0 (g_phase m))) /\ Holds (mem x') (LSeq i) "mixer_corr_gain_ratio" (VNum (chosen 1 (g_ratio m))) /\
  (forall q, g_phase m = Some q -> -45 <= q <= 45) /\ (forall q, g_ratio m = Some q -> 1 # 2 <= q <= 2).
Proof. intros d k data p x x' i s c clock l l' acqs sq trg m wm h ld hm hs. apply settings_started in h. destruct h as ([] & _ & _). rewrite hm in *. destruct st_phase as [a1 a2], st_ratio as [a3 a4]. unfold mixer_of in a2, a4. rewrite hm in a2, a4.
  assert (ND : ~ SidebandDue (mem x) i s) by (intros [e _]; congruence). destruct ld as [l1 l2 l3 l4 l5 l6]. destruct (C52_sideband _ _ _ _ _ _ _ _ l1 wm l3 l4 l5 l6) as [_ S2]. destruct (S2 ND) as [_ S3].
  split; [apply S3; now constructor|]. split; [apply S3; now constructor|]. split; auto. Qed.

(** What the acquisitions of the sequencer set *)
Theorem C74_acquisitions : forall d k data p x x' i s c clock l l' acqs sq trg, readout k -> (forall a, In a acqs -> built a) -> settings k c clock l acqs sq trg = Ok (l', s) -> Loaded d k data p x x' i s ->
  (forall a, In a acqs -> samples a -> exists n, Holds (mem x') (LSeq i) "integration_length_acq" (VNum (inject_Z n)) /\ Qabs (inject_Z n - duration a) <= 1 # 2) /\
  (forall a, In a acqs -> discriminates a -> exists r t r0 t0 e, rotation a = Some r /\ threshold a = Some t /\ r0 == r /\ t0 == t * e /\ Qabs (e - duration a) <= 1 /\
     Holds (mem x') (LSeq i) "thresholded_acq_rotation" (VNum r0) /\ Holds (mem x') (LSeq i) "thresholded_acq_threshold" (VNum t0)) /\
  (forall a z, In a acqs -> discriminates a \/ protocol a = ThresholdedTriggerCount -> addr a = Some (Some z) ->
     Holds (mem x') (LSeq i) "thresholded_acq_trigger_en" (VBool true) /\ Holds (mem x') (LSeq i) "thresholded_acq_trigger_address" (VNum (inject_Z z))) /\
  (forall a, In a acqs -> AcqSetSpec.triggers a -> exists n, ins s = [Z.of_nat n] /\ Holds (mem x') (LSeq i) "ttl_acq_input_select" (VNum (inject_Z (Z.of_nat n))) /\
     ((exists b, In b acqs /\ AcqSetSpec.triggers b /\ bin_mode b = DISTRIBUTION) -> Holds (mem x') (LSeq i) "ttl_acq_auto_bin_incr_en" (VBool true))).
Proof. intros d k data p x x' i s c clock l l' acqs sq trg rk B h ld. assert (IN := settings_started _ _ _ _ _ _ _ _ _ h). destruct IN as ([] & _ & _).
  apply settings_inv in h. destruct h as (s0 & mk & s1 & h1 & h2 & h3). apply finish_inv in h3. destruct h3 as (_ & _ & _ & II & _ & _ & _ & _ & _ & _ & _ & _ & _ & _ & _ & _ & a & e0 & e1 & e2 & e3 & e4 & e5 & e6 & e7).
  destruct (C66_qrm_settings _ _ _ B e0) as (q1 & _ & q3 & _ & q5 & _ & q7).
  assert (GO : forall q v, SeqWants k s q v -> Holds (mem x') (LSeq i) q v) by (intros; now apply (loaded_holds _ _ _ _ _ _ _ _ _ _ ld)).
  split; [|split; [|split]].
  - intros b hb sb. destruct (q1 b hb sb) as (n & en & le). exists n. split; [|auto]. apply GO. apply w_len; congruence.
  - intros b hb db. destruct (q3 b hb db) as (r & t & r0 & t0 & e & f1 & f2 & f3 & f4 & f5 & f6 & f7 & _). exists r, t, r0, t0, e. do 5 (split; [assumption|]). split; apply GO; [apply w_rot|apply w_thr]; congruence.
  - intros b z hb db ab. destruct (q5 b z hb db ab) as [f1 f2]. split; apply GO; [apply QbSpec.w_en|apply w_addr]; congruence.
  - intros b hb tb. destruct (q7 b hb tb) as (n & f1 & f2 & f3). exists n. split; [|split].
    + assert (P : exists z, ins s1 = [z] /\ Z.to_nat z = n) by (destruct (ins s1) as [|z [|? ?]]; [discriminate| |discriminate]; injection f1 as f1; eauto). destruct P as (z & P1 & P2). rewrite II, P1. f_equal.
      assert (0 <= z)%Z; [|lia]. rewrite II, P1 in st_ins. clear - st_ins. unfold input_indices, io_indices in st_ins. assert (PI : forall t y, py_int t = Ok y -> (0 <= y)%Z).
      { assert (DP : forall t acc y, (0 <= acc)%Z -> digits acc t = Some y -> (0 <= y)%Z). { induction t as [|ch t IH]; intros acc y ha; cbn [digits]; [intros [= <-]; auto|]. unfold digit. destruct (andb _ _) eqn:E; [|discriminate]. apply andb_prop in E. destruct E as [E _]. apply Z.leb_le in E. apply IH. lia. }
        intros t y. unfold py_int. destruct t as [|ch t]; [discriminate|]. destruct (digits 0 (String ch t)) eqn:E; [|discriminate]. intros [= <-]. eapply DP; [|exact E]. lia. }
      assert (IO : forall mo t y, (do i <- py_int t; Ok (if String.eqb mo "complex" then [2 * i; 2 * i + 1]%Z else [i])) = Ok [y] -> (0 <= y)%Z).
      { intros mo t y. destruct (py_int t) eqn:E; [|discriminate]. cbn [bind]. destruct (String.eqb mo "complex"); [discriminate|]. intros [= <-]. eauto. }
      destruct (split_on "_" (c_channel c)) as [|mo [|io [|idx [|? ?]]]]; try discriminate. destruct (contains "input" io); destruct (c_measure c) as [[|m0 [|? ?]]|]; try discriminate; eauto.
      destruct (split_on "_" m0) as [|mo' [|io' [|idx' [|? ?]]]]; try discriminate. eauto.
    + apply GO. apply w_ttlin; [auto|]. rewrite e6, f2. reflexivity.
    + intros ex. apply GO. apply w_auto; [auto|]. rewrite e7. now apply f3. Qed.
