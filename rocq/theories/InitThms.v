(** C74: the hardware options of a port-clock reach the parameters of its sequencer. *)
From Verif Require Import Base CircModel PathModel JsonModel QbModel QbSpec QbProps QbSeq QbThms FreqModel FreqProps AcqSetModel InitModel InitProps InitProps2.
From Coq Require Import Ascii.
Local Open Scope string_scope.
Local Open Scope list_scope.

(** The instrument after the preparation of a program in which sequencer [i] has the settings [s] *)
Record Loaded (d : driver) (k : kind) (data : channels_data) (p : program aset) (x x' : comp) (i : nat) (s : aset) : Prop := {
  ld_cal : GoodCalibration d;
  ld_kind : k <> QTM;
  ld_dicts : Dicts p;
  ld_cache : Coherent (mem x) \/ force_set d = true;
  ld_prepared : prepare d k data p x = (x', Ok tt);
  ld_in : In (seq_name i, s) (p_seqs p) }.
Lemma loaded_holds d k data p x x' i s q v : Loaded d k data p x x' i s -> SeqWants k s q v -> Holds (mem x') (LSeq i) q v.
Proof. intros [a b c e f g] w. now destruct (C51_sequencers d k data p x x' a b c e f i s q v g w). Qed.

Section Sequencer.
Variables (d : driver) (k : kind) (data : channels_data) (p : program aset) (x x' : comp) (i : nat) (s : aset).
Variables (c : cfg) (clock : option Q) (l l' : los) (acqs : list acq) (sq : string) (trg : list (Z * trigger)).

(** Offsets and gains of the AWG paths are those of the options, 0 and 1 by default, and never beyond [-1, 1]; the TTL threshold of a module that acquires is that of the options; the program is loaded and the sequencer is synchronised. *)
Theorem C74_options : settings k c clock l acqs sq trg = Ok (l', s) -> Loaded d k data p x x' i s ->
  Holds (mem x') (LSeq i) "offset_awg_path0" (VNum (chosen 0 (option_of c g_off_I))) /\ Holds (mem x') (LSeq i) "offset_awg_path1" (VNum (chosen 0 (option_of c g_off_Q))) /\
  Holds (mem x') (LSeq i) "gain_awg_path0" (VNum (chosen 1 (option_of c g_gain_I))) /\ Holds (mem x') (LSeq i) "gain_awg_path1" (VNum (chosen 1 (option_of c g_gain_Q))) /\
  (forall q, readout k -> option_of c g_ttl = Some q -> Holds (mem x') (LSeq i) "ttl_acq_threshold" (VNum q)) /\
  Holds (mem x') (LSeq i) "sequence" (VSeq sq) /\ Holds (mem x') (LSeq i) "sync_en" (VBool true) /\
  (forall f, In f [g_off_I; g_off_Q; g_gain_I; g_gain_Q] -> forall q, option_of c f = Some q -> -1 <= q <= 1).
Proof. intros h ld. apply settings_started in h. destruct h as ([] & hs & ht). destruct st_off_I as [a1 b1], st_off_Q as [a2 b2], st_gain_I as [a3 b3], st_gain_Q as [a4 b4].
  split; [rewrite <- a1; apply (loaded_holds _ _ _ _ _ _ _ _ _ _ ld); constructor|]. split; [rewrite <- a2; apply (loaded_holds _ _ _ _ _ _ _ _ _ _ ld); constructor|].
  split; [rewrite <- a3; apply (loaded_holds _ _ _ _ _ _ _ _ _ _ ld); constructor|]. split; [rewrite <- a4; apply (loaded_holds _ _ _ _ _ _ _ _ _ _ ld); constructor|].
  split; [intros q hr hq; apply (loaded_holds _ _ _ _ _ _ _ _ _ _ ld); apply w_ttl; congruence|].
  split; [apply (loaded_holds _ _ _ _ _ _ _ _ _ _ ld); now constructor|]. split; [pose proof (w_sync k s) as W; rewrite st_sync in W; apply (loaded_holds _ _ _ _ _ _ _ _ _ _ ld); exact W|].
  intros f hf q hq. cbn in hf. destruct hf as [<-|[<-|[<-|[<-|[]]]]]; auto. Qed.

(** Modulation is on exactly for an analog output whose intermediate frequency is not given as 0 (QRC: it has no such parameter); the same of demodulation, where there is one *)
Theorem C74_modulation : forall mode dir n, Mode mode -> Dir dir -> c_channel c = chan mode dir n -> settings k c clock l acqs sq trg = Ok (l', s) -> Loaded d k data p x x' i s -> k <> QRC ->
  exists b, (b = true <-> dir = "output" /\ mode <> "digital" /\ forall q, c_interm c = Some q -> ~ q == 0) /\
    Holds (mem x') (LSeq i) "mod_en_awg" (VBool b) /\ (k = QRM \/ k = QRM_RF -> Holds (mem x') (LSeq i) "demod_en_acq" (VBool b)).
Proof. intros mode dir n m r hc h ld nq. apply settings_started in h. destruct h as ([] & hs & ht). exists (nco_en s). split; [|split; [apply (loaded_holds _ _ _ _ _ _ _ _ _ _ ld); now constructor|intros hk; apply (loaded_holds _ _ _ _ _ _ _ _ _ _ ld); now constructor]].
  destruct st_nco as (cl & e1 & e2). rewrite hc in *. rewrite class_chan in e1 by auto. rewrite outputs_chan in st_outs by auto. injection st_outs as e3. injection e1 as <-.
  assert (D : default_nco_en k = false) by (destruct k; reflexivity || congruence). rewrite D in e2. cbn [orb] in e2. rewrite e2, negb_true_iff, !orb_false_iff, <- e3.
  assert (Z : is_zero (c_interm c) = false <-> forall q, c_interm c = Some q -> ~ q == 0).
  { unfold is_zero. destruct (c_interm c) as [q|]; [|split; [discriminate|auto]]. split; [intros hz y [= <-] e; apply Qeq_bool_iff in e; congruence|]. intros hz. destruct (Qeq_bool q 0) eqn:E; [|auto]. apply Qeq_bool_iff in E. now destruct (hz _ eq_refl). }
  rewrite Z. clear - m r. assert (C1 : match class mode with CDigital => true | _ => false end = false <-> mode <> "digital") by (destruct m; cbn; split; intros y; try discriminate; auto; now destruct y).
  assert (C2 : (List.length (if String.eqb dir "output" then lines mode n else []) =? 0)%nat = false <-> dir = "output").
  { destruct r; cbn [String.eqb Ascii.eqb Bool.eqb]; [|cbn; split; discriminate]. unfold lines. destruct (String.eqb mode "complex"); cbn; tauto. }
  rewrite C1, C2. tauto. Qed.

End Sequencer.

(** Where the AWG of a sequencer of the [n]-th channel of a mode is connected *)
Inductive Wired (k : kind) (mode : string) (n ch : nat) : string -> Prop :=
  | wr_I : baseband k -> mode = "complex" -> ch = (2 * n)%nat -> Wired k mode n ch "I"
  | wr_Q : baseband k -> mode = "complex" -> ch = (2 * n + 1)%nat -> Wired k mode n ch "Q"
  | wr_real : baseband k -> mode = "real" -> ch = n -> Wired k mode n ch "I"
  | wr_IQ : rf k -> mode = "complex" -> ch = n -> Wired k mode n ch "IQ".
Lemma lines_in mode n z : In z (lines mode n) <-> if String.eqb mode "complex" then (z = 2 * Z.of_nat n \/ z = 2 * Z.of_nat n + 1)%Z else z = Z.of_nat n.
Proof. unfold lines. destruct (String.eqb mode "complex"); cbn; intuition congruence. Qed.
Lemma kinds k : k <> QTM -> (baseband k /\ ~ rf k) \/ (rf k /\ ~ baseband k).
Proof. unfold baseband, rf. destruct k; intuition congruence. Qed.
(** The modes a module has channels of: an RF module has no real ones *)
Definition modes (k : kind) (mode : string) : Prop := Mode mode /\ (rf k -> mode <> "real").

Theorem C74_wiring : forall d k data p x x' i s c clock l l' acqs sq trg mode dir n, modes k mode -> Dir dir -> c_channel c = chan mode dir n -> settings k c clock l acqs sq trg = Ok (l', s) -> Loaded d k data p x x' i s ->
  forall ch, (ch < outputs k)%nat ->
    (dir = "output" -> forall v, Wired k mode n ch v -> Holds (mem x') (LSeq i) ("connect_out" ++ dec_n ch) (VStr v)) /\
    (dir = "input" \/ (forall v, ~ Wired k mode n ch v) -> Holds (mem x') (LSeq i) ("connect_out" ++ dec_n ch) (VStr "off")).
Proof. intros d k data p x x' i s c clock l l' acqs sq trg mode dir n [m mr] r hc h ld ch hch. apply settings_started in h. destruct h as ([] & _ & _). rewrite hc in *. rewrite outputs_chan in st_outs by auto. injection st_outs as eo.
  assert (DC : Occurs "digital" (channel_name s) <-> mode = "digital") by (rewrite <- occurs_contains, st_name, digital_chan by auto; apply String.eqb_eq).
  assert (CC : Occurs "complex" (channel_name s) <-> mode = "complex") by (rewrite <- occurs_contains, st_name, complex_chan by auto; apply String.eqb_eq).
  assert (RC : mode = "real" -> Occurs "real" (channel_name s)) by (intros ->; apply occurs_contains; rewrite st_name; apply real_contains).
  assert (RD : mode = "digital" -> ~ Occurs "real" (channel_name s)) by (intros ->; apply occurs_not; rewrite st_name; now apply real_digital).
  assert (K := ld_kind _ _ _ _ _ _ _ _ ld). assert (GO : forall v, OutConn k s ch v -> Holds (mem x') (LSeq i) ("connect_out" ++ dec_n ch) (VStr v)) by (intros v hv; apply (loaded_holds _ _ _ _ _ _ _ _ _ _ ld); now apply w_out).
  split.
  - intros -> v w. apply GO. cbn [String.eqb Ascii.eqb Bool.eqb] in eo. destruct w as [b -> ->|b -> ->|b -> ->|b -> ->].
    + apply oc_I; [auto| |now apply CC|exists n; lia]. rewrite <- eo. apply lines_in. cbn [String.eqb Ascii.eqb Bool.eqb]. lia.
    + apply oc_Q; [auto| |now apply CC|exists n; lia]. rewrite <- eo. apply lines_in. cbn [String.eqb Ascii.eqb Bool.eqb]. lia.
    + apply oc_real; [auto| |auto|rewrite CC; discriminate]. rewrite <- eo. now left.
    + apply oc_IQ; [auto|now rewrite <- eo|rewrite DC; discriminate].
  - intros h. apply GO. destruct (kinds k K) as [[b nr]|[b nb]].
    + apply oc_not; [auto|]. rewrite CC. destruct r; cbn [String.eqb Ascii.eqb Bool.eqb] in eo; [|left; rewrite <- eo; auto]. destruct h as [h|h]; [discriminate|]. destruct m.
      * left. rewrite <- eo. intros hi. apply lines_in in hi. cbn [String.eqb Ascii.eqb Bool.eqb] in hi. destruct hi as [e|e]; [apply (h "I"); apply wr_I; auto; lia|apply (h "Q"); apply wr_Q; auto; lia].
      * left. rewrite <- eo. intros hi. apply lines_in in hi. cbn [String.eqb Ascii.eqb Bool.eqb] in hi. apply (h "I"). apply wr_real; auto. lia.
      * right. split; [discriminate|auto].
    + apply oc_rfnot; [auto|]. rewrite DC. destruct m; [|now destruct (mr b)|auto]. left. rewrite <- eo. destruct r; cbn [String.eqb Ascii.eqb Bool.eqb]; [|discriminate]. destruct h as [h|h]; [discriminate|]. intros e. unfold lines in e. cbn [String.eqb Ascii.eqb Bool.eqb] in e. assert ((2 * Z.of_nat n)%Z = (2 * Z.of_nat ch)%Z) by congruence. apply (h "IQ"). apply wr_IQ; auto. lia. Qed.

(** The inputs of a sequencer of an input, and of a measurement (an output with an input) *)
Definition acquires (c : cfg) (mode : string) (n : nat) : Prop := Mode mode /\
  ((c_channel c = chan mode "input" n /\ c_measure c = None) \/ exists mo no, Mode mo /\ c_channel c = chan mo "output" no /\ c_measure c = Some [chan mode "input" n]).
Definition silent (c : cfg) : Prop := exists mode n, Mode mode /\ c_channel c = chan mode "output" n /\ c_measure c = None.
Lemma acquires_ins c mode n : acquires c mode n -> input_indices (c_channel c) (c_measure c) = Ok (lines mode n).
Proof. intros [m [[-> ->]|(mo & no & mm & -> & ->)]]; [now rewrite inputs_chan by (auto; constructor)|now apply measure_chan]. Qed.
Lemma silent_ins c : silent c -> input_indices (c_channel c) (c_measure c) = Ok [].
Proof. intros (mode & n & m & -> & ->). now rewrite inputs_chan by (auto; constructor). Qed.
Theorem C74_inputs : forall d k data p x x' i s c clock l l' acqs sq trg, settings k c clock l acqs sq trg = Ok (l', s) -> Loaded d k data p x x' i s ->
  (forall mode n, k = QRM -> acquires c mode n ->
     Holds (mem x') (LSeq i) "connect_acq_I" (VStr (if Nat.eqb n 0 then "in0" else "off")) /\
     Holds (mem x') (LSeq i) "connect_acq_Q" (VStr (if (String.eqb mode "complex" && Nat.eqb n 0) || (negb (String.eqb mode "complex") && Nat.eqb n 1) then "in1" else "off"))) /\
  (forall n, k = QRM_RF \/ k = QRC -> acquires c "complex" n -> (n < 2)%nat -> (k = QRM_RF -> n = 0%nat) -> Holds (mem x') (LSeq i) "connect_acq" (VStr (if Nat.eqb n 0 then "in0" else "in1"))) /\
  (silent c -> (k = QRM -> Holds (mem x') (LSeq i) "connect_acq_I" (VStr "off") /\ Holds (mem x') (LSeq i) "connect_acq_Q" (VStr "off")) /\ (k = QRM_RF \/ k = QRC -> Holds (mem x') (LSeq i) "connect_acq" (VStr "off"))).
Proof. intros d k data p x x' i s c clock l l' acqs sq trg h ld. apply settings_started in h. destruct h as ([] & _ & _).
  assert (GO : forall q v, InConn k s q v -> Holds (mem x') (LSeq i) q (VStr v)) by (intros q v hv; apply (loaded_holds _ _ _ _ _ _ _ _ _ _ ld); now apply w_in).
  split; [|split].
  - intros mode n hk a. rewrite (acquires_ins _ _ _ a) in st_ins. injection st_ins as e. unfold lines in e. split; apply GO.
    + destruct (Nat.eqb_spec n 0) as [->|ne]; [apply ic_I|apply ic_Ioff]; auto; rewrite <- e; destruct (String.eqb mode "complex"); cbn [In]; lia.
    + destruct (String.eqb mode "complex") eqn:M; try rewrite M in e; cbn [andb orb negb]; [destruct (Nat.eqb_spec n 0) as [->|ne]|destruct (Nat.eqb_spec n 1) as [->|ne]]; cbn [orb]; first [apply ic_Q; [auto|rewrite <- e; cbn [In]; lia]|apply ic_Qoff; [auto|rewrite <- e; cbn [In]; lia]].
  - intros n hk a lt q. rewrite (acquires_ins _ _ _ a) in st_ins. injection st_ins as e. apply GO. destruct n as [|[|n]]; [apply ic_0; auto| |lia]. destruct hk as [->| ->]; [now specialize (q eq_refl)|]. apply ic_1; auto.
  - intros a. rewrite (silent_ins _ a) in st_ins. injection st_ins as e. split; [intros hk; split; apply GO; [apply ic_Ioff|apply ic_Qoff]; auto; rewrite <- e; tauto|]. intros hk. apply GO. apply ic_off; auto; rewrite <- e; discriminate. Qed.
