(** C62: what is accepted, what is rejected, and a device where measurements go wrong. *)
From Coq Require Import Ascii Lqa.
From Verif Require Import Base DevModel DevSpec DevProps DevProps2 DevProps3 DevThms DevThms2 DevConf DevConfSpec DevConfProps DevConfThms DevConfThms2 DevConfThms4 TimingModel TimingSpec TimingProps FacModel FacSpec FacProps FacThms FacThms2 FacThms3 FacThms4 FacThms5 FacThms6 FacThms7.
Local Open Scope string_scope.

Lemma made_single : forall n p q e x y, fl (at_ e "t0") = Ok (Some x) -> fl (at_ e "duration") = Ok (Some y) -> (p ++ q)%list = [e] -> made n p q = Ok (DOp n p q).
Proof. intros n p q e x y A B E. apply made_many. rewrite E. apply Forall_cons; [eauto | apply Forall_nil]. Qed.
Ltac protocol := unfold acquisition, str; cbn [is_str existsb weights_protocols String.eqb Ascii.eqb Bool.eqb orb].
(** the readout can be made: the square pulse, and reset_clock_phase *)
Definition readout_fine (a : dict) : Prop :=
  at_ a "pulse_type" = str "SquarePulse" /\ (exists p, fl (at_ a "pulse_duration") = Ok (Some p)) /\ (exists r, truth (at_ a "reset_clock_phase") = Ok r) /\ exists t, truth (at_ a "next_operation_delay") = Ok t.
Lemma readout_made : forall a, readout_fine a -> exists l, readout_pulses a = Ok l.
Proof.
  intros a [P [[p D] [[r R] _]]]. unfold readout_pulses. rewrite R, P. cbn [bind is_str str]. change ("SquarePulse" =? "SquarePulse") with true. cbv iota.
  assert (SQ : forall amp port clock ref, exists o, square_pulse amp (at_ a "pulse_duration") port clock ref zero = Ok o) by (intros; eexists; unfold square_pulse; eapply made_one; [reflexivity | exact D]).
  destruct (SQ (at_ a "pulse_amp") (at_ a "port") (at_ a "clock") (at_ a "reference_magnitude")) as [o ->]. cbn [bind].
  destruct (SQ (at_ a "gate_pulse_amp") (at_ a "gate_port") (str "cl0.baseband") (at_ a "reference_magnitude")) as [o2 E2].
  destruct r; cbn [bind reset_clock_phase]; [change (reset_clock_phase (at_ a "clock")) with (Ok (DOp "ResetClockPhase" [[("wf_func", none); ("clock", at_ a "clock"); ("t0", zero); ("duration", zero); ("port", none); ("reset_clock_phase", CV (VBool true))]] [])); cbn [bind]|];
    destruct (is_none (at_ a "gate_pulse_amp") && is_none (at_ a "gate_port")); cbn [bind]; rewrite ?E2; cbn [bind]; eauto.
Qed.
Lemma dispersive_at : forall a t, readout_fine a -> is_none (at_ a "freq") = true -> chosen_protocol a <> str "LongTimeTrace" -> truth (at_ a "next_operation_delay") = Ok t ->
  exists l, dispersive a = do acq <- acquisition a (chosen_protocol a) (chosen_channel a) (chosen_bin_mode "average" a); Ok (DSched (if t then Some (at_ a "next_operation_delay") else None) (l ++ acq)%list).
Proof.
  intros a t R Fr NL T. destruct (readout_made a R) as [l L]. exists l. unfold dispersive. rewrite T. cbn [bind].
  assert (NP : is_str (at_ a "acq_protocol") "LongTimeTrace" = false) by (destruct (is_str _ _) eqn:E; auto; apply is_str_eq in E; exfalso; apply NL; unfold chosen_protocol; now rewrite E).
  rewrite NP, L. cbn [bind]. fold (chosen_protocol a) (chosen_channel a) (chosen_bin_mode "average" a). destruct (acquisition _ _ _ _); cbn [bind]; [now rewrite Fr | reflexivity].
Qed.
(** Which dispersive measurements are accepted, for each protocol *)
Theorem C62_dispersive_accepts : forall a P q p, readout_fine a -> is_none (at_ a "freq") = true -> chosen_protocol a = str P -> In P plain_protocols -> fl (at_ a "acq_delay") = Ok (Some q) -> fl (at_ a "acq_duration") = Ok (Some p) ->
  exists d, dispersive a = Ok d.
Proof.
  intros a P q p R Fr EP IP Q D. destruct R as [R1 [R2 [R3 [t T]]]]. destruct (dispersive_at a t) as [l ->]; auto; [repeat split; eauto | rewrite EP; intros E; injection E as ->; cbn in IP; intuition discriminate|].
  rewrite EP. destruct IP as [<-|[<-|[<-|[]]]].
  - protocol. unfold ssb. erewrite made_acq; [|exact Q | exact D]. cbn. eauto.
  - protocol. unfold thresholded. erewrite made_acq; [|exact Q | exact D]. cbn. eauto.
  - protocol. unfold trace. assert (TF : to_float (at_ a "acq_duration") = Ok (at_ a "acq_duration")) by (unfold to_float; rewrite D; destruct (at_ a "acq_duration") as [v| |]; [destruct v|..]; try reflexivity; discriminate D).
    rewrite TF. cbn [bind]. change (to_bin_mode (CV (VStr "average"))) with (Ok (str "average")). cbn [bind]. erewrite made_acq; [|exact Q | exact D]. cbn. eauto.
Qed.
Theorem C62_dispersive_rejects : forall a, readout_fine a -> is_none (at_ a "freq") = true ->
  (forall P, chosen_protocol a = str P -> ~ In P ("LongTimeTrace" :: plain_protocols ++ weights_protocols)%list -> dispersive a = Err ValueError) /\
  (forall P, chosen_protocol a = str P -> In P weights_protocols -> is_none (at_ a "acq_weights_a") = true \/ is_none (at_ a "acq_weights_b") = true \/ is_none (at_ a "acq_weights_sampling_rate") = true -> dispersive a = Err TypeError).
Proof.
  intros a R Fr. pose proof R as [_ [_ [_ [t T]]]]. split; intros P EP IP.
  - destruct (dispersive_at a t) as [l ->]; auto; [rewrite EP; intros E; injection E as ->; apply IP; now left|]. rewrite EP. unfold acquisition, str. cbn [is_str existsb weights_protocols].
    assert (N : forall s, In s ("LongTimeTrace" :: plain_protocols ++ weights_protocols)%list -> (P =? s) = false) by (intros s I; apply String.eqb_neq; intros ->; contradiction).
    now rewrite !N by (cbn; tauto).
  - intros W. destruct (dispersive_at a t) as [l ->]; auto; [rewrite EP; intros E; injection E as ->; cbn in IP; intuition discriminate|]. rewrite EP.
    assert (B : is_none (at_ a "acq_weights_a") || is_none (at_ a "acq_weights_b") || is_none (at_ a "acq_weights_sampling_rate") = true) by (destruct W as [-> | [-> | ->]]; cbn; rewrite ?Bool.orb_true_r; reflexivity).
    destruct IP as [<-|[<-|[<-|[]]]]; protocol; rewrite B; reflexivity.
Qed.
(** LongTimeTrace is only for bin mode append and a whole number of points *)
Theorem C62_long_time_trace_rejects : forall a t, at_ a "acq_protocol" = str "LongTimeTrace" -> truth (at_ a "next_operation_delay") = Ok t ->
  chosen_bin_mode "average" a <> str "append" \/ is_int (at_ a "num_points") = None -> dispersive a = Err ValueError.
Proof.
  intros a t P T H. unfold dispersive. rewrite T, P. cbn [bind]. change (is_str (str "LongTimeTrace") "LongTimeTrace") with true. cbn [is_none bind]. cbv iota. cbn [bind].
  fold (chosen_channel a) (chosen_bin_mode "average" a). change (is_none (str "LongTimeTrace")) with false. cbv iota. protocol.
  assert (E : long_time_trace a (chosen_bin_mode "average" a) = Err ValueError).
  { unfold long_time_trace. destruct (is_str (chosen_bin_mode "average" a) "append") eqn:B; [|reflexivity]. apply is_str_eq in B. destruct H as [H|H]; [contradiction|]. now rewrite H. }
  rewrite E. reflexivity.
Qed.
