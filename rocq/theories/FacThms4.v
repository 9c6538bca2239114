(** C62: dispersive measurements. *)
From Verif Require Import Base DevModel DevSpec DevProps DevProps2 DevConf TimingModel TimingSpec TimingProps FacModel FacSpec FacProps FacThms FacThms2 FacThms3.
Local Open Scope string_scope.

Lemma made_ok : forall n ps qs d, made n ps qs = Ok d -> d = DOp n ps qs.
Proof. intros n ps qs d H. unfold made in H. apply bindE in H as [x [_ H]]. now injection H. Qed.
Lemma is_str_eq : forall v s, is_str v s = true -> v = str s.
Proof. intros v s H. destruct v as [v| |]; [destruct v|..]; try discriminate H. apply String.eqb_eq in H. now subst. Qed.
Lemma field_at : forall e l k v, fields e l -> In (k, v) l -> at_ e k = v.
Proof. intros e l k v F I. unfold fields in F. rewrite Forall_forall in F. specialize (F _ I). cbn in F. unfold at_. now rewrite F. Qed.
(** the protocol and channel of a measurement: the argument of Measure, or else that of the device *)
Definition chosen_protocol (a : dict) : cval := if is_none (at_ a "acq_protocol") then at_ a "acq_protocol_default" else at_ a "acq_protocol".
Definition chosen_channel (a : dict) : cval := if is_none (at_ a "acq_channel_override") then at_ a "acq_channel" else at_ a "acq_channel_override".
Definition chosen_bin_mode (dflt : string) (a : dict) : cval := if is_none (at_ a "bin_mode") then str dflt else at_ a "bin_mode".
Definition plain_protocols := ["SSBIntegrationComplex"; "ThresholdedAcquisition"; "Trace"].
(** what the acquisition is, for the protocol [P] *)
Definition acquires (a : dict) (P : string) (e : dict) : Prop :=
  fields e [("protocol", str P); ("port", at_ a "port"); ("clock", at_ a "clock"); ("acq_channel", chosen_channel a); ("coords", at_ a "coords"); ("acq_index", at_ a "acq_index"); ("t0", at_ a "acq_delay")] /\
  (P <> "Trace" -> fields e [("bin_mode", chosen_bin_mode "average" a)]) /\
  (In P plain_protocols -> fields e [("duration", at_ a "acq_duration")]) /\
  (In P weights_protocols -> exists n r, len (at_ a "acq_weights_a") = Ok n /\ is_none (at_ a "acq_weights_b") = false /\ fl (at_ a "acq_weights_sampling_rate") = Ok r /\
     (forall q, r = Some q -> ~ q == 0 /\ exists D, D == inject_Z (Z.of_nat n) / q /\ fields e [("duration", numq D)])) /\
  (P = "ThresholdedAcquisition" -> fields e [("acq_threshold", at_ a "acq_threshold"); ("acq_rotation", at_ a "acq_rotation"); ("feedback_trigger_label", at_ a "feedback_trigger_label")]) /\
  (P = "WeightedThresholdedAcquisition" -> fields e [("acq_threshold", at_ a "acq_threshold"); ("feedback_trigger_label", at_ a "feedback_trigger_label")]).
Lemma weighted_inv : forall n r port clock wa wb rate ch co ix bin t0 more e, weighted_entry n r port clock wa wb rate ch co ix bin t0 more = Ok e ->
  exists k x D w, len wa = Ok k /\ fl rate = Ok x /\ (forall q, x = Some q -> ~ q == 0 /\ exists D', D = numq D' /\ D' == inject_Z (Z.of_nat k) / q) /\
    e = (where_ port clock ch co ix bin t0 D ++ [("waveforms", w); ("phase", zero); ("protocol", str n); ("acq_return_type", str r)] ++ more)%list.
Proof.
  intros n r port clock wa wb rate ch co ix bin t0 more e H. unfold weighted_entry in H. apply bindE in H as [k [K H]]. apply bindE in H as [k' [_ H]]. apply bindE in H as [D [ED H]]. apply bindE in H as [ts [_ H]]. injection H as <-.
  unfold divide in ED. apply bindE in ED as [u [U ED]]. apply bindE in ED as [x [X ED]]. eexists k, x, D, _. split; [exact K|]. split; [exact X|]. split; [|reflexivity].
  intros q ->. destruct (Qeq_bool q 0) eqn:Z; [discriminate ED|]. split; [intros E; apply Qeq_bool_iff in E; congruence|]. unfold arith in ED. rewrite X in ED. cbn -[Qdiv] in ED. injection ED as <-. eexists. split; reflexivity.
Qed.
Ltac nope := let E := fresh in intros E; exfalso; cbn in E; intuition discriminate.
Lemma acquisition_inv : forall a P l, acquisition a (str P) (chosen_channel a) (chosen_bin_mode "average" a) = Ok l -> P <> "LongTimeTrace" ->
  exists d e, l = [(d, Some PtStart, zero)] /\ single d e /\ acquires a P e /\ In P (plain_protocols ++ weights_protocols).
Proof.
  intros a P l H NL. unfold acquisition in H. cbn [is_str str existsb weights_protocols] in H. unfold str in H. cbn [is_str] in H.
  destruct (P =? "SSBIntegrationComplex") eqn:E1; [|destruct (P =? "NumericalSeparatedWeightedIntegration") eqn:E2; [|destruct (P =? "NumericalWeightedIntegration") eqn:E3; [|destruct (P =? "WeightedThresholdedAcquisition") eqn:E4; [|
    destruct (P =? "ThresholdedAcquisition") eqn:E5; [|destruct (P =? "Trace") eqn:E6; [|destruct (P =? "LongTimeTrace") eqn:E7; [apply String.eqb_eq in E7; contradiction | discriminate H]]]]]]];
    match goal with E : (P =? _) = true |- _ => apply String.eqb_eq in E; subst P end; cbn [orb] in H.
  - apply bindE in H as [d [H E]]. injection E as <-. apply made_ok in H. subst d. eexists _, _. split; [reflexivity|]. split; [eexists; right; reflexivity|].
    split; [|cbn; tauto]. unfold acquires. split; [fs|]. split; [intros _; fs|]. split; [intros _; fs|]. split; [nope|]. split; nope.
  - destruct (is_none (at_ a "acq_weights_a") || is_none (at_ a "acq_weights_b") || is_none (at_ a "acq_weights_sampling_rate")) eqn:W; [discriminate H|].
    apply bindE in H as [n0 [_ H]]. apply bindE in H as [x0 [_ H]]. apply bindE in H as [y0 [_ H]]. apply bindE in H as [d [H E]]. injection E as <-. unfold weighted in H. apply bindE in H as [e [We H]]. apply made_ok in H. subst d.
    destruct (weighted_inv _ _ _ _ _ _ _ _ _ _ _ _ _ _ We) as [k [x [D [w [K [X [F ->]]]]]]]. apply Bool.orb_false_iff in W as [W W3]. apply Bool.orb_false_iff in W as [W1 W2].
    eexists _, _. split; [reflexivity|]. split; [eexists; right; reflexivity|]. split; [|cbn; tauto]. unfold acquires. split; [fs|]. split; [intros _; fs|]. split; [nope|]. split; [|split; nope].
    intros _. exists k, x. repeat split; auto; intros; apply F in H as [F1 [D' [-> F2]]]; auto. exists D'. split; auto. fs.
  - destruct (is_none (at_ a "acq_weights_a") || is_none (at_ a "acq_weights_b") || is_none (at_ a "acq_weights_sampling_rate")) eqn:W; [discriminate H|].
    apply bindE in H as [n0 [_ H]]. apply bindE in H as [x0 [_ H]]. apply bindE in H as [y0 [_ H]]. cbn in H. apply bindE in H as [d [H E]]. injection E as <-. unfold weighted in H. apply bindE in H as [e [We H]]. apply made_ok in H. subst d.
    destruct (weighted_inv _ _ _ _ _ _ _ _ _ _ _ _ _ _ We) as [k [x [D [w [K [X [F ->]]]]]]]. apply Bool.orb_false_iff in W as [W W3]. apply Bool.orb_false_iff in W as [W1 W2].
    eexists _, _. split; [reflexivity|]. split; [eexists; right; reflexivity|]. split; [|cbn; tauto]. unfold acquires. split; [fs|]. split; [intros _; fs|]. split; [nope|]. split; [|split; nope].
    intros _. exists k, x. repeat split; auto; intros; apply F in H as [F1 [D' [-> F2]]]; auto. exists D'. split; auto. fs.
  - destruct (is_none (at_ a "acq_weights_a") || is_none (at_ a "acq_weights_b") || is_none (at_ a "acq_weights_sampling_rate")) eqn:W; [discriminate H|].
    apply bindE in H as [n0 [_ H]]. apply bindE in H as [x0 [_ H]]. apply bindE in H as [y0 [_ H]]. cbn in H. apply bindE in H as [d [H E]]. injection E as <-. unfold weighted_thresholded in H. apply bindE in H as [e [We H]]. apply made_ok in H. subst d.
    destruct (weighted_inv _ _ _ _ _ _ _ _ _ _ _ _ _ _ We) as [k [x [D [w [K [X [F ->]]]]]]]. apply Bool.orb_false_iff in W as [W W3]. apply Bool.orb_false_iff in W as [W1 W2].
    eexists _, _. split; [reflexivity|]. split; [eexists; right; reflexivity|]. split; [|cbn; tauto]. unfold acquires. split; [fs|]. split; [intros _; fs|]. split; [nope|]. split; [|split; [nope | intros _; fs]].
    intros _. exists k, x. repeat split; auto; intros; apply F in H as [F1 [D' [-> F2]]]; auto. exists D'. split; auto. fs.
  - apply bindE in H as [d [H E]]. injection E as <-. apply made_ok in H. subst d. eexists _, _. split; [reflexivity|]. split; [eexists; right; reflexivity|].
    split; [|cbn; tauto]. unfold acquires. split; [fs|]. split; [intros _; fs|]. split; [intros _; fs|]. split; [nope|]. split; [intros _; fs | nope].
  - apply bindE in H as [d [H E]]. injection E as <-. unfold trace in H. apply bindE in H as [du [Du H]]. apply bindE in H as [bi [_ H]]. apply made_ok in H. subst d.
    assert (du = at_ a "acq_duration") as -> by (unfold to_float in Du; destruct (at_ a "acq_duration") as [v| |]; [destruct v|..]; try discriminate Du; apply bindE in Du as [? [_ Du]]; now injection Du).
    eexists _, _. split; [reflexivity|]. split; [eexists; right; reflexivity|]. split; [|cbn; tauto]. unfold acquires. split; [fs|]. split; [intros C; now elim C|]. split; [intros _; fs|]. split; [nope|]. split; nope.
Qed.
Lemma lasts_same : forall D l l', lasts_until D l -> (forall q, In q l -> q == 0 \/ exists q', In q' l' /\ q == q') -> (forall q', In q' l' -> exists q, In q l /\ q' == q) -> lasts_until D l'.
Proof.
  intros D l l' [A [B C]] H1 H2. repeat split; auto.
  - intros q I. destruct (H2 _ I) as [x [I' E]]. rewrite E. auto.
  - destruct C as [C|[q [I C]]]; auto. destruct (H1 _ I) as [E|[x [I' E]]]; [left; now rewrite C | right; exists x; split; auto; now rewrite C].
Qed.
Lemma wrap : forall a d reset readout gate acq dlo dl, started (reset ++ [readout] ++ gate ++ [acq])%list d dlo ->
  Forall (fun e => at_ e "t0" = zero /\ at_ e "duration" = zero) reset -> Forall (fun e => at_ e "t0" = zero /\ at_ e "duration" = at_ a "pulse_duration") (readout :: gate) -> at_ acq "t0" = at_ a "acq_delay" ->
  (forall delay, fl (at_ a "next_operation_delay") = Ok (Some delay) -> dl = negb (Qeq_bool delay 0)) -> dlo = (if dl : bool then Some (at_ a "next_operation_delay") else None) ->
  forall o, timing d = Ok o -> exists o' D, determine ASAP o = Ok o' /\ op_dur o' = Some D /\
      (forall delay, fl (at_ a "next_operation_delay") = Ok (Some delay) -> op_delay o' = if Qeq_bool delay 0 then None else Some delay) /\
      (forall t e s, Plays d o' t e s <-> (In e (reset ++ [readout] ++ gate)%list /\ s == t) \/ exists q, fl (at_ a "acq_delay") = Ok (Some q) /\ e = acq /\ s == t + q) /\
      exists p q len, fl (at_ a "pulse_duration") = Ok (Some p) /\ fl (at_ a "acq_delay") = Ok (Some q) /\ fl (at_ acq "duration") = Ok (Some len) /\ lasts_until D [p; q + len].
Proof.
  intros a d reset readout gate acq dlo dl S FR FG TA DL DO o H. destruct (S o H) as [o' [D [E [Hd [Hl [Hp [Hu Hf]]]]]]]. exists o', D. split; [exact E|]. split; [exact Hd|].
  assert (Z0 : forall e, In e (reset ++ [readout] ++ gate)%list -> fl (at_ e "t0") = Ok (Some 0)).
  { intros e I. rewrite Forall_forall in FR, FG. apply in_app_or in I as [I|I]; [destruct (FR e I) as [-> _] | destruct (FG e I) as [-> _]]; reflexivity. }
  assert (Ia : In acq (reset ++ [readout] ++ gate ++ [acq])%list) by (rewrite !in_app_iff; cbn; tauto).
  assert (Ir : In readout (reset ++ [readout] ++ gate ++ [acq])%list) by (rewrite !in_app_iff; cbn; tauto).
  rewrite Forall_forall in Hf. destruct (Hf acq Ia) as [q [len [Q1 Q2]]]. destruct (Hf readout Ir) as [z [p [_ P2]]]. rewrite Forall_forall in FR, FG. destruct (FG readout (or_introl eq_refl)) as [_ Dr]. rewrite Dr in P2. rewrite TA in Q1.
  split; [|split].
  - intros delay Ed. rewrite Hl. specialize (DL _ Ed). subst dl dlo. destruct (Qeq_bool delay 0); cbn; auto. now rewrite Ed.
  - intros t e s. rewrite Hp. split.
    + intros [t0 [I [T Es]]]. rewrite !app_assoc in I. apply in_app_or in I as [I|[<-|[]]]; [left | right].
      * rewrite <- app_assoc in I. split; auto. rewrite (Z0 _ I) in T. injection T as <-. now rewrite Es, Qplus_0_r.
      * exists t0. rewrite TA in T. auto.
    + intros [[I Es]|[q' [Eq [-> Es]]]]; [exists 0 | exists q'; rewrite TA; auto]. split; [|split; [now apply Z0 | now rewrite Qplus_0_r]]. rewrite !app_assoc. apply in_or_app. left. now rewrite <- app_assoc.
  - exists p, q, len. refine (conj P2 (conj Q1 (conj Q2 _))). eapply lasts_same; [exact Hu | |].
    + intros x I. apply in_flat_map in I as [e [I J]]. rewrite !app_assoc in I. apply in_app_or in I as [I|[<-|[]]].
      * rewrite <- app_assoc in I. rewrite (Z0 _ I) in J. apply in_app_or in I as [I|I].
        -- destruct (FR _ I) as [_ G]. rewrite G in J. cbn in J. destruct J as [<-|[]]. left. reflexivity.
        -- destruct (FG _ I) as [_ G]. rewrite G, P2 in J. destruct J as [<-|[]]. right. exists p. split; [left; reflexivity | ring].
      * rewrite TA, Q1, Q2 in J. destruct J as [<-|[]]. right. exists (q + len). split; [right; left; reflexivity | reflexivity].
    + intros x [<-|[<-|[]]].
      * exists (0 + p). split; [|ring]. apply in_flat_map. exists readout. split; [exact Ir|]. rewrite (Z0 readout), Dr, P2 by (rewrite !in_app_iff; cbn; tauto). left. reflexivity.
      * exists (q + len). split; [|reflexivity]. apply in_flat_map. exists acq. split; [exact Ia|]. rewrite TA, Q1, Q2. left. reflexivity.
Qed.
(** A measurement without a frequency of its own: a reset of the phase of the clock (if asked for), the readout pulse and the gate pulse (if there is one) at its start, and the acquisition acq_delay later. *)
Ltac np := repeat (apply Forall_cons; [split; first [assumption | reflexivity] |]); apply Forall_nil.
Theorem C62_dispersive : forall a d, dispersive a = Ok d -> is_none (at_ a "freq") = true -> chosen_protocol a <> str "LongTimeTrace" ->
  exists P readout acq reset gate, chosen_protocol a = str P /\ In P (plain_protocols ++ weights_protocols) /\ at_ a "pulse_type" = str "SquarePulse" /\
    fields readout [("wf_func", str "quantify_scheduler.waveforms.square"); ("amp", at_ a "pulse_amp"); ("duration", at_ a "pulse_duration"); ("port", at_ a "port"); ("clock", at_ a "clock");
                    ("reference_magnitude", at_ a "reference_magnitude"); ("t0", zero)] /\
    acquires a P acq /\
    (truth (at_ a "reset_clock_phase") = Ok true /\ (exists e, reset = [e] /\ fields e [("reset_clock_phase", CV (VBool true)); ("clock", at_ a "clock"); ("t0", zero)]) \/ truth (at_ a "reset_clock_phase") = Ok false /\ reset = []) /\
    (is_none (at_ a "gate_pulse_amp") = true /\ is_none (at_ a "gate_port") = true /\ gate = [] \/
     (is_none (at_ a "gate_pulse_amp") = false \/ is_none (at_ a "gate_port") = false) /\ exists e, gate = [e] /\
       fields e [("wf_func", str "quantify_scheduler.waveforms.square"); ("amp", at_ a "gate_pulse_amp"); ("duration", at_ a "pulse_duration"); ("port", at_ a "gate_port"); ("clock", str "cl0.baseband"); ("t0", zero)]) /\
    Forall (fun e => lookup "protocol" e = None /\ lookup "clock_freq_new" e = None) (reset ++ [readout] ++ gate)%list /\
    forall o, timing d = Ok o -> exists o' D, determine ASAP o = Ok o' /\ op_dur o' = Some D /\
      (forall delay, fl (at_ a "next_operation_delay") = Ok (Some delay) -> op_delay o' = if Qeq_bool delay 0 then None else Some delay) /\
      (forall t e s, Plays d o' t e s <-> (In e (reset ++ [readout] ++ gate) /\ s == t) \/ exists q, fl (at_ a "acq_delay") = Ok (Some q) /\ e = acq /\ s == t + q) /\
      exists p q len, fl (at_ a "pulse_duration") = Ok (Some p) /\ fl (at_ a "acq_delay") = Ok (Some q) /\ fl (at_ acq "duration") = Ok (Some len) /\ lasts_until D [p; q + len].
Proof.
  intros a d H Fr NL. unfold dispersive in H. apply bindE in H as [dl [Dl H]]. apply bindE in H as [fst_ [F H]]. fold (chosen_protocol a) (chosen_channel a) (chosen_bin_mode "average" a) in H.
  apply bindE in H as [acq [A H]]. rewrite Fr in H. injection H as <-.
  assert (exists P, chosen_protocol a = str P) as [P EP].
  { unfold acquisition in A. destruct (chosen_protocol a) as [v| |]; [destruct v|..]; cbn in A; try discriminate A. eexists; reflexivity. }
  rewrite EP in A. destruct (acquisition_inv _ _ _ A ltac:(intros ->; congruence)) as [da [ea [-> [Sa [Qa IP]]]]].
  assert (NP : is_str (at_ a "acq_protocol") "LongTimeTrace" = false).
  { destruct (is_str _ _) eqn:E; auto. apply is_str_eq in E. exfalso. apply NL. unfold chosen_protocol. now rewrite E. }
  rewrite NP in F. unfold readout_pulses in F. apply bindE in F as [r [R F]]. apply bindE in F as [i1 [I1 F]]. apply bindE in F as [i2 [I2 F]]. apply bindE in F as [i3 [I3 F]]. injection F as <-.
  destruct (is_str (at_ a "pulse_type") "SquarePulse") eqn:PT; [|discriminate I2]. apply is_str_eq in PT. apply bindE in I2 as [sq [Sq I2]]. injection I2 as <-. apply made_ok in Sq. subst sq.
  assert (exists ro, [("wf_func", str "quantify_scheduler.waveforms.square"); ("amp", at_ a "pulse_amp"); ("reference_magnitude", at_ a "reference_magnitude"); ("duration", at_ a "pulse_duration"); ("t0", zero); ("clock", at_ a "clock"); ("port", at_ a "port")] = ro) as [ro Ro] by eauto.
  exists P, ro, ea. rewrite Ro.
  assert (T0 : forall e, fields e [("t0", zero)] -> fl (at_ e "t0") = Ok (Some 0)) by (intros e Fe; now rewrite (field_at _ _ "t0" zero Fe ltac:(cbn; tauto))).
  assert (Ra : fields ro [("wf_func", str "quantify_scheduler.waveforms.square"); ("amp", at_ a "pulse_amp"); ("duration", at_ a "pulse_duration"); ("port", at_ a "port"); ("clock", at_ a "clock"); ("reference_magnitude", at_ a "reference_magnitude"); ("t0", zero)]) by (subst ro; fs).
  assert (Tr : fl (at_ ro "t0") = Ok (Some 0)) by (subst ro; reflexivity). assert (Dr : at_ ro "duration" = at_ a "pulse_duration") by (subst ro; reflexivity).
  assert (Ta : at_ ea "t0" = at_ a "acq_delay") by (destruct Qa as [Qa _]; eapply field_at; [exact Qa | cbn; tauto]).
  assert (DL : forall delay, fl (at_ a "next_operation_delay") = Ok (Some delay) -> dl = negb (Qeq_bool delay 0)).
  { intros delay E. destruct (at_ a "next_operation_delay") as [v| |]; [destruct v|..]; cbn in E, Dl; try discriminate E; injection E as <-; injection Dl as <-; auto; try (destruct b; reflexivity).
    f_equal. unfold Qeq_bool, Zeq_bool. cbn. rewrite Z.mul_1_r. destruct (z ?= 0)%Z eqn:C; rewrite ?Z.eqb_compare, C; auto. }
  assert (Z1 : at_ ro "t0" = zero) by (subst ro; reflexivity). assert (Pn : lookup "protocol" ro = None) by (subst ro; reflexivity). assert (Pn2 : lookup "clock_freq_new" ro = None) by (subst ro; reflexivity). clear Ro NL NP A Dl.
  assert (Sr : single (DOp "SquarePulse" [ro] []) ro) by (eexists; left; reflexivity).
  destruct (is_none (at_ a "gate_pulse_amp") && is_none (at_ a "gate_port")) eqn:G.
  - injection I3 as <-. apply Bool.andb_true_iff in G as [G1 G2]. destruct r.
    + apply bindE in I1 as [p [Rp I1]]. injection I1 as <-. apply made_ok in Rp. subst p. exists [[("wf_func", none); ("clock", at_ a "clock"); ("t0", zero); ("duration", zero); ("port", none); ("reset_clock_phase", CV (VBool true))]], []. refine (conj EP (conj IP (conj PT (conj Ra (conj Qa (conj _ (conj _ (conj _ _))))))));[| | cbn [List.app]; np |].
      * left. split; [exact R|]. eexists. split; [reflexivity|]. fs.
      * left. auto.
      * apply (wrap a _ [_] ro [] ea _ dl (started_3 _ _ _ _ _ _ _ None ltac:(eexists; left; reflexivity) Sr Sa (or_introl eq_refl))); auto.
    + injection I1 as <-. exists [], []. refine (conj EP (conj IP (conj PT (conj Ra (conj Qa (conj _ (conj _ (conj _ _))))))));[| | cbn [List.app]; np |].
      * right. auto.
      * left. auto.
      * apply (wrap a _ [] ro [] ea _ dl (started_2 _ _ _ _ _ (Some PtStart) Sr Sa (or_intror eq_refl))); auto.
  - apply bindE in I3 as [gp [Gp I3]]. injection I3 as <-. apply made_ok in Gp. subst gp.
    assert (G' : is_none (at_ a "gate_pulse_amp") = false \/ is_none (at_ a "gate_port") = false) by (apply Bool.andb_false_iff in G; tauto). destruct r.
    + apply bindE in I1 as [p [Rp I1]]. injection I1 as <-. apply made_ok in Rp. subst p. exists [[("wf_func", none); ("clock", at_ a "clock"); ("t0", zero); ("duration", zero); ("port", none); ("reset_clock_phase", CV (VBool true))]], [[("wf_func", str "quantify_scheduler.waveforms.square"); ("amp", at_ a "gate_pulse_amp"); ("reference_magnitude", at_ a "reference_magnitude"); ("duration", at_ a "pulse_duration"); ("t0", zero); ("clock", str "cl0.baseband"); ("port", at_ a "gate_port")]]. refine (conj EP (conj IP (conj PT (conj Ra (conj Qa (conj _ (conj _ (conj _ _))))))));[| | cbn [List.app]; np |].
      * left. split; [exact R|]. eexists. split; [reflexivity|]. fs.
      * right. split; [exact G'|]. eexists. split; [reflexivity|]. fs.
      * apply (wrap a _ [_] ro [_] ea _ dl (started_4 _ _ _ _ _ _ _ _ _ None ltac:(eexists; left; reflexivity) Sr ltac:(eexists; left; reflexivity) Sa (or_introl eq_refl))); auto.
    + injection I1 as <-. exists [], [[("wf_func", str "quantify_scheduler.waveforms.square"); ("amp", at_ a "gate_pulse_amp"); ("reference_magnitude", at_ a "reference_magnitude"); ("duration", at_ a "pulse_duration"); ("t0", zero); ("clock", str "cl0.baseband"); ("port", at_ a "gate_port")]]. refine (conj EP (conj IP (conj PT (conj Ra (conj Qa (conj _ (conj _ (conj _ _))))))));[| | cbn [List.app]; np |].
      * right. auto.
      * right. split; [exact G'|]. eexists. split; [reflexivity|]. fs.
      * apply (wrap a _ [] ro [_] ea _ dl (started_3 _ _ _ _ _ _ _ (Some PtStart) Sr ltac:(eexists; left; reflexivity) Sa (or_intror eq_refl))); auto.
Qed.
