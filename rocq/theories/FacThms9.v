(** C62: the next operation after a measurement; where measurements are not what was asked for. *)
From Coq Require Import Ascii Lqa.
From Verif Require Import Base DevModel DevSpec DevProps DevProps2 DevProps3 DevThms DevThms2 DevConf DevConfSpec DevConfProps DevConfThms DevConfThms2 DevConfThms4 TimingModel TimingSpec TimingProps FacModel FacSpec FacProps FacThms FacThms2 FacThms3 FacThms4 FacThms5 FacThms6 FacThms7 FacThms8.
Local Open Scope string_scope.

Definition is_acquisition (e : dict) : Prop := lookup "protocol" e <> None.
Definition moved (o : op) : Q := match op_delay o with Some q => q | None => 0 end.
(** After Measure(apply_acquisition_delay=False) the next operation is moved by as much as the acquisition is after the start of the measurement
    (so that it starts a fixed time after the readout pulse); [keys]: the device overrides that may be given. *)
Definition NextNotDelayed (keys : list string) : Prop := forall cfg m x f gate over d o o' e s,
  configured cfg m x -> measures (icls x) = Some f -> (forall k, In k measure_gate_info -> lookup k gate <> None) -> lookup "acq_protocol" gate <> Some (str "LongTimeTrace") ->
  (forall k, In k (map fst over) -> In k keys) -> (exists va q, value x "measure" "acq_delay" = Some va /\ number va = Some q) ->
  gate_op cfg m "measure" true gate over = Ok d -> timing d = Ok o -> determine ASAP o = Ok o' -> Plays d o' 0 e s -> is_acquisition e -> moved o' == - s.
Theorem C62_no_delay : NextNotDelayed [].
Proof.
  intros cfg m x f gate over d o o' e s C Mx G NL Ov [va [q [Va Nq]]] H T Dt Pl Ia. assert (over = []) as -> by (destruct over as [|[k v] r]; [easy | destruct (Ov k (or_introl eq_refl))]).
  destruct (C62_measure _ _ _ _ true gate [] _ _ C Mx G Va Nq) as [a [E [P1 [P2 [P3 [P4 [P5 [P6 [P7 _]]]]]]]]]. rewrite E in H.
  assert (Ad : at_ a "acq_delay" = CV va) by (apply (P2 "acq_delay" "measure" "acq_delay" va); [destruct (icls x); try discriminate Mx; find_in | exact Va]).
  assert (NL' : chosen_protocol a <> str "LongTimeTrace").
  { destruct (lookup "acq_protocol" gate) as [v|] eqn:L; [|exfalso; apply (G "acq_protocol"); [cbn; tauto | exact L]]. unfold chosen_protocol. rewrite (P1 "acq_protocol" v ltac:(cbn; tauto) L), P4. unfold overridden. cbn [lookup].
    destruct (is_none v); [discriminate | congruence]. }
  destruct (C62_dispersive _ _ H) as [P [ro [ac [rs [g [_ [_ [_ [_ [_ [_ [_ [Np X]]]]]]]]]]]]]; [rewrite P5; reflexivity | exact NL'|].
  destruct (X o T) as [o2 [D [E1 [_ [Dl [Pls _]]]]]]. rewrite Dt in E1. injection E1 as <-. rewrite P7 in Dl. specialize (Dl _ eq_refl). apply Pls in Pl. destruct Pl as [[I _]|[q' [Q' [_ Es]]]].
  - rewrite Forall_forall in Np. elim Ia. now apply Np in I.
  - rewrite Ad in Q'. assert (q' = q) as -> by (destruct va; cbn in Nq, Q'; try discriminate Nq; congruence). unfold moved. rewrite Dl. destruct (Qeq_bool (- q) 0) eqn:Z; [apply Qeq_bool_iff in Z|]; lra.
Qed.

(** In Measure(freq=...), the frequency of the clock is not set back before the acquisition is over; [nd]: apply_acquisition_delay=False. *)
Definition FrequencyHeld (nd : bool) : Prop := forall cfg m x f gate over d o o' e s len b t,
  configured cfg m x -> measures (icls x) = Some f -> (forall k, In k measure_gate_info -> lookup k gate <> None) -> lookup "acq_protocol" gate <> Some (str "LongTimeTrace") ->
  (forall k, In k (map fst over) -> k = "freq") -> (exists va q, value x "measure" "acq_delay" = Some va /\ number va = Some q) ->
  gate_op cfg m "measure" nd gate over = Ok d -> timing d = Ok o -> determine ASAP o = Ok o' ->
  Plays d o' 0 e s -> is_acquisition e -> fl (at_ e "duration") = Ok (Some len) -> Plays d o' 0 b t -> ~ is_acquisition b -> lookup "clock_freq_new" b = Some none -> s + len <= t.
Theorem C62_frequency_held : FrequencyHeld false.
Proof.
  intros cfg m x f gate over d o o' e s len b t C Mx G NL Ov [va [q [Va Nq]]] H T Dt Pe Ia Len Pb Nb Fb.
  destruct (C62_measure _ _ _ _ false gate over _ _ C Mx G Va Nq) as [a [E [P1 [P2 [P3 [P4 [P5 [P6 [P7 _]]]]]]]]]. rewrite E in H.
  assert (NO : forall k v, k <> "freq" -> overridden over k v = v).
  { intros k v N. unfold overridden. destruct (lookup k over) eqn:L; [|reflexivity]. apply lookup_in in L. elim N. apply Ov. apply in_map_iff. eexists; split; [|exact L]. reflexivity. }
  assert (NL' : chosen_protocol a <> str "LongTimeTrace").
  { destruct (lookup "acq_protocol" gate) as [v|] eqn:L; [|exfalso; apply (G "acq_protocol"); [cbn; tauto | exact L]]. unfold chosen_protocol. rewrite (P1 "acq_protocol" v ltac:(cbn; tauto) L), P4. rewrite !NO by discriminate.
    destruct (is_none v); [discriminate | congruence]. }
  destruct (is_none (at_ a "freq")) eqn:Fr.
  - destruct (C62_dispersive _ _ H Fr NL') as [P [ro [ac [rs [g [_ [_ [_ [_ [Ac [_ [_ [Np X]]]]]]]]]]]]]. destruct (X o T) as [o2 [D [E1 [_ [_ [Pls _]]]]]]. rewrite Dt in E1. injection E1 as <-. rewrite Forall_forall in Np.
    apply Pls in Pb as [[I _]|[q' [_ [-> _]]]]; [apply Np in I as [_ I]; congruence|]. elim Nb. unfold is_acquisition. destruct Ac as [Ac _]. unfold fields in Ac. rewrite Forall_forall in Ac. specialize (Ac ("protocol", str P) ltac:(cbn; tauto)). cbn in Ac. now rewrite Ac.
  - destruct (C62_frequency _ _ H Fr) as [d0 [st [bk [E0 [Fs [Fk [Ns [Nk X]]]]]]]]; [rewrite P7; reflexivity | exact NL'|].
    destruct (X o T) as [o2 [o0 [o0' [D [T0 [D0 [Dd [E1 [_ Pls]]]]]]]]]. rewrite Dt in E1. injection E1 as <-.
    destruct (C62_dispersive _ _ E0 eq_refl NL') as [P [ro [ac [rs [g [_ [_ [_ [_ [Ac [_ [_ [Np Y]]]]]]]]]]]]]. destruct (Y o0 T0) as [o3 [D3 [E3 [Dd3 [_ [Pl0 [p [q0 [ln [_ [Q0 [L0 [_ [LU _]]]]]]]]]]]]]].
    rewrite D0 in E3. injection E3 as <-. rewrite Dd in Dd3. injection Dd3 as <-. rewrite Forall_forall in Np.
    assert (Iac : is_acquisition ac). { unfold is_acquisition. destruct Ac as [Ac _]. unfold fields in Ac. rewrite Forall_forall in Ac. specialize (Ac ("protocol", str P) ltac:(cbn; tauto)). cbn in Ac. now rewrite Ac. }
    assert (Ee : e = ac /\ s == q0).
    { apply Pls in Pe as [[-> _]|[Pe|[-> _]]]; [now elim Ia | | now elim Ia]. apply Pl0 in Pe as [[I _]|[q' [Q' [-> Es]]]]; [now elim Ia; apply Np in I|]. rewrite Q0 in Q'. injection Q' as <-. split; [reflexivity|]. rewrite Es. ring. }
    destruct Ee as [-> Es]. rewrite L0 in Len. injection Len as <-. specialize (LU (q0 + ln) ltac:(cbn; tauto)).
    apply Pls in Pb as [[-> _]|[Pb|[-> Et]]]; [| | lra].
    + unfold fields in Fs. rewrite Forall_forall in Fs. specialize (Fs ("clock_freq_new", at_ a "freq") ltac:(cbn; tauto)). cbn in Fs. rewrite Fs in Fb. injection Fb as Fb. rewrite Fb in Fr. discriminate Fr.
    + apply Pl0 in Pb as [[I _]|[q' [_ [-> _]]]]; [apply Np in I as [_ I]; congruence | now elim Nb].
Qed.
