(** C62: optical measurements, and CZ. *)
From Coq Require Import Ascii Lqa.
From Verif Require Import Base DevModel DevSpec DevProps DevProps2 DevProps3 DevThms DevThms2 DevConf DevConfSpec DevConfProps DevConfThms DevConfThms2 DevConfThms4 TimingModel TimingSpec FacModel FacSpec FacProps FacThms FacThms2 FacThms3 FacThms4 FacThms5.
Local Open Scope string_scope.

Lemma lasers : forall l ps o t0 d, foldM (fun o (p : cval * cval * cval * cval) => let '(amp, dur, port, clock) := p in do s <- square_pulse amp dur port clock none t0; add_pulse o s) l o = Ok d ->
  forall n qs, o = DOp n ps qs -> exists more, d = DOp n (ps ++ more)%list qs /\ Forall2 (fun (p : cval * cval * cval * cval) e => let '(amp, dur, port, clock) := p in
    fields e [("wf_func", str "quantify_scheduler.waveforms.square"); ("amp", amp); ("duration", dur); ("port", port); ("clock", clock); ("t0", t0)]) l more.
Proof.
  induction l as [|[[[amp dur] port] clock] l IH]; intros ps o t0 d H n qs ->; cbn [foldM] in H.
  - injection H as <-. exists []. rewrite app_nil_r. split; [reflexivity | constructor].
  - apply bindE in H as [o' [E H]]. apply bindE in E as [s [Es E]]. apply made_ok in Es. subst s. cbn [add_pulse] in E. apply made_ok in E. subst o'.
    destruct (IH _ _ _ _ H _ _ eq_refl) as [more [-> F]]. eexists (_ :: more). split; [rewrite <- app_assoc; reflexivity|]. constructor; [fs | exact F].
Qed.
Lemma max0_ok : forall v q, fl v = Ok (Some q) -> exists u x, max0 v = Ok u /\ fl u = Ok (Some x) /\ 0 <= x /\ q <= x /\ (x == 0 \/ x == q).
Proof.
  intros v q H. unfold max0. rewrite H. cbn [bind]. unfold Qlt_bool. destruct (Qle_bool q 0) eqn:E; cbn [negb].
  - apply Qle_bool_iff in E. exists zero, 0. repeat split; auto; [apply Qle_refl | left; reflexivity].
  - exists v, q. repeat split; auto; [|apply Qle_refl | right; reflexivity]. destruct (Qlt_le_dec q 0) as [L|L]; auto. apply Qlt_le_weak, Qle_bool_iff in L. congruence.
Qed.
Definition optical_protocols := ["TriggerCount"; "Trace"; "Timetag"; "TimetagTrace"].
(** when the time of a tag is taken, and what it is relative to: the first event, and the start of the acquisition, unless the user says otherwise *)
Definition chosen_source (a : dict) : cval := if is_none (at_ a "acq_time_source") then str "first" else at_ a "acq_time_source".
Definition chosen_ref (a : dict) : cval := if is_none (at_ a "acq_time_ref") then str "start" else at_ a "acq_time_ref".
Definition tagged (P : string) (source ref : cval) (e : dict) : Prop :=
  (P = "Timetag" -> fields e [("time_source", source); ("time_ref", ref)]) /\ (P = "TimetagTrace" -> fields e [("time_source", str "first"); ("time_ref", ref)]) /\
  (P = "TriggerCount" \/ P = "Trace" -> lookup "time_source" e = None /\ lookup "time_ref" e = None) /\ (P = "Timetag" \/ P = "TimetagTrace" -> ref <> str "port").
Ltac tag := unfold tagged; refine (conj _ (conj _ (conj _ _)));
  [intros E; first [discriminate E | fs] | intros E; first [discriminate E | fs] | intros [E|E]; first [discriminate E | split; reflexivity] | intros [E|E]; first [discriminate E | intros R; match goal with NP : is_str _ "port" = false |- _ => rewrite R in NP; discriminate NP end]].
(** An optical measurement: one pulse for every laser, all together, and the acquisition acq_delay later (or the pulses -acq_delay later); whichever is first starts at once. *)
Theorem C62_optical : forall a d q, optical_measurement a = Ok d -> fl (at_ a "acq_delay") = Ok (Some q) ->
  exists P amps durs ports clocks pulses acq tp ta vp, chosen_protocol a = str P /\ In P optical_protocols /\ d = DOp "OpticalMeasurement" pulses [acq] /\
    entries (at_ a "pulse_amplitudes") = Ok amps /\ entries (at_ a "pulse_durations") = Ok durs /\ entries (at_ a "pulse_ports") = Ok ports /\ entries (at_ a "pulse_clocks") = Ok clocks /\
    List.length amps = List.length durs /\ List.length durs = List.length ports /\ List.length ports = List.length clocks /\
    Forall2 (fun (p : cval * cval * cval * cval) e => let '(amp, dur, port, clock) := p in
      fields e [("wf_func", str "quantify_scheduler.waveforms.square"); ("amp", amp); ("duration", dur); ("port", port); ("clock", clock); ("t0", vp)]) (zip4 amps durs ports clocks) pulses /\ fl vp = Ok (Some tp) /\
    fields acq [("protocol", str P); ("port", at_ a "acq_port"); ("clock", at_ a "acq_clock"); ("acq_channel", chosen_channel a); ("coords", at_ a "coords"); ("acq_index", at_ a "acq_index"); ("duration", at_ a "acq_duration")] /\
    fl (at_ acq "t0") = Ok (Some ta) /\ ta - tp == q /\ 0 <= tp /\ 0 <= ta /\ (tp == 0 \/ ta == 0) /\
    at_ acq "bin_mode" = (if (P =? "TriggerCount") && is_str (chosen_bin_mode "append" a) "average" then str "distribution" else chosen_bin_mode "append" a) /\
    tagged P (chosen_source a) (chosen_ref a) acq.
Proof.
  intros a d q H Q. unfold optical_measurement in H. apply bindE in H as [amps [E1 H]]. apply bindE in H as [durs [E2 H]]. apply bindE in H as [ports [E3 H]]. apply bindE in H as [clocks [E4 H]].
  destruct (negb _) eqn:L; [discriminate H|]. apply negb_false_iff in L. apply andb_prop in L. destruct L as [L L3]. apply andb_prop in L. destruct L as [L1 L2]. apply Nat.eqb_eq in L1, L2, L3.
  apply bindE in H as [m [M H]]. apply bindE in H as [vp [Vp H]]. apply bindE in H as [va [Va H]]. apply bindE in H as [o0 [O0 H]]. apply bindE in H as [o [O H]].
  fold (chosen_protocol a) (chosen_channel a) (chosen_bin_mode "append" a) (chosen_source a) (chosen_ref a) in H. apply bindE in H as [ac [Ac H]].
  unfold minus in M. rewrite Q in M. cbn in M. injection M as <-.
  destruct (max0_ok (numq (- q)) (- q) eq_refl) as [vp' [tp [U1 [U2 [U3 [U4 U5]]]]]]. rewrite Vp in U1. injection U1 as <-.
  destruct (max0_ok _ _ Q) as [va' [ta [W1 [W2 [W3 [W4 W5]]]]]]. rewrite Va in W1. injection W1 as <-.
  destruct (is_str (at_ a "pulse_type") "SquarePulse"); [|discriminate O]. apply made_ok in O0. destruct (lasers _ _ _ _ _ O _ _ O0) as [pulses [-> F]]. cbn [app] in *.
  assert (T : ta - tp == q /\ (tp == 0 \/ ta == 0)) by (split; [destruct U5 as [U5|U5], W5 as [W5|W5]; lra | destruct U5 as [U5|U5], W5 as [W5|W5]; [left|left|right|]; try lra; left; lra]).
  destruct T as [T1 T2].
  assert (exists P e, chosen_protocol a = str P /\ In P optical_protocols /\ ac = DOp P [] [e] /\
    fields e [("protocol", str P); ("port", at_ a "acq_port"); ("clock", at_ a "acq_clock"); ("acq_channel", chosen_channel a); ("coords", at_ a "coords"); ("acq_index", at_ a "acq_index"); ("duration", at_ a "acq_duration"); ("t0", va)] /\
    at_ e "bin_mode" = (if (P =? "TriggerCount") && is_str (chosen_bin_mode "append" a) "average" then str "distribution" else chosen_bin_mode "append" a) /\ tagged P (chosen_source a) (chosen_ref a) e) as [P [e [EP [IP [-> [Fe [Be Te']]]]]]].
  { assert (TF : forall v u, to_float v = Ok u -> u = v) by (intros v u Hv; unfold to_float in Hv; destruct v as [v| |]; [destruct v|..]; try discriminate Hv; apply bindE in Hv as [? [_ Hv]]; now injection Hv).
    assert (TB : forall v u, to_bin_mode v = Ok u -> u = v) by (intros v u Hv; unfold to_bin_mode in Hv; destruct v as [v| |]; [destruct v|..]; try (now injection Hv); destruct (mem _ _); [now injection Hv | discriminate Hv]).
    assert (TE : forall l v u, to_enum l v = Ok u -> u = v) by (intros l v u Hv; unfold to_enum in Hv; destruct v as [v| |]; [destruct v|..]; try (now injection Hv); destruct (mem _ _); [now injection Hv | discriminate Hv]).
    clear H. destruct (is_str (chosen_protocol a) "TriggerCount") eqn:S1; [|destruct (is_str (chosen_protocol a) "Trace") eqn:S2; [|destruct (is_str (chosen_protocol a) "Timetag") eqn:S3; [|destruct (is_str (chosen_protocol a) "TimetagTrace") eqn:S4; [|discriminate Ac]]]];
      match goal with S : is_str _ _ = true |- _ => apply is_str_eq in S; rename S into EP end.
    - exists "TriggerCount". unfold trigger_count in Ac. apply made_ok in Ac. subst ac. eexists. split; [exact EP|]. split; [cbn; tauto|]. split; [reflexivity|]. split; [fs|]. split; [cbn; reflexivity|]. tag.
    - exists "Trace". unfold trace in Ac. apply bindE in Ac as [u [U Ac]]. apply bindE in Ac as [b [B Ac]]. apply TF in U. apply TB in B. apply made_ok in Ac. subst ac u b. eexists. split; [exact EP|]. split; [cbn; tauto|]. split; [reflexivity|]. split; [fs|]. split; [reflexivity|]. tag.
    - exists "Timetag". unfold timetag in Ac. apply bindE in Ac as [u [U Ac]]. apply bindE in Ac as [b [B Ac]]. destruct (is_str b "port") eqn:NP; [discriminate Ac|]. apply TE in U, B. subst u b. apply made_ok in Ac. subst ac. eexists. split; [exact EP|]. split; [cbn; tauto|]. split; [reflexivity|]. split; [fs|]. split; [reflexivity|]. tag.
    - exists "TimetagTrace". unfold timetag_trace in Ac. apply bindE in Ac as [u [U Ac]]. apply bindE in Ac as [b [B Ac]]. destruct (is_str _ "port") eqn:NP; [discriminate Ac|]. apply TF in U. apply TB in B. apply made_ok in Ac. subst ac u b. eexists. split; [exact EP|]. split; [cbn; tauto|]. split; [reflexivity|]. split; [fs|]. split; [reflexivity|]. tag. }
  cbn [add_acquisition] in H. apply made_ok in H. subst d.
  exists P, amps, durs, ports, clocks, pulses, e, tp, ta, vp. pose proof (field_at _ _ "t0" va Fe ltac:(cbn; tauto)) as Te. rewrite Te.
  assert (Fe' : fields e [("protocol", str P); ("port", at_ a "acq_port"); ("clock", at_ a "acq_clock"); ("acq_channel", chosen_channel a); ("coords", at_ a "coords"); ("acq_index", at_ a "acq_index"); ("duration", at_ a "acq_duration")]).
  { unfold fields in *. rewrite Forall_forall in *. intros kv I. apply Fe. cbn in I |- *. tauto. }
  repeat (match goal with |- _ /\ _ => split end); auto.
Qed.
(** different numbers of lasers *)
Theorem C62_optical_lengths : forall a amps durs ports clocks, entries (at_ a "pulse_amplitudes") = Ok amps -> entries (at_ a "pulse_durations") = Ok durs -> entries (at_ a "pulse_ports") = Ok ports -> entries (at_ a "pulse_clocks") = Ok clocks ->
  ~ (List.length amps = List.length durs /\ List.length durs = List.length ports /\ List.length ports = List.length clocks) -> optical_measurement a = Err ValueError.
Proof.
  intros a amps durs ports clocks E1 E2 E3 E4 N. unfold optical_measurement. rewrite E1, E2, E3, E4. cbn [bind].
  destruct (List.length amps =? List.length durs)%nat eqn:A; [|reflexivity]. destruct (List.length durs =? List.length ports)%nat eqn:B; [|reflexivity]. destruct (List.length ports =? List.length clocks)%nat eqn:C; [|reflexivity].
  apply Nat.eqb_eq in A, B, C. tauto.
Qed.
(** On an NV centre Measure(apply_acquisition_delay=False) always fails: its factory has no next_operation_delay. *)
Theorem C62_optical_no_delay_refuted : forall cfg m x gate over va q, configured cfg m x -> icls x = BasicElectronicNVElement -> (forall k, In k from_measure -> lookup k gate <> None) ->
  value x "measure" "acq_delay" = Some va -> number va = Some q -> gate_op cfg m "measure" true gate over = Err TypeError.
Proof.
  intros cfg m x gate over va q [n [ops [w [d [Sn [H [Hm Hx]]]]]]] X G Va Nq. destruct (entry _ _ _ _ _ _ _ Sn H Hm Hx) as [o [Ho Lo]].
  assert (T : exists t, In ("measure", t) (templates (icls x)) /\ tfactory t = Some "optical_measurement" /\ tgate t = from_measure /\ nodupb (map fst (tkws t)) = true /\ In ("acq_delay", Pm "measure" "acq_delay") (tkws t)).
  { rewrite X. eexists. split; [cbn [templates]; right; right; right; left; reflexivity|]. split; [reflexivity|]. split; [reflexivity|]. split; [vm_compute; reflexivity | find_in]. }
  destruct T as [t [It [Ft [Gt [N Id]]]]]. apply nodupb_ok in N. destruct (operations_entry _ _ _ _ _ Ho It) as [c [Lc Ec]]. destruct (eval_op_parts _ _ _ _ Ec) as [Fc [Gc Kc]].
  destruct (eval_op_kw _ _ _ _ _ _ Ec N Id) as [dv [Ed Ld]]. assert (dv = CV va) as ->.
  { cbn [eval] in Ed. unfold get_param in Ed. unfold value in Va. destruct (lookup "measure" (isubs x)) as [y|]; [|discriminate Va]. rewrite Va in Ed. cbn in Ed. congruence. }
  unfold gate_op, device_repr. rewrite Lo, Lc, Ld. unfold minus. rewrite (fl_number _ _ Nq). cbn [bind]. rewrite Gc, Gt.
  destruct (gate_keywords gate from_measure (insert "next_operation_delay" (of_fl (option_map Qopp (Some q))) (factory_kwargs c)) G) as [kw [E P]]. rewrite E. cbn [bind]. rewrite Fc, Ft.
  unfold call_factory. change ("optical_measurement" =? "non_implemented_pulse") with false. cbv iota.
  assert (L : exists sg body, lookup "optical_measurement" factories = Some (sg, body) /\ mem "next_operation_delay" (map fst sg) = false) by (eexists _, _; split; [reflexivity | vm_compute; reflexivity]).
  destruct L as [sg [body [-> Ms]]]. unfold bind_args.
  match goal with |- context [existsb ?p ?l] => assert (B : existsb p l = true) end; [|now rewrite B].
  apply existsb_exists. pose proof (lookup_overridden over kw "next_operation_delay") as Lk. rewrite P in Lk. change (mem "next_operation_delay" from_measure) with false in Lk. cbv iota in Lk. rewrite lookup_insert, String.eqb_refl in Lk. cbn [option_map] in Lk.
  apply lookup_in in Lk. eexists. split; [exact Lk|]. cbn [fst]. now rewrite Ms.
Qed.
Lemma made_many : forall n ps qs, Forall (fun e => exists a b, fl (at_ e "t0") = Ok (Some a) /\ fl (at_ e "duration") = Ok (Some b)) (ps ++ qs)%list -> made n ps qs = Ok (DOp n ps qs).
Proof.
  intros n ps qs F. unfold made. enough (exists l, mapM (fun i => arith Qplus (at_ i "t0") (at_ i "duration")) (ps ++ qs)%list = Ok l) as [l ->] by reflexivity.
  induction F as [|e l [a [b [A B]]] F [r IH]]; cbn [mapM]; [eauto|]. unfold arith at 1. rewrite A, B. cbn [bind]. rewrite IH. cbn. eauto.
Qed.
Lemma lookup_app_r : forall A k (l m : list (string * A)), ~ In k (map fst l) -> lookup k (l ++ m)%list = lookup k m.
Proof. induction l as [|[a b] r IH]; intros m N; [easy|]. cbn [lookup app map fst In] in *. assert (k <> a) as E by (intros ->; apply N; now left). apply String.eqb_neq in E. rewrite E. apply IH. tauto. Qed.
Lemma edge_setting : forall n ops w d cfg g op k v, session n ops = (w, d) -> device_config w d = Ok cfg -> In g (edges d) -> setting_in (cedges cfg) g op k = Some v -> setting cfg g op k = Some v.
Proof.
  intros n ops w d cfg g op k v Sn H Hg S. pose proof (C59_config n ops w d cfg Sn H) as [Ke _]. pose proof (session_sane n ops) as [_ [_ [_ [U1 [U2 _]]]]]. rewrite Sn in U1, U2. cbn [snd] in *.
  unfold setting, setting_in. rewrite lookup_app_r; [exact S|]. rewrite Ke. intros I. specialize (U1 _ I). specialize (U2 _ Hg). congruence.
Qed.
(** CZ: a square pulse on the port of the edge and the phase corrections of both qubits, all at the same time *)
Theorem C62_cz : forall n ops w d cfg g x gate p c va vt t, session n ops = (w, d) -> device_config w d = Ok cfg -> In g (edges d) -> find_instrument w g = Ok x -> connects x p c -> icls x = CompositeSquareEdge \/ icls x = SpinEdge ->
  value x "cz" "square_amp" = Some va -> value x "cz" "square_duration" = Some vt -> number vt = Some t ->
  let clock := match icls x with CompositeSquareEdge => "01" | _ => "f_larmor" end in
  exists sq zp zc vp vc port, gate_op cfg g "CZ" false gate [] = Ok (DOp "SquarePulse" [sq; zp; zc] []) /\
    value x "cz" (p ++ "_phase_correction") = Some vp /\ value x "cz" (c ++ "_phase_correction") = Some vc /\
    (icls x = CompositeSquareEdge -> exists xp, find_instrument w p = Ok xp /\ value xp "ports" "flux" = Some port) /\ (icls x = SpinEdge -> value x "ports" "gate" = Some port) /\
    fields sq [("wf_func", str "quantify_scheduler.waveforms.square"); ("amp", CV va); ("duration", CV vt); ("port", CV port); ("clock", str "cl0.baseband"); ("t0", zero)] /\
    fields zp [("phase_shift", CV vp); ("clock", str (p ++ "." ++ clock)); ("t0", zero); ("duration", zero)] /\
    fields zc [("phase_shift", CV vc); ("clock", str (c ++ "." ++ clock)); ("t0", zero); ("duration", zero)].
Proof.
  intros n ops w d cfg g x gate p c va vt t Sn H Hg Hx Hpc X Va Vt Nt clock.
  assert (Hm : In g (members d)) by (unfold members; apply in_or_app; now right).
  assert (C : configured cfg g x) by (exists n, ops, w, d; auto).
  destruct (C59_edges _ _ _ _ _ _ _ _ _ Sn H Hg Hx Hpc) as [xp [xc [vp [vc [Xp [Xc [_ [_ [V1 [V2 [S1 [S2 [S3 [S4 [S5 S6]]]]]]]]]]]]]]].
  assert (ES := fun k v => edge_setting n ops w d cfg g "CZ" k v Sn H Hg).
  destruct (called cfg g x "CZ" "composite_square_pulse" [] gate composite_square_sig composite_square_pulse C) as [a [E [_ [P [D [S _]]]]]]; [destruct X as [-> | ->]; find_in | discriminate | intros k [] | reflexivity |].
  assert (T0 : at_ a "t0" = zero).
  { apply (D _ zero); [cbn; repeat (first [left; reflexivity|right]) | intros []|]. destruct X as [X|X]; (eapply (no_setting _ _ _ _ _ _ C); [rewrite X; cbn [templates]; find_in | cbn; intuition discriminate]). }
  assert (PO : exists port, at_ a "square_port" = CV port /\ (icls x = CompositeSquareEdge -> exists xp, find_instrument w p = Ok xp /\ value xp "ports" "flux" = Some port) /\ (icls x = SpinEdge -> value x "ports" "gate" = Some port)).
  { destruct X as [X|X].
    - destruct (S6 X) as [port [Vp Sp]]. exists port. split; [apply (P _ _ ltac:(intros []) (ES _ _ Sp))|]. split; [eauto | intros X'; congruence].
    - destruct (C59_settings _ _ _ _ _ _ _ "CZ" "square_port" "ports" "gate" Sn H Hm Hx) as [v [Vv Sv]]; [rewrite X; find_in|]. exists v. split; [apply (P _ _ ltac:(intros []) Sv)|]. split; [intros X'; congruence | auto]. }
  destruct PO as [port [Po [Po1 Po2]]].
  assert (CK : (if match icls x with CompositeSquareEdge => true | _ => false end then "01" else "f_larmor") = clock) by (unfold clock; destruct X as [-> | ->]; reflexivity). rewrite CK in S3, S4.
  unfold composite_square_pulse in E.
  rewrite Po, T0, (P _ _ ltac:(intros []) (ES _ _ S1)), (P _ _ ltac:(intros []) (ES _ _ S2)), (P _ _ ltac:(intros []) (ES _ _ S3)), (P _ _ ltac:(intros []) (ES _ _ S4)), (P _ _ ltac:(intros []) (ES _ _ S5)) in E.
  rewrite (S "square_amp" "cz" "square_amp" va), (S "square_duration" "cz" "square_duration" vt) in E by (first [solve [eassumption] | solve [destruct X as [-> | ->]; find_in] | solve [intros []]]).
  unfold square_pulse, shift_clock_phase in E.
  assert (Ft := fl_number _ _ Nt).
  erewrite made_one in E; [|reflexivity | exact Ft]. cbn [bind] in E. erewrite made_one in E; [|reflexivity | reflexivity]. cbn [bind add_pulse app] in E.
  erewrite made_many in E; [|repeat apply Forall_cons; try apply Forall_nil; eexists _, _; (split; [reflexivity | first [exact Ft | reflexivity]])]. cbn [bind] in E.
  erewrite made_one in E; [|reflexivity | reflexivity]. cbn [bind add_pulse app] in E.
  erewrite made_many in E; [|repeat apply Forall_cons; try apply Forall_nil; eexists _, _; (split; [reflexivity | first [exact Ft | reflexivity]])].
  eexists _, _, _, vp, vc, port. split; [exact E|]. split; [exact V1|]. split; [exact V2|]. split; [exact Po1|]. split; [exact Po2|]. split; [fs|]. split; fs.
Qed.
