(** C59: which factory is called for an operation, what it gets from the gate, on which clock it plays, its reference magnitude and
    its lists of pulses; and which frequencies a clock may have. *)
From Coq Require Import Ascii.
From Verif Require Import Base DevModel DevSpec DevProps DevProps2 DevProps3 DevThms DevThms2 DevConf DevConfSpec DevConfProps DevConfThms.
Local Open Scope string_scope.

(** operation, the function that makes its pulses (None: no operation of its own), and what it takes from the gate *)
Definition from_measure := ["acq_channel_override"; "coords"; "acq_index"; "bin_mode"; "acq_protocol"].
Definition factories_of (c : class) : list (string * option string * list string) :=
  match c with
  | BasicTransmonElement =>
      [("reset", Some "IdlePulse", []); ("Rxy", Some "rxy_drag_pulse", ["theta"; "phi"]); ("Rz", Some "phase_shift", ["theta"]); ("H", Some "hadamard_as_y90z", []);
       ("pulse_compensation", None, []); ("measure", Some "dispersive_measurement_transmon", from_measure ++ ["feedback_trigger_label"])%list]
  | BasicSpinElement =>
      [("reset", Some "IdlePulse", []); ("Rxy", Some "rxy_gauss_pulse", ["theta"; "phi"]); ("Rz", Some "phase_shift", ["theta"]); ("H", Some "hadamard_as_y90z", []);
       ("pulse_compensation", None, []); ("measure", Some "dispersive_measurement_spin", from_measure ++ ["feedback_trigger_label"])%list]
  | ChargeSensor => [("pulse_compensation", None, []); ("measure", Some "dispersive_measurement_spin", from_measure ++ ["feedback_trigger_label"])%list]
  | BasicElectronicNVElement =>
      [("spectroscopy_operation", Some "nv_spec_pulse_mw", []); ("reset", Some "SquarePulse", []); ("charge_reset", Some "SquarePulse", []);
       ("Rxy", Some "rxy_pulse", ["theta"; "phi"]); ("pulse_compensation", None, []); ("measure", Some "optical_measurement", from_measure); ("cr_count", Some "optical_measurement", from_measure)]
  | CompositeSquareEdge => [("CZ", Some "composite_square_pulse", [])]
  | SpinEdge => [("CZ", Some "composite_square_pulse", []); ("CNOT", Some "non_implemented_pulse", []); ("SpinInit", Some "non_implemented_pulse", [])]
  end.
(** operation, keyword, and the part after the dot of the clock *)
Definition op_clocks (c : class) : list (string * string * string) :=
  match c with
  | BasicTransmonElement => [("Rxy", "clock", "01"); ("Rz", "clock", "01"); ("pulse_compensation", "clock", "01"); ("measure", "clock", "ro")]
  | BasicSpinElement => [("Rxy", "clock", "f_larmor"); ("Rz", "clock", "f_larmor"); ("pulse_compensation", "clock", "f_larmor"); ("measure", "clock", "ro")]
  | ChargeSensor => [("measure", "clock", "ro")]
  | BasicElectronicNVElement =>
      [("spectroscopy_operation", "clock", "spec"); ("Rxy", "clock", "spec"); ("reset", "clock", "ge1"); ("charge_reset", "clock", "ionization"); ("measure", "acq_clock", "ge0");
       ("cr_count", "acq_clock", "ge0")]
  | _ => []
  end.
(** operation and the submodule with its reference magnitude *)
Definition references_of (c : class) : list (string * string) :=
  match c with
  | BasicTransmonElement | BasicSpinElement => [("Rxy", "rxy"); ("measure", "measure")]
  | ChargeSensor => [("measure", "measure")]
  | _ => []
  end.
(** the laser pulses of an optical measurement: operation, and for each pulse the parameters of its amplitude and duration, its submodule, and the suffix of its clock *)
Definition laser_pulses : list (string * list (string * string * string * string)) :=
  [("measure", [("measure", "pulse_amplitude", "pulse_duration", "ge0")]);
   ("cr_count", [("cr_count", "readout_pulse_amplitude", "readout_pulse_duration", "ge0"); ("cr_count", "spinpump_pulse_amplitude", "spinpump_pulse_duration", "ge1")])].
Definition factory_in (l : list (string * list (string * opcfg))) (m operation : string) : option (option string * list string) :=
  match lookup m l with
  | Some ops => match lookup operation ops with Some o => Some (factory o, gate_info o) | None => None end
  | None => None
  end.

Lemma entry : forall n ops w d cfg m x, session n ops = (w, d) -> device_config w d = Ok cfg -> In m (members d) -> find_instrument w m = Ok x ->
  exists o, operations w x = Ok o /\ lookup m (celements cfg ++ cedges cfg) = Some o.
Proof.
  intros n ops w d cfg m x Sn H Hm Hx. pose proof (C59_config n ops w d cfg Sn H) as [Ke [Kg [_ [He [Hg _]]]]].
  unfold members in Hm. pose proof (session_sane n ops) as [_ [N1 [N2 [U1 [U2 _]]]]]. rewrite Sn in N1, N2, U1, U2. cbn [snd] in *.
  assert (ND : NoDup (map fst (celements cfg ++ cedges cfg))).
  { rewrite map_app, Ke, Kg. apply nodup_app; auto. intros a A B. specialize (U1 _ A). specialize (U2 _ B). congruence. }
  apply in_app_or in Hm. destruct Hm as [Hm|Hm].
  - destruct (He m Hm) as [x' [o [A [B C]]]]. assert (x' = x) by congruence. subst x'. exists o. split; [easy|]. apply in_lookup; [exact ND|]. apply in_or_app. left. now apply lookup_in.
  - destruct (Hg m Hm) as [x' [o [A [B C]]]]. assert (x' = x) by congruence. subst x'. exists o. split; [easy|]. apply in_lookup; [exact ND|]. apply in_or_app. right. now apply lookup_in.
Qed.
Lemma keyword : forall n ops w d cfg m x op t kw s, session n ops = (w, d) -> device_config w d = Ok cfg -> In m (members d) -> find_instrument w m = Ok x ->
  In (op, t) (templates (icls x)) -> In (kw, s) (tkws t) -> exists v, eval w x s = Ok v /\ setting_in (celements cfg ++ cedges cfg) m op kw = Some v.
Proof.
  intros n ops w d cfg m x op t kw s Sn H Hm Hx It Ik. destruct (entry _ _ _ _ _ _ _ Sn H Hm Hx) as [o [Ho Lo]].
  destruct (operations_kw _ _ _ _ _ _ _ Ho It Ik) as [c [v [Lc [Ev Lv]]]]. exists v. split; [easy|]. unfold setting_in. now rewrite Lo, Lc.
Qed.
Ltac find_in := cbn [In]; repeat (first [left; reflexivity | right]).

(** Every operation of an element or edge is made by the function of the table, from what the table says of the gate; and there are no other operations *)
Theorem C59_factories : forall n ops w d cfg m x, session n ops = (w, d) -> device_config w d = Ok cfg -> In m (members d) -> find_instrument w m = Ok x ->
  (forall op f g, In (op, f, g) (factories_of (icls x)) -> factory_in (celements cfg ++ cedges cfg) m op = Some (f, g)) /\
  (forall op fg, factory_in (celements cfg ++ cedges cfg) m op = Some fg -> In (op, fst fg, snd fg) (factories_of (icls x))).
Proof.
  intros n ops w d cfg m x Sn H Hm Hx. destruct (entry _ _ _ _ _ _ _ Sn H Hm Hx) as [o [Ho Lo]]. pose proof Ho as F. apply mapM_f2 in F.
  assert (NT : NoDup (map fst (templates (icls x)))) by (clear; destruct (icls x); cbn; repeat constructor; cbn; intuition discriminate).
  assert (M : map fst o = map fst (templates (icls x))).
  { clear - F. induction F as [|[k1 s1] [k2 v2] l m Q F IH]; cbn; [easy|]. cbn in Q. inv Q. injection Q as -> _. now rewrite IH. }
  split.
  - intros op f g I. assert (T : exists t, In (op, t) (templates (icls x)) /\ tfactory t = f /\ tgate t = g).
    { assert (A : Forall (fun r => let '(op, f, g) := r in exists t, In (op, t) (templates (icls x)) /\ tfactory t = f /\ tgate t = g) (factories_of (icls x))).
      { clear. destruct (icls x); cbn [factories_of]; repeat (apply Forall_cons || apply Forall_nil); cbn [templates]; eexists; (split; [find_in | split; reflexivity]). }
      rewrite Forall_forall in A. exact (A _ I). }
    destruct T as [t [It [<- <-]]]. destruct (f2_in_l _ _ _ _ _ _ F It) as [[n' c] [Ic Ec]]. cbn [fst snd] in Ec. inv Ec. injection Ec as <- <-.
    unfold factory_in. rewrite Lo. assert (L : lookup op o = Some a) by (apply in_lookup; [now rewrite M | exact Ic]). rewrite L.
    unfold eval_op in E. inv E. injection E as <-. reflexivity.
  - intros op fg I. unfold factory_in in I. rewrite Lo in I. destruct (lookup op o) as [c|] eqn:L; [|discriminate I]. injection I as <-. cbn [fst snd].
    apply lookup_in in L. destruct (f2_in_r _ _ _ _ _ _ F L) as [[n' t] [It Et]]. cbn [fst snd] in Et. inv Et. injection Et as <- <-. unfold eval_op in E. inv E. injection E as <-. cbn.
    assert (A : Forall (fun nt => In (fst nt, tfactory (snd nt), tgate (snd nt)) (factories_of (icls x))) (templates (icls x))).
    { clear. destruct (icls x); cbn [templates]; repeat (apply Forall_cons || apply Forall_nil); cbn [factories_of fst snd]; find_in. }
    rewrite Forall_forall in A. exact (A _ It).
Qed.
(** The clock of an operation, the qubit of H, and the reference magnitude *)
Theorem C59_clocks_used : forall n ops w d cfg m x op kw suffix, session n ops = (w, d) -> device_config w d = Ok cfg -> In m (members d) -> find_instrument w m = Ok x ->
  In (op, kw, suffix) (op_clocks (icls x)) -> setting_in (celements cfg ++ cedges cfg) m op kw = Some (CV (VStr (m ++ "." ++ suffix))).
Proof.
  intros n ops w d cfg m x op kw sfx Sn H Hm Hx I.
  assert (T : exists t, In (op, t) (templates (icls x)) /\ In (kw, Clk sfx) (tkws t)).
  { assert (A : Forall (fun r => let '(op, kw, sfx) := r in exists t, In (op, t) (templates (icls x)) /\ In (kw, Clk sfx) (tkws t)) (op_clocks (icls x))).
    { clear. destruct (icls x); cbn [op_clocks]; repeat (apply Forall_cons || apply Forall_nil); cbn [templates]; eexists; (split; [find_in | find_in]). }
    rewrite Forall_forall in A. exact (A _ I). }
  destruct T as [t [It Ik]]. destruct (keyword _ _ _ _ _ _ _ _ _ _ _ Sn H Hm Hx It Ik) as [v [Ev ->]]. cbn [eval] in Ev. injection Ev as <-.
  pose proof (session_sane n ops) as [Sw _]. rewrite Sn in Sw. destruct (find_sane _ _ _ Sw Hx) as [<- _]. reflexivity.
Qed.
Theorem C59_hadamard_qubit : forall n ops w d cfg m x, session n ops = (w, d) -> device_config w d = Ok cfg -> In m (members d) -> find_instrument w m = Ok x ->
  icls x = BasicTransmonElement \/ icls x = BasicSpinElement -> setting_in (celements cfg ++ cedges cfg) m "H" "qubit" = Some (CV (VStr m)).
Proof.
  intros n ops w d cfg m x Sn H Hm Hx I. assert (T : exists t, In ("H", t) (templates (icls x)) /\ In ("qubit", Me) (tkws t)) by (destruct I as [-> | ->]; cbn [templates]; eexists; (split; [find_in|find_in])).
  destruct T as [t [It Ik]]. destruct (keyword _ _ _ _ _ _ _ _ _ _ _ Sn H Hm Hx It Ik) as [v [Ev ->]]. cbn [eval] in Ev. injection Ev as <-.
  pose proof (session_sane n ops) as [Sw _]. rewrite Sn in Sw. destruct (find_sane _ _ _ Sw Hx) as [<- _]. reflexivity.
Qed.
Theorem C59_reference_magnitude : forall n ops w d cfg m x op s, session n ops = (w, d) -> device_config w d = Ok cfg -> In m (members d) -> find_instrument w m = Ok x ->
  In (op, s) (references_of (icls x)) -> exists r v, reference_of x s = Some r /\ ref_get r = Ok v /\
    setting_in (celements cfg ++ cedges cfg) m op "reference_magnitude" = Some (CR v).
Proof.
  intros n ops w d cfg m x op s Sn H Hm Hx I.
  assert (T : exists t, In (op, t) (templates (icls x)) /\ In ("reference_magnitude", Ref s) (tkws t)).
  { assert (A : Forall (fun r => let '(op, s) := r in exists t, In (op, t) (templates (icls x)) /\ In ("reference_magnitude", Ref s) (tkws t)) (references_of (icls x))).
    { clear. destruct (icls x); cbn [references_of]; repeat (apply Forall_cons || apply Forall_nil); cbn [templates]; eexists; (split; [find_in | find_in]). }
    rewrite Forall_forall in A. exact (A _ I). }
  destruct T as [t [It Ik]]. destruct (keyword _ _ _ _ _ _ _ _ _ _ _ Sn H Hm Hx It Ik) as [v [Ev ->]]. cbn [eval] in Ev.
  destruct (lookup s (isubs x)) as [y|] eqn:L; [|discriminate Ev]. destruct (refm y) as [r|] eqn:R; [|discriminate Ev]. inv Ev. injection Ev as <-.
  exists r, a. split; [unfold reference_of; now rewrite L|auto].
Qed.
(** The laser pulses of the measurements of an NV centre, in order: amplitudes, durations, ports and clocks belong together *)
Theorem C59_laser_pulses : forall n ops w d cfg m x op l, session n ops = (w, d) -> device_config w d = Ok cfg -> In m (members d) -> find_instrument w m = Ok x ->
  icls x = BasicElectronicNVElement -> In (op, l) laser_pulses ->
  exists amps durs port, Forall2 (fun a (p : string * string * string * string) => let '(s, amp, _, _) := p in exists v, value x s amp = Some v /\ a = CV v) amps l /\
    Forall2 (fun t (p : string * string * string * string) => let '(s, _, dur, _) := p in exists v, value x s dur = Some v /\ t = CV v) durs l /\
    value x "ports" "optical_control" = Some port /\
    setting_in (celements cfg ++ cedges cfg) m op "pulse_amplitudes" = Some (CL amps) /\
    setting_in (celements cfg ++ cedges cfg) m op "pulse_durations" = Some (CL durs) /\
    setting_in (celements cfg ++ cedges cfg) m op "pulse_ports" = Some (CL (map (fun _ => CV port) l)) /\
    setting_in (celements cfg ++ cedges cfg) m op "pulse_clocks" = Some (CL (map (fun p : string * string * string * string => let '(_, _, _, c) := p in CV (VStr (m ++ "." ++ c))) l)).
Proof.
  intros n ops w d cfg m x op l Sn H Hm Hx C I.
  pose proof (session_sane n ops) as [Sw _]. rewrite Sn in Sw. destruct (find_sane _ _ _ Sw Hx) as [En _].
  assert (K : forall kw s, match lookup op (templates (icls x)) with Some t => lookup kw (tkws t) | None => None end = Some s ->
            exists v, eval w x s = Ok v /\ setting_in (celements cfg ++ cedges cfg) m op kw = Some v).
  { intros kw s L. destruct (lookup op (templates (icls x))) as [t|] eqn:Lt; [|discriminate L]. eapply keyword; eauto using lookup_in. }
  rewrite C in K. cbn [laser_pulses In] in I. destruct I as [I|[I|[]]]; injection I as <- <-;
    destruct (K "pulse_amplitudes" _ eq_refl) as [va [Ea Sa]]; destruct (K "pulse_durations" _ eq_refl) as [vd [Ed Sd]];
    destruct (K "pulse_ports" _ eq_refl) as [vp [Ep Sp]]; destruct (K "pulse_clocks" _ eq_refl) as [vc [Ec Sc]]; clear K;
    cbn [eval] in Ea, Ed, Ep, Ec.
  - destruct (get_param x "measure" "pulse_amplitude") as [a|] eqn:Ga; [|discriminate Ea]. destruct (get_param x "measure" "pulse_duration") as [t|] eqn:Gd; [|discriminate Ed].
    destruct (get_param x "ports" "optical_control") as [p|] eqn:Gp; [|discriminate Ep]. cbn [bind] in *. injection Ea as <-. injection Ed as <-. injection Ep as <-. injection Ec as <-.
    apply get_param_value in Ga, Gd, Gp. exists [CV a], [CV t], p. rewrite Sa, Sd, Sp, Sc, En. repeat split; auto; repeat constructor; eauto.
  - destruct (get_param x "cr_count" "readout_pulse_amplitude") as [a|] eqn:Ga; [|discriminate Ea]. destruct (get_param x "cr_count" "readout_pulse_duration") as [t|] eqn:Gd; [|discriminate Ed].
    destruct (get_param x "cr_count" "spinpump_pulse_amplitude") as [a'|] eqn:Ga'; [|discriminate Ea]. destruct (get_param x "cr_count" "spinpump_pulse_duration") as [t'|] eqn:Gd'; [|discriminate Ed].
    destruct (get_param x "ports" "optical_control") as [p|] eqn:Gp; [|discriminate Ep]. cbn [bind] in *. injection Ea as <-. injection Ed as <-. injection Ep as <-. injection Ec as <-.
    apply get_param_value in Ga, Gd, Gp, Ga', Gd'. exists [CV a; CV a'], [CV t; CV t'], p. rewrite Sa, Sd, Sp, Sc, En. repeat split; auto; repeat constructor; eauto.
Qed.
(** Every frequency from 0 to 1 THz is accepted for the clocks of an element, and then is the frequency of that clock *)
Theorem C59_frequency_accepted : forall n ops w d m x suffix p q, session n ops = (w, d) -> find_instrument w m = Ok x -> In (suffix, p) (clocks_spec (icls x)) -> 0 <= q -> q <= 1000000000000 ->
  exists y, set_param x "clock_freqs" p (VNum q) = Ok y /\ value y "clock_freqs" p = Some (VNum q).
Proof.
  intros n ops w d m x sfx p q Sn Hx I L U. pose proof (session_sane n ops) as [Sw _]. rewrite Sn in Sw. destruct (find_sane _ _ _ Sw Hx) as [En F].
  destruct F as [K [_ F]].
  assert (T : exists r, spec_of (icls x) (iid x) "clock_freqs" p = Some r /\ (pvals r = num 0 tera true \/ pvals r = from_zero true)).
  { destruct (icls x), (iid x); try discriminate K; cbn [clocks_spec In] in I;
      repeat match goal with H : _ \/ _ |- _ => destruct H | H : _ = (_, _) |- _ => injection H as <- <- | H : False |- _ => destruct H end;
      (eexists; split; [reflexivity | cbn; auto]). }
  destruct T as [r [Er Vr]]. unfold set_param. rewrite Er.
  assert (M : In "clock_freqs" (map fst (isubs x))).
  { rewrite <- (f2_fst _ _ F). unfold spec_of in Er. destruct (lookup "clock_freqs" (schema (icls x) (iid x))) as [u|] eqn:Lu; [|discriminate Er]. apply lookup_in in Lu. apply in_map_iff. now exists ("clock_freqs", u). }
  destruct (lookup "clock_freqs" (isubs x)) as [y|] eqn:Ly.
  - assert (V : validate (pvals r) (VNum q) = Ok tt).
    { assert (Qle_bool 0 q = true) by now apply Qle_bool_iff. assert (Qle_bool q tera = true) by now apply Qle_bool_iff. destruct Vr as [-> | ->]; unfold num, from_zero, validate, number, within; rewrite H, ?H0; reflexivity. }
    rewrite V. cbn [bind]. eexists. split; [reflexivity|]. unfold value. cbn [isubs]. rewrite lookup_insert, String.eqb_refl. cbn [direct]. now rewrite lookup_insert, String.eqb_refl.
  - exfalso. apply lookup_none in Ly. auto.
Qed.
