(** C62: the measurement of a device. *)
From Coq Require Import Ascii.
From Verif Require Import Base DevModel DevSpec DevProps DevProps2 DevProps3 DevThms DevThms2 DevConf DevConfSpec DevConfProps DevConfThms DevConfThms2 DevConfThms4 TimingModel TimingSpec FacModel FacSpec FacProps FacThms FacThms2 FacThms3 FacThms4.
Local Open Scope string_scope.

Definition with_kw (c : opcfg) (kw : dict) : opcfg := {| factory := factory c; factory_kwargs := kw; gate_info := gate_info c |}.
Lemma no_delay_kw : forall gate over c d m, lookup "acq_delay" (factory_kwargs c) = Some d -> minus d = Ok m ->
  device_repr true gate over c = device_repr false gate over (with_kw c (insert "next_operation_delay" m (factory_kwargs c))).
Proof. intros gate over c d m L M. unfold device_repr. rewrite L, M. reflexivity. Qed.
Definition measures (c : class) : option string :=
  match c with BasicTransmonElement => Some "dispersive_measurement_transmon" | BasicSpinElement | ChargeSensor => Some "dispersive_measurement_spin" | _ => None end.
Definition checks (t : template) (f : string) (sg : signature) (st : list (string * string * string * string)) : bool :=
  let keys := (map fst (tkws t) ++ measure_gate_info)%list in
  negb (f =? "non_implemented_pulse") && nodupb (map fst sg) && forallb (fun k => mem k (map fst sg)) ("next_operation_delay" :: keys) &&
  forallb (fun kd : string * option cval => match snd kd with None => mem (fst kd) keys | Some _ => true end) sg && negb (mem "next_operation_delay" keys) &&
  forallb (fun r : string * string * string * string => let '(op, k, s, p) := r in negb (op =? "measure") || negb (mem k ("next_operation_delay" :: measure_gate_info))) st.
Lemma eval_op_kw : forall w x t c k s, eval_op w x t = Ok c -> NoDup (map fst (tkws t)) -> In (k, s) (tkws t) -> exists v, eval w x s = Ok v /\ lookup k (factory_kwargs c) = Some v.
Proof.
  intros w x t c k s H N I. unfold eval_op in H. inv H. injection H as <-. cbn. apply mapM_f2 in E. destruct (f2_in_l _ _ _ _ _ _ E I) as [[k' v] [I' E']]. cbn [fst snd] in E'. inv E'. injection E' as <- <-.
  exists a0. split; [exact E0|]. apply in_lookup; [|exact I'].
  assert (M : map fst a = map fst (tkws t)). { clear - E. induction E as [|[k1 s1] [k2 v2] l m Q F IH]; cbn; [easy|]. cbn in Q. inv Q. injection Q as -> _. now rewrite IH. } now rewrite M.
Qed.
Lemma measure_case : forall w x t c f sg (body : dict -> result dop) nd gate over va q, eval_op w x t = Ok c -> tfactory t = Some f -> tgate t = measure_gate_info -> lookup f factories = Some (sg, body) ->
  checks t f sg (settings_of (icls x)) = true -> nodupb (map fst (tkws t)) = true -> lookup "next_operation_delay" sg = Some (Some zero) -> In ("acq_delay", Pm "measure" "acq_delay") (tkws t) ->
  (forall k, In k measure_gate_info -> lookup k gate <> None) -> value x "measure" "acq_delay" = Some va -> number va = Some q ->
  exists a, device_repr nd gate over c = body a /\
    (forall k v, In k measure_gate_info -> lookup k gate = Some v -> lookup k a = Some (overridden over k v)) /\
    (forall k s, In (k, s) (tkws t) -> exists v, eval w x s = Ok v /\ (~ In k measure_gate_info -> lookup k a = Some (overridden over k v))) /\
    (if nd then lookup "next_operation_delay" a = Some (overridden over "next_operation_delay" (numq (- q))) else lookup "next_operation_delay" a = Some zero).
Proof.
  intros w x t c f sg body nd gate over va q Ec Ft Gt Lf C N D0 Id G Va Nq. destruct (eval_op_parts _ _ _ _ Ec) as [Fc [Gc Kc]]. apply nodupb_ok in N.
  unfold checks in C. cbv zeta in C. repeat (apply andb_prop in C; destruct C as [C ?]).
  match goal with H : nodupb (map fst sg) = true |- _ => apply nodupb_ok in H; rename H into N1 end.
  match goal with H : negb (mem "next_operation_delay" _) = true |- _ => apply negb_true_iff, mem_not in H; rename H into N2 end.
  match goal with H : forallb _ sg = true |- _ => rewrite forallb_forall in H; rename H into R end.
  match goal with H : forallb _ (_ :: _) = true |- _ => rewrite forallb_forall in H; rename H into K end.
  apply negb_true_iff, String.eqb_neq in C. rewrite Ft in Fc. rewrite Gt in Gc.
  destruct (eval_op_kw _ _ _ _ _ _ Ec N Id) as [dv [Ed Ld]]. assert (dv = CV va) as ->.
  { cbn [eval] in Ed. unfold get_param in Ed. unfold value in Va. destruct (lookup "measure" (isubs x)) as [y|]; [|discriminate Va]. rewrite Va in Ed. cbn in Ed. congruence. }
  assert (Mi : minus (CV va) = Ok (numq (- q))) by (unfold minus; rewrite (fl_number _ _ Nq); reflexivity).
  set (c' := if nd then with_kw c (insert "next_operation_delay" (numq (- q)) (factory_kwargs c)) else c).
  assert (E' : device_repr nd gate over c = device_repr false gate over c') by (destruct nd; [apply (no_delay_kw _ _ _ _ _ Ld Mi) | reflexivity]).
  assert (Fc' : factory c' = Some f) by (unfold c'; destruct nd; exact Fc). assert (Gc' : gate_info c' = measure_gate_info) by (unfold c'; destruct nd; exact Gc).
  assert (Lc' : forall k, lookup k (factory_kwargs c') = if nd && (k =? "next_operation_delay") then Some (numq (- q)) else lookup k (factory_kwargs c)).
  { intros k. unfold c'. destruct nd; cbn; [|easy]. rewrite lookup_insert. now destruct (k =? _). }
  destruct (device_repr_calls c' f sg body gate over Fc' C Lf N1) as [a [Ea Pa]].
  - intros k Hk. apply G. now rewrite <- Gc'.
  - intros k Hk. apply mem_in, K. rewrite Gc' in Hk. destruct (string_dec k "next_operation_delay") as [->|Nk]; [now left | right; apply in_or_app]. destruct Hk as [Hk|Hk]; [left | now right].
    apply lookup_key in Hk. rewrite Lc' in Hk. apply String.eqb_neq in Nk. rewrite Nk, Bool.andb_false_r in Hk. apply lookup_key in Hk. now rewrite <- Kc.
  - intros k Hk. apply lookup_in in Hk. specialize (R _ Hk). cbn [fst snd] in R. apply mem_in, in_app_or in R. rewrite Gc'. destruct R as [R|R]; [left | now right].
    rewrite <- Kc in R. apply lookup_key. rewrite Lc'. apply lookup_key in R. destruct (nd && _); [discriminate | exact R].
  - exists a. split; [congruence|].
    assert (SG : forall k, In k ("next_operation_delay" :: map fst (tkws t) ++ measure_gate_info)%list -> exists d, lookup k sg = Some d).
    { intros k Hk. assert (I : In k (map fst sg)) by (apply mem_in, K, Hk). apply lookup_key in I. destruct (lookup k sg); [eauto | easy]. }
    split; [|split].
    + intros k v Ik Lk. destruct (SG k ltac:(right; apply in_or_app; now right)) as [d0 Hd]. rewrite (Pa _ _ Hd), Gc'. apply mem_in in Ik. now rewrite Ik, Lk.
    + intros k s Is. destruct (eval_op_kw _ _ _ _ _ _ Ec N Is) as [v [Ev Lv]]. exists v. split; [exact Ev|]. intros Nk.
      assert (Ik : In k (map fst (tkws t))) by (apply in_map_iff; now exists (k, s)). destruct (SG k ltac:(right; apply in_or_app; now left)) as [d0 Hd]. rewrite (Pa _ _ Hd), Gc', Lc'.
      apply mem_not in Nk. rewrite Nk. destruct (k =? "next_operation_delay") eqn:Ek; [apply String.eqb_eq in Ek; subst; exfalso; apply N2, in_or_app; now left|]. now rewrite Bool.andb_false_r, Lv.
    + assert (N3 : mem "next_operation_delay" measure_gate_info = false) by reflexivity. rewrite (Pa _ _ D0), Gc', Lc', N3. change ("next_operation_delay" =? "next_operation_delay") with true. rewrite Bool.andb_true_r. destruct nd; [reflexivity|].
      assert (L0 : lookup "next_operation_delay" (factory_kwargs c) = None) by (apply lookup_none; rewrite Kc; intros I; apply N2, in_or_app; now left). now rewrite L0.
Qed.
(** Measure on a transmon, a spin or a charge sensor is a dispersive measurement with the settings of the element, of the gate, and the overrides of the gate;
    with apply_acquisition_delay=False the next operation is moved by minus the acq_delay of the element. *)
Theorem C62_measure : forall cfg m x f nd gate over va q, configured cfg m x -> measures (icls x) = Some f -> (forall k, In k measure_gate_info -> lookup k gate <> None) ->
  value x "measure" "acq_delay" = Some va -> number va = Some q ->
  exists a, gate_op cfg m "measure" nd gate over = dispersive a /\
    (forall k v, In k measure_gate_info -> lookup k gate = Some v -> at_ a k = overridden over k v) /\
    (forall k s p v, In ("measure", k, s, p) (settings_of (icls x)) -> value x s p = Some v -> at_ a k = overridden over k (CV v)) /\
    at_ a "clock" = overridden over "clock" (str (m ++ ".ro")) /\ at_ a "acq_protocol_default" = overridden over "acq_protocol_default" (str "SSBIntegrationComplex") /\
    at_ a "freq" = overridden over "freq" none /\
    (exists r v, reference_of x "measure" = Some r /\ ref_get r = Ok v /\ at_ a "reference_magnitude" = overridden over "reference_magnitude" (CR v)) /\
    (if nd then at_ a "next_operation_delay" = overridden over "next_operation_delay" (numq (- q)) else at_ a "next_operation_delay" = zero) /\
    (icls x = BasicTransmonElement -> at_ a "gate_pulse_amp" = none /\ at_ a "gate_port" = none).
Proof.
  intros cfg m x f nd gate over va q [n [ops [w [d [Sn [H [Hm Hx]]]]]]] Mx G Va Nq. destruct (entry _ _ _ _ _ _ _ Sn H Hm Hx) as [o [Ho Lo]].
  assert (Nm : iname (iid x) = m) by (pose proof (session_sane n ops) as [Sw _]; rewrite Sn in Sw; now destruct (find_sane _ _ _ Sw Hx)).
  assert (Case : forall t sg body, In ("measure", t) (templates (icls x)) -> tfactory t = Some f -> tgate t = measure_gate_info -> lookup f factories = Some (sg, body) -> checks t f sg (settings_of (icls x)) = true ->
    nodupb (map fst (tkws t)) = true -> lookup "next_operation_delay" sg = Some (Some zero) -> In ("acq_delay", Pm "measure" "acq_delay") (tkws t) ->
    In ("clock", Clk "ro") (tkws t) -> In ("acq_protocol_default", Const (VStr "SSBIntegrationComplex")) (tkws t) -> In ("freq", Const VNone) (tkws t) -> In ("reference_magnitude", Ref "measure") (tkws t) ->
    (forall k s p, In ("measure", k, s, p) (settings_of (icls x)) -> In (k, Pm s p) (tkws t) /\ ~ In k measure_gate_info) ->
    exists a, gate_op cfg m "measure" nd gate over = body a /\ (forall k v, In k measure_gate_info -> lookup k gate = Some v -> lookup k a = Some (overridden over k v)) /\
    (forall k s p v, In ("measure", k, s, p) (settings_of (icls x)) -> value x s p = Some v -> lookup k a = Some (overridden over k (CV v))) /\
    lookup "clock" a = Some (overridden over "clock" (str (m ++ ".ro"))) /\ lookup "acq_protocol_default" a = Some (overridden over "acq_protocol_default" (str "SSBIntegrationComplex")) /\
    lookup "freq" a = Some (overridden over "freq" none) /\
    (exists r v, reference_of x "measure" = Some r /\ ref_get r = Ok v /\ lookup "reference_magnitude" a = Some (overridden over "reference_magnitude" (CR v))) /\
    (if nd then lookup "next_operation_delay" a = Some (overridden over "next_operation_delay" (numq (- q))) else lookup "next_operation_delay" a = Some zero)).
  { intros t sg body It Ft Gt Lf C N D0 Id I1 I2 I3 I4 Is. destruct (operations_entry _ _ _ _ _ Ho It) as [c [Lc Ec]].
    destruct (measure_case _ _ _ _ _ _ _ nd gate over va q Ec Ft Gt Lf C N D0 Id G Va Nq) as [a [Ea [P1 [P2 P3]]]]. exists a. split; [unfold gate_op; rewrite Lo, Lc; exact Ea|]. split; [exact P1|].
    split; [|split; [|split; [|split; [|split]]]].
    - intros k s p v I V. destruct (Is _ _ _ I) as [J Nk]. destruct (P2 _ _ J) as [v' [Ev L]]. rewrite (L Nk). cbn [eval] in Ev. unfold get_param in Ev. unfold value in V.
      destruct (lookup s (isubs x)) as [y|]; [|discriminate V]. rewrite V in Ev. cbn in Ev. now injection Ev as <-.
    - destruct (P2 _ _ I1) as [v [Ev L]]. rewrite (L ltac:(cbn; intuition discriminate)). cbn [eval] in Ev. injection Ev as <-. now rewrite Nm.
    - destruct (P2 _ _ I2) as [v [Ev L]]. rewrite (L ltac:(cbn; intuition discriminate)). cbn [eval] in Ev. now injection Ev as <-.
    - destruct (P2 _ _ I3) as [v [Ev L]]. rewrite (L ltac:(cbn; intuition discriminate)). cbn [eval] in Ev. now injection Ev as <-.
    - destruct (P2 _ _ I4) as [v [Ev L]]. rewrite (L ltac:(cbn; intuition discriminate)). cbn [eval] in Ev. unfold reference_of. destruct (lookup "measure" (isubs x)) as [y|]; [|discriminate Ev].
      destruct (refm y) as [r|]; [|discriminate Ev]. inv Ev. injection Ev as <-. exists r, a0. auto.
    - exact P3. }
  assert (Lst : forall t, forallb (fun r : string * string * string * string => let '(op, k, s, p) := r in negb (op =? "measure") ||
      existsb (fun ks => (fst ks =? k) && match snd ks with Pm s' p' => (s' =? s) && (p' =? p) | _ => false end) (tkws t) && negb (mem k measure_gate_info)) (settings_of (icls x)) = true ->
    forall k s p, In ("measure", k, s, p) (settings_of (icls x)) -> In (k, Pm s p) (tkws t) /\ ~ In k measure_gate_info).
  { intros t A k s p I. rewrite forallb_forall in A. specialize (A _ I). cbv beta iota in A. change ("measure" =? "measure") with true in A. cbn [negb orb] in A. apply andb_prop in A. destruct A as [A B]. apply negb_true_iff, mem_not in B. split; [|exact B].
    apply existsb_exists in A. destruct A as [[k' s'] [J A]]. cbn [fst snd] in A. apply andb_prop in A. destruct A as [A1 A2]. apply String.eqb_eq in A1. subst k'. destruct s'; try discriminate A2.
    apply andb_prop in A2. destruct A2 as [A2 A3]. apply String.eqb_eq in A2, A3. now subst. }
  destruct (icls x) eqn:X; try discriminate Mx; injection Mx as <-.
  - edestruct Case as [a [E [P1 [P2 [P3 [P4 [P5 [P6 P7]]]]]]]]; [cbn [templates]; right; right; right; right; right; left; reflexivity | reflexivity | reflexivity | reflexivity | vm_compute; reflexivity | vm_compute; reflexivity | reflexivity |
      find_in | find_in | find_in | find_in | find_in | apply Lst; vm_compute; reflexivity|].
    exists ([("gate_pulse_amp", none); ("gate_port", none)] ++ a)%list. split; [exact E|].
    assert (At : forall k v, lookup k a = Some v -> k <> "gate_pulse_amp" -> k <> "gate_port" -> at_ ([("gate_pulse_amp", none); ("gate_port", none)] ++ a)%list k = v).
    { intros k v L N1 N2. unfold at_. cbn [app lookup]. apply String.eqb_neq in N1, N2. now rewrite N1, N2, L. }
    split; [|split; [|split; [|split; [|split; [|split; [|split]]]]]].
    + intros k v I L. apply At; [now apply P1 | intros -> | intros ->]; cbn in I; intuition discriminate.
    + intros k s p v I L. apply At; [eapply P2; eauto | intros -> | intros ->]; cbn in I; intuition discriminate.
    + now apply At.
    + now apply At.
    + now apply At.
    + destruct P6 as [r [v [R1 [R2 R3]]]]. exists r, v. repeat split; auto. now apply At.
    + destruct nd; now apply At.
    + intros _. split; reflexivity.
  - edestruct Case as [a [E [P1 [P2 [P3 [P4 [P5 [P6 P7]]]]]]]]; [cbn [templates]; right; right; right; right; left; reflexivity | reflexivity | reflexivity | reflexivity | vm_compute; reflexivity | vm_compute; reflexivity | reflexivity |
      find_in | find_in | find_in | find_in | find_in | apply Lst; vm_compute; reflexivity|].
    exists a. split; [exact E|]. assert (At : forall k v, lookup k a = Some v -> at_ a k = v) by (intros k v L; unfold at_; now rewrite L).
    split; [eauto|]. split; [eauto|]. split; [eauto|]. split; [eauto|]. split; [eauto|]. split; [destruct P6 as [r [v [R1 [R2 R3]]]]; eauto 8|]. split; [destruct nd; eauto | discriminate].
  - edestruct Case as [a [E [P1 [P2 [P3 [P4 [P5 [P6 P7]]]]]]]]; [cbn [templates]; left; reflexivity | reflexivity | reflexivity | reflexivity | vm_compute; reflexivity | vm_compute; reflexivity | reflexivity |
      find_in | find_in | find_in | find_in | find_in | apply Lst; vm_compute; reflexivity|].
    exists a. split; [exact E|]. assert (At : forall k v, lookup k a = Some v -> at_ a k = v) by (intros k v L; unfold at_; now rewrite L).
    split; [eauto|]. split; [eauto|]. split; [eauto|]. split; [eauto|]. split; [eauto|]. split; [destruct P6 as [r [v [R1 [R2 R3]]]]; eauto 8|]. split; [destruct nd; eauto | discriminate].
Qed.
