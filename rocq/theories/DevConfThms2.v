(** C59: clocks, edges, one element at a time, and after loading. *)
From Coq Require Import Ascii.
From Verif Require Import Base DevModel DevSpec DevProps DevProps2 DevProps3 DevThms DevThms2 DevConf DevConfSpec DevConfProps DevConfThms.
Local Open Scope string_scope.

Lemma operations_kw_inv : forall w x o name c k v, operations w x = Ok o -> lookup name o = Some c -> lookup k (factory_kwargs c) = Some v ->
  exists t s, In (name, t) (templates (icls x)) /\ In (k, s) (tkws t) /\ eval w x s = Ok v.
Proof.
  intros w x o name c k v H Ln Lk. apply lookup_in in Ln. apply lookup_in in Lk. apply mapM_f2 in H. destruct (f2_in_r _ _ _ _ _ _ H Ln) as [[n' t] [It Et]]. cbn [fst snd] in Et.
  inv Et. injection Et as -> ->. unfold eval_op in E. inv E. injection E as <-. cbn in Lk. apply mapM_f2 in E0. destruct (f2_in_r _ _ _ _ _ _ E0 Lk) as [[k' s] [Is Es]]. cbn [fst snd] in Es.
  inv Es. injection Es as -> ->. eauto.
Qed.

(** Every clock that the configuration of an element (other than an NV centre) uses has a frequency in the configuration, or is the baseband clock. *)
Theorem C59_clocks_are_defined : forall n ops w d cfg m x operation keyword v c, session n ops = (w, d) -> device_config w d = Ok cfg ->
  In m (elements d) -> find_instrument w m = Ok x -> icls x <> BasicElectronicNVElement ->
  clock_keyword keyword -> setting_in (celements cfg) m operation keyword = Some v -> In c (strings v) ->
  c = "cl0.baseband" \/ exists f, lookup c (cclocks cfg) = Some f.
Proof.
  intros n ops w d cfg m x op kw v c Sn H Hm Hx Hc Hk Hs Hin. pose proof (C59_config n ops w d cfg Sn H) as [_ [_ [_ [He [_ [Hcl _]]]]]].
  destruct (He m Hm) as [x' [o [A [B C]]]]. assert (x' = x) by congruence. subst x'.
  pose proof (session_sane n ops) as [Sw _]. rewrite Sn in Sw. cbn [fst] in Sw. destruct (find_sane _ _ _ Sw Hx) as [Em Fx].
  unfold setting_in in Hs. rewrite C in Hs. destruct (lookup op o) as [oc|] eqn:Lo; [|discriminate Hs].
  destruct (operations_kw_inv _ _ _ _ _ _ _ B Lo Hs) as [t [s [It [Is Es]]]].
  assert (E : (exists sfx p, s = Clk sfx /\ In (sfx, p) (clocks_spec (icls x))) \/ s = Const (VStr "cl0.baseband")).
  { assert (K : is_edge (icls x) = false).
    { rewrite <- kind_name by easy. rewrite <- Em. pose proof (session_sane n ops) as [_ [_ [_ [U _]]]]. rewrite Sn in U. auto. }
    assert (F : Forall (fun nt => Forall (fun ks => clock_keyword (fst ks) -> (exists sfx p, snd ks = Clk sfx /\ In (sfx, p) (clocks_spec (icls x))) \/ snd ks = Const (VStr "cl0.baseband")) (tkws (snd nt)))
                       (templates (icls x))).
    { clear - Hc K. destruct (icls x); try discriminate K; try congruence; cbn [templates];
        repeat (apply Forall_cons || apply Forall_nil); cbn [snd tkws op1 spin_measure_template compensation];
        repeat (apply Forall_cons || apply Forall_nil); cbn [fst snd]; intros Q; unfold clock_keyword in Q; cbn [In] in Q;
        first [ exfalso; intuition discriminate | right; reflexivity | left; eexists; eexists; split; [reflexivity | cbn; repeat (first [left; reflexivity | right])] ]. }
    rewrite Forall_forall in F. specialize (F _ It). cbn in F. rewrite Forall_forall in F. exact (F _ Is Hk). }
  destruct E as [[sfx [p [-> Hp]]] | ->]; cbn in Es; injection Es as <-; cbn in Hin; destruct Hin as [<-|[]]; [|now left].
  right. destruct (Hcl m x sfx p Hm Hx Hp) as [f [_ Hf]]. exists f. now rewrite <- Em.
Qed.

(** For an NV centre that fails: the clock of its pulse compensation has no frequency in any configuration. *)
Theorem C59_nv_compensation_clock_is_undefined : forall n ops w d cfg m x, session n ops = (w, d) -> device_config w d = Ok cfg ->
  In m (elements d) -> find_instrument w m = Ok x -> icls x = BasicElectronicNVElement ->
  setting_in (celements cfg) m "pulse_compensation" "clock" = Some (CV (VStr (m ++ ".f_larmor"))) /\ lookup (m ++ ".f_larmor") (cclocks cfg) = None.
Proof.
  intros n ops w d cfg m x Sn H Hm Hx Hc. pose proof (C59_config n ops w d cfg Sn H) as [_ [_ [_ [He [_ [_ Hcl]]]]]].
  destruct (He m Hm) as [x' [o [A [B C]]]]. assert (x' = x) by congruence. subst x'.
  pose proof (session_sane n ops) as [Sw _]. rewrite Sn in Sw. cbn [fst] in Sw. destruct (find_sane _ _ _ Sw Hx) as [Em Fx]. split.
  - destruct (operations_kw w x o "pulse_compensation" (compensation (Pm "ports" "microwave") (Clk "f_larmor")) "clock" (Clk "f_larmor") B) as [c [v [Lc [Ev Lv]]]].
    + rewrite Hc. cbn. tauto.
    + cbn. tauto.
    + unfold setting_in. rewrite C, Lc, Lv. cbn in Ev. injection Ev as <-. now rewrite Em.
  - destruct (lookup (m ++ ".f_larmor") (cclocks cfg)) eqn:L; [|easy]. exfalso. destruct (Hcl _ _ L) as [m' [x' [sfx [p [Hm' [Hx' [Hs [E _]]]]]]]].
    change (".f_larmor") with ("." ++ "f_larmor") in E. apply dot_split in E; [|reflexivity|apply (suffix_no_dot (icls x') sfx p); clear - Hs; destruct (icls x'); exact Hs].
    destruct E as [<- E]. assert (x' = x) by congruence. subst x'. rewrite Hc in Hs. subst sfx. cbn in Hs. intuition discriminate.
Qed.

(** The CZ entry of an edge: the phases are its two phase corrections, each with the clock of its own element, and the pulse of a
    CompositeSquareEdge goes to the flux port of the parent. *)
Theorem C59_edges : forall n ops w d cfg g x p c, session n ops = (w, d) -> device_config w d = Ok cfg ->
  In g (edges d) -> find_instrument w g = Ok x -> connects x p c ->
  let clock := if match icls x with CompositeSquareEdge => true | _ => false end then "01" else "f_larmor" in
  exists xp xc vp vc, find_instrument w p = Ok xp /\ find_instrument w c = Ok xc /\ is_edge (icls xp) = false /\ is_edge (icls xc) = false /\
    value x "cz" (p ++ "_phase_correction") = Some vp /\ value x "cz" (c ++ "_phase_correction") = Some vc /\
    setting_in (cedges cfg) g "CZ" "virt_z_parent_qubit_phase" = Some (CV vp) /\ setting_in (cedges cfg) g "CZ" "virt_z_child_qubit_phase" = Some (CV vc) /\
    setting_in (cedges cfg) g "CZ" "virt_z_parent_qubit_clock" = Some (CV (VStr (p ++ "." ++ clock))) /\
    setting_in (cedges cfg) g "CZ" "virt_z_child_qubit_clock" = Some (CV (VStr (c ++ "." ++ clock))) /\
    setting_in (cedges cfg) g "CZ" "square_clock" = Some (CV (VStr "cl0.baseband")) /\
    (icls x = CompositeSquareEdge -> exists port, value xp "ports" "flux" = Some port /\ setting_in (cedges cfg) g "CZ" "square_port" = Some (CV port)).
Proof.
  intros n ops w d cfg g x p c Sn H Hg Hx Hpc clock. pose proof (C59_config n ops w d cfg Sn H) as [_ [_ [_ [_ [Hgs _]]]]].
  destruct (Hgs g Hg) as [x' [o [A [B C]]]]. assert (x' = x) by congruence. subst x'.
  pose proof (session_sane n ops) as [Sw _]. rewrite Sn in Sw. cbn [fst] in Sw. destruct (find_sane _ _ _ Sw Hx) as [Em [K _]]. unfold connects in Hpc. rewrite Hpc in K. cbn in K.
  assert (T : exists t, In ("CZ", t) (templates (icls x)) /\ In ("virt_z_parent_qubit_phase", PhaseParent) (tkws t) /\ In ("virt_z_child_qubit_phase", PhaseChild) (tkws t) /\
     In ("virt_z_parent_qubit_clock", ParentClk clock) (tkws t) /\ In ("virt_z_child_qubit_clock", ChildClk clock) (tkws t) /\ In ("square_clock", Const (VStr "cl0.baseband")) (tkws t) /\
     (icls x = CompositeSquareEdge -> In ("square_port", ParentPm "ports" "flux") (tkws t))).
  { subst clock. destruct (icls x); try discriminate K; cbn [templates]; eexists; (split; [cbn [In]; repeat (first [left; reflexivity | right])|]); cbn; intuition discriminate. }
  destruct T as [t [It [T1 [T2 [T3 [T4 [T5 T6]]]]]]].
  destruct (operations_kw _ _ _ _ _ _ _ B It T1) as [oc [v1 [Lc [E1 L1]]]].
  destruct (operations_kw _ _ _ _ _ _ _ B It T2) as [oc2 [v2 [Lc2 [E2 L2]]]]. assert (oc2 = oc) by congruence. subst oc2.
  destruct (operations_kw _ _ _ _ _ _ _ B It T3) as [oc3 [v3 [Lc3 [E3 L3]]]]. assert (oc3 = oc) by congruence. subst oc3.
  destruct (operations_kw _ _ _ _ _ _ _ B It T4) as [oc4 [v4 [Lc4 [E4 L4]]]]. assert (oc4 = oc) by congruence. subst oc4.
  destruct (operations_kw _ _ _ _ _ _ _ B It T5) as [oc5 [v5 [Lc5 [E5 L5]]]]. assert (oc5 = oc) by congruence. subst oc5.
  cbn [eval] in E1, E2, E3, E4, E5. rewrite Hpc in E1, E2, E3, E4. cbn [parent_of child_of] in E1, E2, E3, E4.
  inv E1. injection E1 as <-. inv E2. injection E2 as <-. inv E3. injection E3 as <-. inv E4. injection E4 as <-. injection E5 as <-.
  assert (EP : forall q y, endpoint w q = Ok y -> find_instrument w q = Ok y /\ is_edge (icls y) = false /\ q = iname (iid y)).
  { intros q y Q. unfold endpoint in Q. inv Q. destruct (is_element_instr a3) eqn:Ke; [|discriminate Q]. injection Q as <-. repeat split; auto; [now apply negb_true_iff in Ke|].
    now destruct (find_sane _ _ _ Sw E3). }
  destruct (EP _ _ E1) as [P1 [P2 P3]]. destruct (EP _ _ E2) as [Q1 [Q2 Q3]].
  exists a1, a2, a, a0. unfold setting_in. rewrite C, Lc. rewrite L1, L2, L3, L4, L5.
  do 4 (split; [assumption|]). do 2 (split; [now apply get_param_value|]). do 2 (split; [reflexivity|]).
  split; [now rewrite <- P3|]. split; [now rewrite <- Q3|]. split; [reflexivity|]. intros Hc. specialize (T6 Hc).
  destruct (operations_kw _ _ _ _ _ _ _ B It T6) as [oc6 [v6 [Lc6 [E6 L6]]]]. assert (oc6 = oc) by congruence. subst oc6. cbn [eval] in E6. rewrite Hpc in E6. cbn [parent_of] in E6.
  inv E6. inv E6. injection E6 as <-. assert (a3 = a1) by congruence. subst a3. exists a4. split; [now apply get_param_value | exact L6].
Qed.
