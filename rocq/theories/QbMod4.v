(** C51: the module parameters after [prepare]. *)
From Coq Require Import Ascii.
From Verif Require Import Base PathModel JsonModel ZiIds LibThms7 QbModel QbSpec QbProps QbSeq QbSeq2 QbPrep QbThms QbMod QbMod2 QbMod3.
Local Open Scope string_scope.
Local Open Scope list_scope.

Definition dtab (k : kind) (st : mset) : otab :=
  match k with
  | QCM => flat_map (fun '(o, dc) => dist_tab_qcm o dc) (enum_from 0 (firstn (n_out QCM) (dists st)))
  | QRM => flat_map (fun '(o, dc) => dist_tab_qrm o dc) (enum_from 0 (firstn (n_out QRM) (dists st)))
  | _ => []
  end.
Definition ftab (k : kind) (st : mset) : otab := match k with QCM => firstn 4 (gtab k st) | QRM => firstn 4 (gtab k st) | _ => gtab k st end.
Lemma gtab_split k st : gtab k st = ftab k st ++ dtab k st.
Proof. destruct k; cbn [ftab dtab]; rewrite ?app_nil_r; reflexivity. Qed.
Definition DistWants k st q v : Prop := exists o dc, (o < n_out k)%nat /\ nth_error (dists st) o = Some dc /\ match k with QCM => In (q, Some v) (dist_tab_qcm o dc) | QRM => In (q, Some v) (dist_tab_qrm o dc) | _ => False end.
Lemma dtab_in k st q v : In (q, Some v) (dtab k st) <-> DistWants k st q v.
Proof. unfold DistWants, dtab. destruct k; try (split; [intros []|intros (o & dc & _ & _ & [])]); apply in_dists. Qed.
Lemma dist_wants k data p st q v : p_settings p = Some st -> DistWants k st q v -> ModWants k data p q v.
Proof. intros hs (o & dc & h1 & h2 & h3). destruct k; try contradiction.
  - apply dist_qcm_in in h3. destruct h3 as [(i & hi & h)|[(-> & cs & h & ->)|[[-> ->]|[-> ->]]]].
    + cbv zeta in h. destruct h as [(-> & tau & rest & h & ->)|[(-> & tau & amp & rest & h & ->)|[[-> ->]|[-> ->]]]].
      * eapply m_exp_tau; eauto.
      * eapply m_exp_amp; eauto.
      * eapply m_exp; eauto. left. auto.
      * eapply m_exp_marker; eauto.
    + eapply m_fir_coeffs; eauto.
    + eapply m_fir; eauto. left. auto.
    + eapply m_fir_marker; eauto.
  - apply dist_qrm_in in h3. destruct h3 as [(i & hi & -> & ->)|[-> ->]]; [eapply m_exp|eapply m_fir]; eauto; right; auto. Qed.
Lemma in_mtab k data p q x : k <> QTM -> In (q, x) (mtab k data p) <->
  (exists st, p_settings p = Some st /\ In (q, x) (ftab k st ++ lotab k st)) \/ (exists st, p_settings p = Some st /\ In (q, x) (dtab k st)) \/ (readout k /\ In (q, x) (stab k)) \/ (readout k /\ In (q, x) (seltab k data p)).
Proof. intros hk. assert (R1 : readout QRM) by (unfold readout; auto). assert (R2 : readout QRM_RF) by (unfold readout; auto). assert (R3 : readout QRC) by (unfold readout; auto).
  assert (N1 : ~ readout QCM) by (unfold readout; intuition congruence). assert (N2 : ~ readout QCM_RF) by (unfold readout; intuition congruence).
  unfold mtab, with_st. destruct (p_settings p) as [st|].
  - assert (E : forall X : mset -> Prop, (exists st', Some st = Some st' /\ X st') <-> X st) by (intros X; split; [intros (s' & e & h); injection e as <-; auto|eauto]).
    rewrite !E, gtab_split. destruct k; try congruence; rewrite ?in_app_iff; cbn [lotab dtab In]; tauto.
  - assert (E : forall X : mset -> Prop, (exists st', None = Some st' /\ X st') <-> False) by (intros X; split; [intros (s' & e & h); discriminate|tauto]).
    rewrite !E. destruct k; try congruence; rewrite ?in_app_iff; cbn [In]; tauto. Qed.
Lemma mod_table k data p q v : k <> QTM -> ~ qrc_att k q -> (readout k -> forall hwm, p_mapping p = Some hwm -> exists r, scope_seq k data hwm = Ok r) ->
  In (q, Some v) (mtab k data p) <-> ModWants k data p q v.
Proof. intros hk na ok. rewrite in_mtab by auto. split.
  - intros [(st & hs & h)|[(st & hs & h)|[[hr h]|[hr h]]]].
    + apply field_in in h; auto. destruct h as (f & h1 & h2). eapply m_field; eauto.
    + apply dtab_in in h. eapply dist_wants; eauto.
    + apply stab_in in h. destruct h as (path & lt & [[-> ->]|[-> ->]]); [now apply m_trigger_mode|now apply m_avg].
    + destruct h as [h|[]]. injection h as <- h. apply sel_in in h; [|auto]. destruct h as (hwm & i & e & hs & ->). eapply m_select; eauto.
  - intros h. destruct h.
    + left. exists st. split; [auto|]. apply field_in; eauto.
    + right. left. exists st. split; [auto|]. apply dtab_in. exists o, dc. split; [auto|]. split; [auto|]. destruct H0 as [->| ->]; [apply dist_qcm_in; left; exists i; split; [auto|]; cbv zeta; rewrite H4; auto|apply dist_qrm_in; left; exists i; rewrite H4; auto].
    + right. left. exists st. split; [auto|]. apply dtab_in. exists o, dc. split; [auto|]. split; [auto|]. subst k. apply dist_qcm_in. left. exists i. split; [auto|]. cbv zeta. rewrite H4. auto.
    + right. left. exists st. split; [auto|]. apply dtab_in. exists o, dc. split; [auto|]. split; [auto|]. subst k. apply dist_qcm_in. left. exists i. split; [auto|]. cbv zeta. rewrite H4. left. eauto.
    + right. left. exists st. split; [auto|]. apply dtab_in. exists o, dc. split; [auto|]. split; [auto|]. subst k. apply dist_qcm_in. left. exists i. split; [auto|]. cbv zeta. rewrite H4. right. left. split; [auto|]. eauto.
    + right. left. exists st. split; [auto|]. apply dtab_in. exists o, dc. split; [auto|]. split; [auto|]. destruct H0 as [->| ->]; [apply dist_qcm_in; auto|apply dist_qrm_in; auto].
    + right. left. exists st. split; [auto|]. apply dtab_in. exists o, dc. split; [auto|]. split; [auto|]. subst k. apply dist_qcm_in. auto.
    + right. left. exists st. split; [auto|]. apply dtab_in. exists o, dc. split; [auto|]. split; [auto|]. subst k. apply dist_qcm_in. right. left. split; [auto|]. eauto.
    + right. right. left. split; [auto|]. apply stab_in. eauto.
    + right. right. left. split; [auto|]. apply stab_in. eauto.
    + right. right. right. split; [auto|]. unfold seltab. left. f_equal. apply sel_in; [auto|]. eauto. Qed.

Lemma mtab_not_bt k data p q x w : In (q, x) (mtab k data p) -> bt_ignored q w = false.
Proof. intros h. assert (I : In q (map fst (mtab k data p))) by (apply in_map_iff; now exists (q, x)).
  assert (E : forallb (fun n => negb (bt_name "_bt_config" n) && negb (bt_name "_bt_time_constant" n)) (map fst (mtab k data p)) = true).
  { unfold mtab, with_st. destruct (p_settings p) as [st|].
    - destruct k; try (vm_compute; reflexivity); unfold gtab; destruct (dists st) as [|a [|b [|e [|f r]]]]; vm_compute; reflexivity.
    - destruct k; vm_compute; reflexivity. }
  rewrite forallb_forall in E. apply E in I. apply andb_true_iff in I. destruct I as [I1 I2]. apply negb_true_iff in I1, I2. unfold bt_ignored. now rewrite I1, I2. Qed.

Section D.
Variable d : driver.
Hypothesis gc : GoodCalibration d.
Lemma scope_runs k data p c c' : k <> QTM -> prepare d k data p c = (c', Ok tt) -> readout k -> forall hwm, p_mapping p = Some hwm -> exists r, scope_seq k data hwm = Ok r.
Proof. intros hk h hr hwm hm. destruct (prepare_shape _ _ _ _ _ _ hk h) as (c1 & c2 & _ & _ & h2). assert (exists a b, post_readout d k data p a = (b, Ok tt)) as (a & b & e).
  { unfold post in h2. destruct hr as [->|[->| ->]]; apply then_ok in h2; destruct h2 as (c3 & e & _); eauto. }
  unfold post_readout in e. rewrite hm in e. apply then_ok in e. destruct e as (c3 & e & _). unfold bnd, lift in e. destruct (scope_seq k data hwm); [eauto|discriminate]. Qed.
Lemma table_holds k data p c c' q v : k <> QTM -> Ready d (mem c) -> prepare d k data p c = (c', Ok tt) -> (~ offset_param q \/ (forall st, p_settings p = Some st -> NoLoCal k st)) -> In (q, Some v) (mtab k data p) -> has d LMod q = true /\ Holds (mem c') LMod q v.
Proof. intros hk g h ho hi. assert (O : OT d (fun l x => l = LMod /\ x = q) (prepare d k data p) (mtab k data p)).
  { apply prepare_ot; auto; [tauto|]. intros st hs. destruct ho as [ho|ho]; [left; intros x [_ ->]; auto|right; auto]. }
  destruct (O _ _ _ h) as [e f]. assert (II : In (LMod, q, v) (flat (mtab k data p))) by (apply flat_in; auto). rewrite Forall_forall in f. pose proof (f _ II) as st. cbn in st. rewrite (mtab_not_bt k data p q _ v hi) in st. destruct st as [st|]; [|discriminate]. split; [auto|]. unfold Holds. rewrite e by auto.
  destruct (wrs_last d (flat (mtab k data p)) LMod q st) with (m := mem c) as (v' & hv & r); auto; [apply in_map_iff; exists (LMod, q, v); auto|]. apply flat_in in hv. destruct hv as [_ hv]. pose proof (nodup_fst_inj _ _ _ _ (mtab_nodup k data p) hi hv) as E. injection E as ->. exact r. Qed.
End D.

(** Every module parameter the program determines has the program's value (the attenuations of a QRC and, when LO calibration is on, the offsets apart). *)
Theorem C51_module : forall d k data p c c', GoodCalibration d -> k <> QTM -> Coherent (mem c) \/ force_set d = true -> prepare d k data p c = (c', Ok tt) ->
  forall q v, ModWants k data p q v -> ~ qrc_att k q -> ~ offset_param q \/ (forall st, p_settings p = Some st -> NoLoCal k st) -> has d LMod q = true /\ Holds (mem c') LMod q v.
Proof. intros d k data p c c' gc hk g h q v w na ho. eapply table_holds; eauto. apply mod_table; auto. intros. eapply scope_runs; eauto. Qed.
(** Module parameters the program says nothing about keep their values. *)
Theorem C51_module_frame : forall d k data p c c', GoodCalibration d -> k <> QTM -> prepare d k data p c = (c', Ok tt) ->
  forall q, (forall v, ~ ModWants k data p q v) -> ~ offset_param q \/ (forall st, p_settings p = Some st -> NoLoCal k st) -> mem c' LMod q = mem c LMod q.
Proof. intros d k data p c c' gc hk h q nw ho. assert (O : OT d (fun l x => l = LMod /\ x = q) (prepare d k data p) (mtab k data p)).
  { apply prepare_ot; auto; [tauto|]. intros st hs. destruct ho as [ho|ho]; [left; intros x [_ ->]; auto|right; auto]. }
  destruct (O _ _ _ h) as [e _]. rewrite e by auto. apply wrs_other. intros hi. apply in_map_iff in hi. destruct hi as ([[l x] v] & hl & hi). cbn in hl. injection hl as -> ->. apply flat_in in hi. destruct hi as [_ hi].
  assert (D : {qrc_att k q} + {~ qrc_att k q}). { unfold qrc_att. destruct (in_dec string_dec q ["out0_att"; "out1_att"; "out2_att"; "out3_att"; "out4_att"; "out5_att"]); [|right; tauto]. destruct k; try (right; intros [? _]; discriminate). left. auto. }
  destruct D as [[-> D]|D]; [|eapply nw; apply mod_table; eauto; intros; eapply scope_runs; eauto].
  apply in_mtab in hi; [|discriminate]. destruct hi as [(st & hs & hi)|[(st & hs & hi)|[[_ hi]|[_ hi]]]].
  - cbn in D, hi.
    assert (G : forall f v', In (q, f) (fields QRC) -> f st = Some v' -> False) by (intros f v' h1 h2; eapply nw; eapply m_field; eauto).
    repeat (destruct D as [<-|D]; [repeat (destruct hi as [hi|hi]; [injection hi as hi; try discriminate|]); try (destruct hi; fail); match goal with hh : option_map _ (out_att st ?n) = Some _ |- _ => destruct (out_att st n) eqn:EO; [|discriminate hh]; eapply (G (int (fun st => out_att st n))); [cbn; auto 20|unfold int; rewrite EO; reflexivity] end|]); destruct D.
  - destruct hi.
  - apply stab_in in hi. destruct hi as (path & _ & [[-> _]|[-> _]]); cbn in D; intuition discriminate.
  - destruct hi as [hi|[]]. injection hi as <- _. cbn in D. intuition discriminate. Qed.
(** A QRC never gets the attenuation of the program: whenever an attenuation is given, the instrument gets True, that is 1. *)
Theorem C51_qrc_attenuation_refuted : forall d data p c c' st i n, GoodCalibration d -> Coherent (mem c) \/ force_set d = true -> prepare d QRC data p c = (c', Ok tt) ->
  p_settings p = Some st -> (i < 6)%nat -> out_att st i = Some n -> Holds (mem c') LMod ("out" ++ dec_n i ++ "_att") (VNum 1).
Proof. intros d data p c c' st i n gc g h hs hi ho. assert (I : In (("out" ++ dec_n i ++ "_att")%string, Some (VBool true)) (mtab QRC data p)).
  { apply in_mtab; [discriminate|]. left. exists st. split; [auto|]. apply in_app_iff. left. cbn [ftab gtab]. apply in_flat_map. exists i. split; [apply in_seq; lia|]. rewrite ho. cbn. auto. }
  destruct (table_holds d gc QRC data p c c' ("out" ++ dec_n i ++ "_att")%string (VBool true) ltac:(discriminate) g h) as [_ e]; auto. right. intros. exact Logic.I. Qed.
