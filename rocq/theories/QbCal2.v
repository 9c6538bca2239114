(** C52: sideband calibrations. *)
From Verif Require Import Base PathModel JsonModel QbModel QbSpec QbProps QbSeq QbSeq2 QbPrep QbThms QbCal.
Local Open Scope string_scope.
Local Open Scope list_scope.

Lemma each_split {S} k (p : program S) (f : nat -> string -> S -> M unit) i s c c' :
  NoDup (map fst (p_seqs p)) -> In (seq_name i, s) (p_seqs p) -> each_seq k p f c = (c', Ok tt) ->
  (i < n_seq k)%nat /\ exists ca cb, f i (seq_name i) s ca = (cb, Ok tt) /\
    forall R, Ord R -> (forall j n s', In (n, s') (p_seqs p) -> j <> i -> Pres R (f j n s')) -> R c ca /\ R cb c'.
Proof. unfold each_seq. generalize (p_seqs p) as l0. intros l0 nd hin. revert c. induction l0 as [|[n s0] l0 IH]; intros c h; [destruct hin|]. cbn [for_each] in h. apply then_ok in h. destruct h as (cm & h1 & h2).
  unfold bnd at 1, seq_of in h1. destruct (seq_index k n) as [j|] eqn:E; [|discriminate]. cbn [ret] in h1. apply seq_index_some in E. destruct E as [-> lt]. cbn [map fst] in nd. inversion nd; subst. destruct hin as [e|hin].
  - injection e as e <-. apply ZiIds.dec_inj, Nat2Z.inj in e. subst j. split; [auto|]. exists c, cm. split; [auto|]. intros R o ho. split; [now apply o_refl|].
    assert (P : Pres R (for_each l0 (fun '(name, s) => bnd (seq_of k name) (fun j => f j name s)))).
    { apply (pres_each R o). intros [n s'] hi. intros a b r e. unfold bnd, seq_of in e. destruct (seq_index k n) as [j|] eqn:E; cbn [ret raise] in e.
      - apply seq_index_some in E. destruct E as [-> _]. eapply (ho j); [cbn; eauto| |exact e]. intros ->. apply H1, in_map_iff. now exists (seq_name i, s').
      - injection e as <- <-. now apply o_refl. }
    eapply P; eauto.
  - assert (ne : j <> i) by (intros ->; apply H1, in_map_iff; now exists (seq_name i, s)).
    destruct (IH H2 hin cm h2) as (lt' & ca & cb & e1 & e2). split; [auto|]. exists ca, cb. split; [auto|]. intros R o ho. destruct (e2 R o) as [a b]; [intros j' n' s' hi; apply ho; cbn; auto|]. split; [|auto]. eapply o_trans; eauto. eapply (ho j); [cbn; auto|auto|exact h1]. Qed.

Definition calm (f : calib -> bool) (i : nat) (c c' : comp) : Prop := quiet f i c c' /\ (forall q, mem c' (LSeq i) q = mem c (LSeq i) q) /\ (Coherent (mem c) -> Coherent (mem c')).
Lemma calm_ord f i : Ord (calm f i).
Proof. constructor; unfold calm; [intros c; split; [apply (o_refl _ (quiet_ord f i))|auto]|]. intros a b c (q1 & e1 & k1) (q2 & e2 & k2). split; [eapply (o_trans _ (quiet_ord f i)); eauto|]. split; [intros; congruence|auto]. Qed.
Lemma calm_pres {A} (m : M A) f i P : Pres (quiet f i) m -> Touch m P -> (forall q, ~ P (LSeq i) q) -> Keeps m -> Pres (calm f i) m.
Proof. intros h1 h2 n h3 c c' r e. split; [eauto|]. split; [intros q; eapply h2; eauto|intros; eapply h3; eauto]. Qed.

Lemma calls_sb i l : calls (SidebandCal i) l = map snd (filter (fun e => is_sb i (fst e)) l).
Proof. induction l as [|[k m] l IH]; cbn [calls filter fst]; [auto|]. destruct (calib_dec (SidebandCal i) k) as [<-|n]; cbn [is_sb]; [rewrite Nat.eqb_refl; cbn; now rewrite IH|]. destruct k as [j|x]; cbn [is_sb]; [|auto]. destruct (Nat.eqb_spec i j); [congruence|auto]. Qed.
Lemma calls_lo i l : calls (LoCal i) l = map snd (filter (fun e => is_lo i (fst e)) l).
Proof. induction l as [|[k m] l IH]; cbn [calls filter fst]; [auto|]. destruct (calib_dec (LoCal i) k) as [<-|n]; cbn [is_lo]; [rewrite String.eqb_refl; cbn; now rewrite IH|]. destruct k as [j|x]; cbn [is_lo]; [auto|]. destruct (String.eqb_spec i x); [congruence|auto]. Qed.
Lemma freq_onum s : freq s = onum (mod_freq s).
Proof. reflexivity. Qed.
Lemma changes_iff m i s : changes m i s = true <-> NcoChanges m i s.
Proof. unfold changes, NcoChanges, Differs, same_as_cache. rewrite freq_onum, andb_true_iff, negb_true_iff. destruct (cached (m (LSeq i) "nco_freq")) as [w|].
  - split; intros [h1 h2]; (split; [auto|]); [intros w' e; injection e as <-; auto|auto].
  - split; intros [h1 h2]; (split; [auto|]); [discriminate|auto]. Qed.

Definition same_at (l : loc) (q : string) (c c' : comp) : Prop := mem c' l q = mem c l q.
Lemma same_ord l q : Ord (same_at l q).
Proof. constructor; unfold same_at; [auto|intros; congruence]. Qed.
Lemma touch_same {A} (m : M A) P l q : Touch m P -> ~ P l q -> Pres (same_at l q) m.
Proof. intros h n c c' r e. eapply h; eauto. Qed.

Section D.
Variable d : driver.
Hypothesis gc : GoodCalibration d.
Lemma base_samelog {S} f (p : program S) : Pres (samelog f) (prepare_base p).
Proof. intros c c' r e. unfold prepare_base in e. unfold andthen, bnd, set_names, set_nco in e. injection e as <- <-. reflexivity. Qed.
Lemma pre_samelog f k p : Pres (samelog f) (pre d k p).
Proof. assert (D : Pres (samelog f) (disable_sync d k)) by (eapply quiet_samelog with (i := 0%nat), still_quiet, still_disable).
  assert (G : Pres (samelog f) (when_some (p_settings p) (config_global d k))) by (apply (pres_when _ (samelog_ord f)); intros; eapply quiet_samelog with (i := 0%nat), still_quiet, still_global).
  unfold pre. destruct k; repeat first [assumption | apply base_samelog | apply (pres_then _ (samelog_ord f))]. Qed.
Lemma body_calm i j n k s : j <> i -> Pres (calm (is_sb i) i) (body d k j n s).
Proof. intros ne. eapply calm_pres; [apply body_quiet; auto; cbn; destruct (Nat.eqb_spec i j); congruence|now apply body_touch| |now apply body_keeps]. intros q e. unfold seq_key in e. congruence. Qed.
Lemma mixer_calm i j s : j <> i -> Pres (calm (is_sb i) i) (config_mixer d j s).
Proof. intros ne. eapply calm_pres; [apply mixer_quiet; cbn; destruct (Nat.eqb_spec i j); congruence|now apply mixer_touch| |now apply mixer_keeps]. intros q [e _]. congruence. Qed.
Lemma mod_calm {A} f i (m : M A) : Pres (quiet f i) m -> Touch m mod_key -> Keeps m -> Pres (calm f i) m.
Proof. intros h1 h2 h3. eapply calm_pres; eauto. intros q e. discriminate e. Qed.
Lemma post_readout_calm f i k data p : Pres (calm f i) (post_readout d k data p).
Proof. apply mod_calm; [apply still_quiet, still_post_readout|apply post_readout_touch|apply post_readout_keeps]. Qed.
Lemma select_calm f i k data p : Pres (calm f i) (select_scope d k data p).
Proof. apply mod_calm; [apply still_quiet, still_select|apply scope_touch|apply scope_keeps]. Qed.
Lemma rf_calm i k p : Pres (calm (is_sb i) i) (prepare_rf d k p).
Proof. apply mod_calm; [now apply rf_quiet|now apply rf_touch|now apply rf_keeps]. Qed.

Lemma set_same q x v : x <> q -> Pres (same_at LMod q) (set_parameter d LMod x v).
Proof. intros n. eapply touch_same; [apply touch_set|]. intros [_ e]. congruence. Qed.
Lemma global_same k q st : lo_param k q -> Pres (same_at LMod q) (config_global d k st).
Proof. intros h. destruct k; try contradiction; cbn [lo_param] in h; [destruct h; subst q|subst q]; cbn [config_global]; unfold set_onum, set_oint, set_mod;
  repeat first [apply set_same; discriminate | apply (pres_then _ (same_ord _ _)) | apply (pres_when _ (same_ord _ _)); intros]. Qed.
Lemma seq_same {A} i (m : M A) q : Touch m (seq_key i) -> Pres (same_at LMod q) m.
Proof. intros h. eapply touch_same; [exact h|]. unfold seq_key. discriminate. Qed.
Lemma disable_same q k : Pres (same_at LMod q) (disable_sync d k).
Proof. eapply touch_same; [apply disable_touch|]. intros (i & e & _). discriminate. Qed.
Lemma pre_same k p q : lo_param k q -> Pres (same_at LMod q) (pre d k p).
Proof. intros h. assert (G : Pres (same_at LMod q) (when_some (p_settings p) (config_global d k))) by (apply (pres_when _ (same_ord _ _)); intros; now apply global_same).
  assert (B : Pres (same_at LMod q) (prepare_base p)) by (eapply touch_same; [now apply (base_touch' p (fun _ _ => False))|tauto]).
  unfold pre. destruct k; repeat first [assumption | apply disable_same | apply (pres_then _ (same_ord _ _))]. Qed.
Lemma post_readout_same k data p q : lo_param k q -> Pres (same_at LMod q) (post_readout d k data p).
Proof. intros h. unfold post_readout, set_mod. apply (pres_then _ (same_ord _ _)); [|apply (pres_then _ (same_ord _ _))].
  - eapply touch_same with (P := fun _ _ => False); [|tauto]. destruct (p_mapping p); [|now apply touch_pure]. apply touch_bnd; intros; now apply touch_pure.
  - apply (pres_when _ (same_ord _ _)). intros. now apply global_same.
  - apply (pres_each _ (same_ord _ _)). intros n _. apply (pres_then _ (same_ord _ _)); apply set_same; (destruct k; try contradiction; cbn [lo_param] in h; [destruct h; subst q|subst q]; discriminate). Qed.
Lemma select_same k data p q : lo_param k q -> Pres (same_at LMod q) (select_scope d k data p).
Proof. intros h. unfold select_scope, set_mod. apply (pres_when _ (same_ord _ _)). intros hwm _. apply (pres_bnd _ (same_ord _ _)); [apply (pres_id _ (same_ord _ _)); reflexivity|]. intros sc. apply (pres_when _ (same_ord _ _)). intros [i z] _. apply set_same. destruct k; try contradiction; cbn [lo_param] in h; [destruct h; subst q|subst q]; discriminate. Qed.
Lemma body_same k p q : Pres (same_at LMod q) (each_seq k p (body d k)).
Proof. apply (pres_each_seq _ (same_ord _ _)). intros j n s _ _ _. apply (seq_same j). now apply body_touch. Qed.
Lemma mixers_same k p q : Pres (same_at LMod q) (each_seq k p (fun i _ s => config_mixer d i s)).
Proof. apply (pres_each_seq _ (same_ord _ _)). intros j n s _ _ _. eapply touch_same; [now apply mixer_touch|]. intros [e _]. discriminate. Qed.

(** where the settings of a sequencer and its mixer are configured *)
Lemma at_mixer k data p c c' i s : with_mixer k -> Dicts p -> prepare d k data p c = (c', Ok tt) -> In (seq_name i, s) (p_seqs p) ->
  exists c0 c1 c2 c3, config_seq d k i s c0 = (c1, Ok tt) /\ config_mixer d i s c2 = (c3, Ok tt) /\
    logged (is_sb i) c0 = logged (is_sb i) c /\ (forall q, q <> "sync_en" -> mem c0 (LSeq i) q = mem c (LSeq i) q) /\ (Coherent (mem c) -> Coherent (mem c0)) /\
    calm (is_sb i) i c1 c2 /\ calm (is_sb i) i c3 c' /\ (forall q, lo_param k q -> mem c2 LMod q = mem c LMod q).
Proof. intros hk [nd _] h hin. assert (nq : k <> QTM) by (destruct hk as [->|[->|[->| ->]]]; discriminate). destruct (prepare_shape _ _ _ _ _ _ nq h) as (cp & cb & h0 & h1 & h2). assert (O := calm_ord (is_sb i) i).
  destruct (each_split k p (body d k) i s cp cb nd hin h1) as (_ & ca & cc & e1 & e2). destruct (e2 _ O) as [q1 q2]; [intros; now apply body_calm|].
  assert (SL : forall q, lo_param k q -> mem ca LMod q = mem c LMod q) by (intros q hq; rewrite <- (pre_same k p q hq _ _ _ h0); apply (e2 _ (same_ord LMod q)); intros; apply (seq_same j); now apply body_touch).
  assert (SB : forall q, lo_param k q -> mem cb LMod q = mem c LMod q) by (intros q hq; rewrite (body_same k p q _ _ _ h1); eapply pre_same; eauto).
  destruct q1 as ((l1 & _) & m1 & k1).
  assert (F : logged (is_sb i) ca = logged (is_sb i) c /\ (forall q, q <> "sync_en" -> mem ca (LSeq i) q = mem c (LSeq i) q) /\ (Coherent (mem c) -> Coherent (mem ca))).
  { split; [rewrite l1; eapply pre_samelog; eauto|]. split; [intros q n; rewrite m1; eapply pre_touch; eauto; unfold pre_key; intros [|(j & _ & x)]; congruence|intros g; apply k1; eapply pre_keeps; eauto]. }
  destruct F as (F1 & F2 & F3). destruct hk as [->|[->|[->| ->]]]; cbn [body post mixers] in *.
  - apply then_ok in e1. destruct e1 as (cm & a1 & a2). injection h2 as <-. exists ca, cm, cm, cc. do 5 (split; [eauto|]). split; [apply (o_refl _ O)|]. split; [auto|]. intros q [].
  - apply then_ok in h2. destruct h2 as (x1 & b1 & b2). apply then_ok in b2. destruct b2 as (x2 & b2 & b3).
    destruct (each_split QRM p (fun i _ s => config_mixer d i s) i s x1 x2 nd hin b2) as (_ & cm & cn & e3 & e4). destruct (e4 _ O) as [q3 q4]; [intros; now apply mixer_calm|].
    exists ca, cc, cm, cn. do 5 (split; [eauto|]). split; [|split; [eapply (o_trans _ O); [eauto|eapply select_calm; eauto]|intros q []]].
    eapply (o_trans _ O); [eauto|]. eapply (o_trans _ O); [eapply post_readout_calm; eauto|eauto].
  - apply then_ok in e1. destruct e1 as (cm & a1 & a2). exists ca, cm, cm, cc. do 5 (split; [eauto|]). split; [apply (o_refl _ O)|]. split; [eapply (o_trans _ O); [eauto|eapply rf_calm; eauto]|]. intros q hq. rewrite <- (SL q hq). eapply seq_same; [apply seq_touch|eauto].
  - apply then_ok in h2. destruct h2 as (x1 & b1 & b2). apply then_ok in b2. destruct b2 as (x2 & b2 & b3). apply then_ok in b3. destruct b3 as (x3 & b3 & b4).
    destruct (each_split QRM_RF p (fun i _ s => config_mixer d i s) i s x1 x2 nd hin b2) as (_ & cm & cn & e3 & e4). destruct (e4 _ O) as [q3 q4]; [intros; now apply mixer_calm|].
    exists ca, cc, cm, cn. do 5 (split; [eauto|]). split; [|split].
    + eapply (o_trans _ O); [eauto|]. eapply (o_trans _ O); [eapply post_readout_calm; eauto|eauto].
    + eapply (o_trans _ O); [eauto|]. eapply (o_trans _ O); [eapply select_calm; eauto|eapply rf_calm; eauto].
    + intros q hq. rewrite <- (SB q hq), <- (post_readout_same _ _ _ q hq _ _ _ b1). apply (e4 _ (same_ord LMod q)). intros. eapply touch_same; [now apply mixer_touch|]. intros [e _]. discriminate. Qed.
End D.

(** A sequencer is calibrated exactly when its program asks for it and its NCO frequency is not the cached one; once, with its new NCO frequency (and everything else of the sequencer) set. The LO frequencies are then still those from before. When the sequencer is not calibrated, it has the mixer corrections of the program. *)
Theorem C52_sideband : forall d k data p c c' i s, GoodCalibration d -> with_mixer k -> Dicts p -> Coherent (mem c) \/ force_set d = true -> prepare d k data p c = (c', Ok tt) -> In (seq_name i, s) (p_seqs p) ->
  (SidebandDue (mem c) i s -> exists m, calls (SidebandCal i) (cals c') = calls (SidebandCal i) (cals c) ++ [m] /\ (forall q v, SeqWants k s q v -> Holds m (LSeq i) q v) /\ (forall q, lo_param k q -> m LMod q = mem c LMod q)) /\
  (~ SidebandDue (mem c) i s -> calls (SidebandCal i) (cals c') = calls (SidebandCal i) (cals c) /\ forall q v, MixerWants s q v -> Holds (mem c') (LSeq i) q v).
Proof. intros d k data p c c' i s gc hk dd g h hin. assert (nq : k <> QTM) by (destruct hk as [->|[->|[->| ->]]]; discriminate).
  destruct (at_mixer d gc k data p c c' i s hk dd h hin) as (c0 & c1 & c2 & c3 & e1 & e2 & l0 & m0 & k0 & ((l2 & f2) & m2 & k2) & ((l3 & f3) & m3 & k3) & SLO).
  destruct (flags_seq d k i s nq _ _ e1) as [s1 s2]. assert (FL : nco_flag i (nco_changed c2) = Some (changes (mem c) i s)).
  { rewrite f2, s2, flag_put, Nat.eqb_refl. f_equal. unfold changes, same_as_cache. now rewrite m0 by discriminate. }
  assert (L12 : logged (is_sb i) c2 = logged (is_sb i) c) by (rewrite l2, <- l0; unfold logged; now rewrite s1).
  assert (g0 : Ready d (mem c0)) by (destruct g as [g|g]; [left; auto|right; auto]). assert (g1 : Ready d (mem c1)) by (eapply ready_keeps; [apply seq_keeps|exact e1|auto]). assert (g2 : Ready d (mem c2)) by (destruct g1 as [g1|g1]; [left; auto|right; auto]).
  rewrite !calls_sb. fold (logged (is_sb i) c') (logged (is_sb i) c). rewrite l3. destruct (mixer_ok d i s c2 c3 e2) as [(A & B & C & D & E)|(A & B & C & D & E)].
  - rewrite FL in B. injection B as B. apply changes_iff in B. split; [|intros n; exfalso; apply n; split; auto]. intros _. exists (mem c2). split.
    + unfold logged at 1. rewrite C, filter_app. cbn [filter fst is_sb]. rewrite Nat.eqb_refl. rewrite map_app. cbn [map snd]. f_equal. f_equal. exact L12.
    + split; [|exact SLO]. intros q v w. unfold Holds. rewrite m2. eapply (config_holds d k i s); eauto. exact (d_trig _ dd _ _ hin).
  - split.
    + intros [x1 x2]. exfalso. apply A. split; [auto|]. rewrite FL. f_equal. now apply changes_iff.
    + intros _. split; [f_equal; unfold logged at 1; rewrite B; exact L12|]. intros q v w. unfold Holds. rewrite m3. now apply D. Qed.
(** A sequencer that is not in the program is not calibrated, and keeps its mixer corrections. *)
Theorem C52_unused : forall d k data p c c' i, GoodCalibration d -> k <> QTM -> prepare d k data p c = (c', Ok tt) -> ~ In (seq_name i) (map fst (p_seqs p)) ->
  calls (SidebandCal i) (cals c') = calls (SidebandCal i) (cals c) /\ forall q, mixer_param q -> mem c' (LSeq i) q = mem c (LSeq i) q.
Proof. intros d k data p c c' i gc nq h hn. destruct (prepare_shape _ _ _ _ _ _ nq h) as (cp & cb & h0 & h1 & h2). rewrite !calls_sb. fold (logged (is_sb i) c') (logged (is_sb i) c). assert (O := calm_ord (is_sb i) i).
  assert (NE : forall j n (s : aset), In (n, s) (p_seqs p) -> n = seq_name j -> j <> i) by (intros j n s hi -> ->; apply hn, in_map_iff; now exists (seq_name i, s)).
  assert (B : calm (is_sb i) i cp cb) by (eapply (pres_each_seq _ O); [|exact h1]; intros; apply body_calm; eauto).
  assert (P : calm (is_sb i) i cb c'). { unfold post, mixers in h2.
    assert (MX : forall k', Pres (calm (is_sb i) i) (each_seq k' p (fun i _ s => config_mixer d i s))) by (intros k'; apply (pres_each_seq _ O); intros; apply mixer_calm; eauto).
    revert h2. destruct k; intros h2; (eapply pres_id; [exact O| |exact h2]; reflexivity) || (revert h2; match goal with |- ?m cb = _ -> _ => assert (PP : Pres (calm (is_sb i) i) m) by (repeat first [now apply rf_calm | now apply post_readout_calm | now apply select_calm | apply MX | apply (pres_then _ O)]) end; intros h2; eapply PP; eauto). }
  destruct B as ((B1 & _) & B2 & _), P as ((P1 & _) & P2 & _). rewrite P1, B1. split; [f_equal; eapply pre_samelog; eauto|]. intros q hq. rewrite P2, B2. eapply pre_touch; eauto. unfold pre_key. intros [|(j & _ & x)]; [congruence|]. subst. destruct hq; discriminate. Qed.
(** A QRC is never calibrated, and its mixer corrections are not set. *)
Theorem C52_qrc : forall d data p c c', GoodCalibration d -> Dicts p -> prepare d QRC data p c = (c', Ok tt) ->
  forall i, calls (SidebandCal i) (cals c') = calls (SidebandCal i) (cals c) /\ forall q, mixer_param q -> mem c' (LSeq i) q = mem c (LSeq i) q.
Proof. intros d data p c c' gc [nd _] h i. destruct (in_dec string_dec (seq_name i) (map fst (p_seqs p))) as [hi|hn]; [|eapply C52_unused; eauto; discriminate].
  apply in_map_iff in hi. destruct hi as ([n s] & e & hi). cbn in e. subst n. destruct (prepare_shape d QRC data p c c' ltac:(discriminate) h) as (cp & cb & h0 & h1 & h2). rewrite !calls_sb. fold (logged (is_sb i) c') (logged (is_sb i) c). assert (O := calm_ord (is_sb i) i).
  destruct (each_split QRC p (body d QRC) i s cp cb nd hi h1) as (_ & ca & cc & e1 & e2). destruct (e2 _ O) as [((l1 & _) & m1 & _) ((l2 & _) & m2 & _)]; [intros; now apply body_calm|].
  assert (P : calm (is_sb i) i cb c') by (cbn [post] in h2; apply then_ok in h2; destruct h2 as (x1 & b1 & b2); apply then_ok in b2; destruct b2 as (x2 & b2 & b3); eapply (o_trans _ O); [eapply post_readout_calm; eauto|]; eapply (o_trans _ O); [eapply rf_calm; eauto|eapply select_calm; eauto]).
  destruct P as ((P1 & _) & P2 & _). cbn [body] in e1. destruct (flags_seq d QRC i s ltac:(discriminate) _ _ e1) as [s1 _]. split.
  - f_equal. rewrite P1, l2. transitivity (logged (is_sb i) ca); [unfold logged; now rewrite s1|]. rewrite l1. eapply pre_samelog; eauto.
  - intros q hq. rewrite P2, m2. rewrite (config_frame d QRC i s ca cc q ltac:(discriminate) e1) by (intros v w; eapply wants_not_mixer; eauto). rewrite m1. eapply pre_touch; eauto. unfold pre_key. intros [|(j & _ & x)]; [congruence|]. subst. destruct hq; discriminate. Qed.
