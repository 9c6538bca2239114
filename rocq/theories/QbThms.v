(** C51: after [prepare] the sequencers are configured as the program says, whatever the history. *)
From Verif Require Import Base PathModel JsonModel QbModel QbSpec QbProps QbSeq QbSeq2 QbPrep.
Local Open Scope string_scope.
Local Open Scope list_scope.

Section D.
Variable d : driver.
Hypothesis gc : GoodCalibration d.

Definition body (k : kind) (i : nat) (_ : string) (s : aset) : M unit := match k with QCM | QCM_RF => config_seq d k i s >> config_mixer d i s | _ => config_seq d k i s end.
Definition pre (k : kind) (p : program aset) : M unit := match k with QCM | QCM_RF => prepare_base p >> when_some (p_settings p) (config_global d k) >> disable_sync d k | _ => prepare_base p >> disable_sync d k end.
Definition post_readout (k : kind) (data : channels_data) (p : program aset) : M unit :=
  match p_mapping p with
  | Some hwm => bnd (lift (scope_seq k data hwm)) (fun sc => set_mgr (Some {| m_scope := sc; m_durations := map (fun '(n, s) => (n, integration_length s)) (p_seqs p); m_mapping := hwm |}))
  | None => set_mgr None
  end >>
  (when_some (p_settings p) (config_global d k) >>
  for_each (List.seq 0 (n_scope k)) (fun path =>
    set_mod d ("scope_acq_trigger_mode_path" ++ dec_n path) (VStr "sequencer") >>
    set_mod d ("scope_acq_avg_mode_en_path" ++ dec_n path) (VBool true))).
Definition mixers (k : kind) (p : program aset) : M unit := match k with QRM | QRM_RF => each_seq k p (fun i _ s => config_mixer d i s) | _ => ret tt end.
Definition post (k : kind) (data : channels_data) (p : program aset) : M unit :=
  match k with
  | QCM => ret tt
  | QCM_RF => prepare_rf d k p
  | QRM => post_readout k data p >> (mixers k p >> select_scope d k data p)
  | QRM_RF => post_readout k data p >> (mixers k p >> (select_scope d k data p >> prepare_rf d k p))
  | QRC => post_readout k data p >> (prepare_rf d k p >> select_scope d k data p)
  | QTM => ret tt
  end.
Lemma then_assoc {A} (a b e : M A) c : ((a >> b) >> e) c = (a >> (b >> e)) c.
Proof. unfold andthen, bnd. destruct (a c) as [c1 [x|x]]; auto. Qed.
Lemma then_cong {A} (a b b' : M A) c : (forall c, b c = b' c) -> (a >> b) c = (a >> b') c.
Proof. intros h. unfold andthen, bnd. destruct (a c) as [c1 [x|x]]; auto. Qed.
Lemma then_ret (a : M unit) c : (a >> ret tt) c = a c.
Proof. unfold andthen, bnd, ret. destruct (a c) as [c1 [[]|x]]; auto. Qed.
Lemma then_cong_l {A} (a a' b : M A) c : (forall c, a c = a' c) -> (a >> b) c = (a' >> b) c.
Proof. intros h. unfold andthen, bnd. now rewrite h. Qed.
Lemma readout_assoc k data p c : k = QRM \/ k = QRM_RF \/ k = QRC -> prepare_readout d k data p c = (pre k p >> each_seq k p (body k) >> post_readout k data p) c.
Proof. intros hk. unfold prepare_readout, post_readout. destruct hk as [->|[->| ->]]; cbn [pre body]; rewrite !then_assoc; reflexivity. Qed.
Lemma prepare_split k data p c : k <> QTM -> prepare d k data p c = (pre k p >> each_seq k p (body k) >> post k data p) c.
Proof. intros hk. destruct k; cbn [prepare post].
  - rewrite then_ret. reflexivity.
  - unfold prepare_qrm. rewrite !then_assoc. rewrite (then_cong_l _ _ _ _ (fun c0 => readout_assoc QRM data p c0 (or_introl eq_refl))). rewrite !then_assoc. reflexivity.
  - reflexivity.
  - unfold prepare_qrm. rewrite !then_assoc. rewrite (then_cong_l _ _ _ _ (fun c0 => readout_assoc QRM_RF data p c0 (or_intror (or_introl eq_refl)))). rewrite !then_assoc. reflexivity.
  - rewrite !then_assoc. rewrite (then_cong_l _ _ _ _ (fun c0 => readout_assoc QRC data p c0 (or_intror (or_intror eq_refl)))). rewrite !then_assoc. reflexivity.
  - congruence. Qed.

Definition pre_key (l : loc) (q : string) : Prop := l = LMod \/ (exists i, l = LSeq i /\ q = "sync_en").
Lemma disable_touch k : Touch (disable_sync d k) (fun l q => exists i, l = LSeq i /\ q = "sync_en").
Proof. unfold disable_sync. apply touch_each. intros i _. eapply touch_weaken; [apply touch_set|]. intros l q [-> ->]. eauto. Qed.
Lemma disable_keeps k : Keeps (disable_sync d k).
Proof. unfold disable_sync. apply keeps_each. intros. apply keeps_set. Qed.
Lemma base_touch' {S} (p : program S) P : Touch (prepare_base p) P.
Proof. unfold prepare_base. apply touch_then; now apply touch_pure. Qed.
Lemma base_keeps {S} (p : program S) : Keeps (prepare_base p).
Proof. unfold prepare_base. apply keeps_then; now apply keeps_pure. Qed.
Lemma pre_touch k p : Touch (pre k p) pre_key.
Proof. assert (D : Touch (disable_sync d k) pre_key) by (eapply touch_weaken; [apply disable_touch|]; unfold pre_key; auto).
  assert (G : Touch (when_some (p_settings p) (config_global d k)) pre_key) by (apply touch_when; intros; eapply touch_weaken; [apply global_touch|]; unfold pre_key, mod_key; auto).
  unfold pre. destruct k; repeat first [assumption | apply base_touch' | apply touch_then]. Qed.
Lemma pre_keeps k p : Keeps (pre k p).
Proof. unfold pre. destruct k; repeat first [apply base_keeps | apply disable_keeps | apply keeps_when; intros; apply global_keeps | apply keeps_then]. Qed.
Lemma disable_holds k c c' : disable_sync d k c = (c', Ok tt) -> Ready d (mem c) -> forall i, (i < n_seq k)%nat -> has d (LSeq i) "sync_en" = true /\ Holds (mem c') (LSeq i) "sync_en" (VBool false).
Proof. intros h g i lt. assert (W : Writes d (disable_sync d k) (flat_map (fun i => [(LSeq i, "sync_en", VBool false)]) (List.seq 0 (n_seq k)))) by (apply writes_each; intros; apply writes_set).
  destruct (W _ _ h) as [e f]. assert (I : In (LSeq i, "sync_en", VBool false) (flat_map (fun i => [(LSeq i, "sync_en", VBool false)]) (List.seq 0 (n_seq k)))) by (apply in_flat_map; exists i; split; [apply in_seq; lia|cbn; auto]).
  rewrite Forall_forall in f. pose proof (f _ I) as s. cbn in s. destruct s as [s|s]; [|discriminate]. split; [auto|]. rewrite e.
  destruct (wrs_last d (flat_map (fun i => [(LSeq i, "sync_en", VBool false)]) (List.seq 0 (n_seq k))) (LSeq i) "sync_en" s) with (m := mem c) as (v & hv & r); auto.
  - apply in_map_iff. exists (LSeq i, "sync_en", VBool false). auto.
  - apply in_flat_map in hv. destruct hv as (j & _ & [hv|[]]). injection hv as _ <-. auto. Qed.
Lemma ready_keeps {A} (m : M A) c c' r : Keeps m -> m c = (c', r) -> Ready d (mem c) -> Ready d (mem c').
Proof. intros k h [g|g]; [left; eapply k; eauto|right; auto]. Qed.
Lemma pre_holds k p c c' : pre k p c = (c', Ok tt) -> Ready d (mem c) -> forall i, (i < n_seq k)%nat -> has d (LSeq i) "sync_en" = true /\ Holds (mem c') (LSeq i) "sync_en" (VBool false).
Proof. intros h g. assert (exists c1, disable_sync d k c1 = (c', Ok tt) /\ Ready d (mem c1)) as (c1 & e & g').
  { unfold pre in h. destruct k; apply then_ok in h; destruct h as (c1 & h1 & h2); exists c1; (split; [exact h2|]); (eapply ready_keeps; [|exact h1|exact g]); repeat first [apply base_keeps | apply keeps_when; intros; apply global_keeps | apply keeps_then]. }
  eapply disable_holds; eauto. Qed.

Definition post_key (l : loc) (q : string) : Prop := l = LMod \/ mixer_param q.
Lemma mod_post {A} (m : M A) : Touch m mod_key -> Touch m post_key.
Proof. intros h. eapply touch_weaken; [exact h|]. unfold mod_key, post_key. auto. Qed.
Lemma post_readout_touch k data p : Touch (post_readout k data p) mod_key.
Proof. unfold post_readout. repeat apply touch_then.
  - destruct (p_mapping p); [|now apply touch_pure]. apply touch_bnd; intros; now apply touch_pure.
  - apply touch_when. intros. apply global_touch.
  - apply touch_each. intros. apply touch_then; apply set_touch_mod. Qed.
Lemma post_readout_keeps k data p : Keeps (post_readout k data p).
Proof. unfold post_readout. repeat apply keeps_then.
  - destruct (p_mapping p); [|now apply keeps_pure]. apply keeps_bnd; intros; now apply keeps_pure.
  - apply keeps_when. intros. apply global_keeps.
  - apply keeps_each. intros. apply keeps_then; apply keeps_set. Qed.
Lemma each_seq_touch {S} k (p : program S) f P : (forall j n s, In (n, s) (p_seqs p) -> n = seq_name j -> (j < n_seq k)%nat -> Touch (f j n s) P) -> Touch (each_seq k p f) P.
Proof. intros h. unfold each_seq. apply touch_each. intros [n s] hi. intros c c' r e. unfold bnd, seq_of in e. destruct (seq_index k n) as [j|] eqn:E; cbn [ret raise] in e.
  - apply seq_index_some in E. destruct E as [-> lt]. eapply h; eauto.
  - injection e as <- <-. auto. Qed.
Lemma rf_touch k p : Touch (prepare_rf d k p) mod_key.
Proof. unfold prepare_rf. apply touch_then; [apply each_seq_touch; intros; now apply touch_pure|apply touch_when; intros; now apply lo_touch]. Qed.
Lemma rf_keeps k p : Keeps (prepare_rf d k p).
Proof. unfold prepare_rf. apply keeps_then; [apply each_seq_keeps; intros; now apply keeps_pure|apply keeps_when; intros; now apply lo_keeps]. Qed.
Lemma mixers_touch k p : Touch (mixers k p) post_key.
Proof. unfold mixers. destruct k; try (now apply touch_pure); apply each_seq_touch; intros; (eapply touch_weaken; [now apply mixer_touch|]); unfold post_key; tauto. Qed.
Lemma mixers_keeps k p : Keeps (mixers k p).
Proof. unfold mixers. destruct k; try (now apply keeps_pure); apply each_seq_keeps; intros; now apply mixer_keeps. Qed.
Lemma post_touch k data p : Touch (post k data p) post_key.
Proof. unfold post. destruct k; repeat first [apply mod_post; first [apply rf_touch | apply post_readout_touch | apply scope_touch] | apply mixers_touch | now apply touch_pure | apply touch_then]. Qed.
Lemma post_keeps k data p : Keeps (post k data p).
Proof. unfold post. destruct k; repeat first [apply rf_keeps | apply post_readout_keeps | apply scope_keeps | apply mixers_keeps | now apply keeps_pure | apply keeps_then]. Qed.
Lemma body_touch k i n s : Touch (body k i n s) (seq_key i).
Proof. unfold body. destruct k; try apply seq_touch; (apply touch_then; [apply seq_touch|]); (eapply touch_weaken; [now apply mixer_touch|]); unfold seq_key; tauto. Qed.
Lemma body_keeps k i n s : Keeps (body k i n s).
Proof. unfold body. destruct k; try apply seq_keeps; (apply keeps_then; [apply seq_keeps|now apply mixer_keeps]). Qed.

Lemma prepare_shape k data p c c' : k <> QTM -> prepare d k data p c = (c', Ok tt) ->
  exists c1 c2, pre k p c = (c1, Ok tt) /\ each_seq k p (body k) c1 = (c2, Ok tt) /\ post k data p c2 = (c', Ok tt).
Proof. intros hk h. rewrite prepare_split in h by auto. apply then_ok in h. destruct h as (c2 & h1 & h2). apply then_ok in h1. destruct h1 as (c1 & h0 & h1). eauto. Qed.

(** what the body does to the sequencer *)
Lemma body_seq k i n s c c' : body k i n s c = (c', Ok tt) -> exists cm, config_seq d k i s c = (cm, Ok tt) /\ forall q, ~ mixer_param q -> mem c' (LSeq i) q = mem cm (LSeq i) q.
Proof. unfold body. intros h. assert (T : forall a b r, config_mixer d i s a = (b, r) -> forall q, ~ mixer_param q -> mem b (LSeq i) q = mem a (LSeq i) q) by (intros a b r e q hq; eapply mixer_touch; eauto; tauto).
  destruct k; eauto; apply then_ok in h; destruct h as (cm & h1 & h2); exists cm; split; eauto. Qed.
Lemma qrc_nco k i s c c' : config_seq d k i s c = (c', Ok tt) -> k = QRC -> nco_en s = true.
Proof. intros h ->. cbn [config_seq] in h. destruct (nco_en s); [auto|discriminate]. Qed.
Lemma config_holds k i s c c' q v : k <> QTM -> NoDup (map fst (triggers s)) -> config_seq d k i s c = (c', Ok tt) -> Ready d (mem c) -> SeqWants k s q v -> has d (LSeq i) q = true /\ Holds (mem c') (LSeq i) q v.
Proof. intros hk nd h g w. pose proof (seq_writes d k i s _ _ h) as [e f]. assert (I : In (q, v) (seq_table k s)) by (apply wants_table; auto; intros; eapply qrc_nco; eauto).
  assert (II : In (LSeq i, q, v) (at_loc (LSeq i) (seq_table k s))) by (apply in_map_iff; now exists (q, v)).
  rewrite Forall_forall in f. pose proof (f _ II) as st. cbn in st. rewrite (wants_not_bt _ _ _ _ v w) in st. destruct st as [st|]; [|discriminate]. split; [auto|]. rewrite e.
  destruct (wrs_last d (at_loc (LSeq i) (seq_table k s)) (LSeq i) q st) with (m := mem c) as (v' & hv & r); auto; [apply in_map_iff; exists (LSeq i, q, v); auto|].
  unfold at_loc in hv. apply in_map_iff in hv. destruct hv as ([q' v''] & hv & ht). injection hv as -> ->. apply table_wants in ht; auto. now rewrite (wants_det _ _ _ _ _ nd w ht). Qed.
Lemma config_frame k i s c c' q : k <> QTM -> config_seq d k i s c = (c', Ok tt) -> (forall v, ~ SeqWants k s q v) -> mem c' (LSeq i) q = mem c (LSeq i) q.
Proof. intros hk h n. destruct (seq_writes d k i s _ _ h) as [e _]. rewrite e. apply wrs_other. intros hi. apply in_map_iff in hi. destruct hi as ([[l q'] v] & hl & hi). cbn in hl. injection hl as -> ->. unfold at_loc in hi. apply in_map_iff in hi. destruct hi as ([q' v'] & hl & hi). injection hl as -> ->. apply table_wants in hi; auto. eapply n; eauto. Qed.

(** *** The theorems *)
Definition NotSeq (i : nat) (l : loc) (q : string) : Prop := l = LSeq i.
Lemma at_sequencer k data p c c' i s : k <> QTM -> Dicts p -> prepare d k data p c = (c', Ok tt) -> In (seq_name i, s) (p_seqs p) ->
  (i < n_seq k)%nat /\ exists ca cb, config_seq d k i s ca = (cb, Ok tt) /\ (forall q, q <> "sync_en" -> mem ca (LSeq i) q = mem c (LSeq i) q) /\ (forall q, ~ mixer_param q -> mem c' (LSeq i) q = mem cb (LSeq i) q) /\ (Ready d (mem c) -> Ready d (mem ca)).
Proof. intros hk [nd _] h hin. destruct (prepare_shape _ _ _ _ _ hk h) as (c1 & c2 & h0 & h1 & h2).
  destruct (each_seq_ok k p (body k) i s (seq_key i) c1 c2) as (lt & ca & cb & e1 & e2 & e3 & e4); auto.
  - intros j n s' _ ne. eapply touch_weaken; [apply body_touch|]. unfold seq_key. congruence.
  - intros. apply body_keeps.
  - split; [auto|]. destruct (body_seq _ _ _ _ _ _ e1) as (cm & hm & fm). exists ca, cm. split; [auto|]. split; [|split].
    + intros q hq. rewrite e2 by reflexivity. eapply pre_touch; eauto. unfold pre_key. intros [|(j & _ & x)]; congruence.
    + intros q hq. rewrite <- fm by auto. rewrite <- e3 by reflexivity. eapply post_touch; eauto. unfold post_key. intuition congruence.
    + intros g. eapply (ready_keeps _ _ _ _ (pre_keeps k p) h0) in g. destruct g as [g|g]; [left; auto|right; auto]. Qed.
End D.

(** Every parameter the program determines has the program's value, whatever was done before, when the caches are right or force_set_parameters is on. *)
Theorem C51_sequencers : forall d k data p c c', GoodCalibration d -> k <> QTM -> Dicts p -> Coherent (mem c) \/ force_set d = true ->
  prepare d k data p c = (c', Ok tt) ->
  forall i s q v, In (seq_name i, s) (p_seqs p) -> SeqWants k s q v -> has d (LSeq i) q = true /\ Holds (mem c') (LSeq i) q v.
Proof. intros d k data p c c' gc hk dd g h i s q v hin w. destruct (at_sequencer d gc k data p c c' i s hk dd h hin) as (lt & ca & cb & e & _ & e2 & e3). destruct (config_holds d k i s ca cb q v hk (d_trig _ dd _ _ hin) e (e3 g) w) as [a b]. split; [auto|]. unfold Holds in *. rewrite e2 by (eapply wants_not_mixer; eauto). exact b. Qed.

(** Nothing else changes on the sequencers of the program... *)
Theorem C51_frame : forall d k data p c c', GoodCalibration d -> k <> QTM -> Dicts p -> prepare d k data p c = (c', Ok tt) ->
  forall i s q, In (seq_name i, s) (p_seqs p) -> ~ mixer_param q -> (forall v, ~ SeqWants k s q v) -> mem c' (LSeq i) q = mem c (LSeq i) q.
Proof. intros d k data p c c' gc hk dd h i s q hin nm nw. destruct (at_sequencer d gc k data p c c' i s hk dd h hin) as (lt & ca & cb & e & e1 & e2 & _). rewrite e2 by auto. rewrite (config_frame d k i s ca cb q hk e nw). apply e1. intros ->. eapply nw. apply w_sync. Qed.
(** ... and sequencers that are not in the program only get their synchronisation disabled. *)
Theorem C51_unused : forall d k data p c c', GoodCalibration d -> k <> QTM -> Coherent (mem c) \/ force_set d = true -> prepare d k data p c = (c', Ok tt) ->
  forall i, ~ In (seq_name i) (map fst (p_seqs p)) ->
    ((i < sequencers k)%nat -> Holds (mem c') (LSeq i) "sync_en" (VBool false)) /\ (forall q, q <> "sync_en" -> ~ mixer_param q -> mem c' (LSeq i) q = mem c (LSeq i) q).
Proof. intros d k data p c c' gc hk g h i hn. destruct (prepare_shape _ _ _ _ _ _ hk h) as (c1 & c2 & h0 & h1 & h2).
  assert (E : forall q, ~ mixer_param q -> mem c' (LSeq i) q = mem c1 (LSeq i) q). { intros q nm. rewrite (post_touch d gc k data p _ _ _ h2) by (unfold post_key; intuition congruence).
    eapply (each_touch_other k (p_seqs p) (body d k) i (seq_key i)); [auto| |exact h1|unfold seq_key; tauto]. intros j n s' _ ne. eapply touch_weaken; [now apply body_touch|]. unfold seq_key. congruence. }
  split.
  - intros lt. unfold Holds. rewrite E by (unfold mixer_param; intuition discriminate). eapply pre_holds; eauto.
  - intros q n1 n2. rewrite E by auto. eapply pre_touch; eauto. unfold pre_key. intros [|(j & _ & x)]; congruence. Qed.
