(** C54: [prepare] of a QTM. *)
From Verif Require Import Base PathModel PathProps6 JsonModel JsonProps2 ZiIds LibThms7 QbModel QbSpec QbProps QbSeq QbSeq2 QbPrep QbQtmSpec.
From Coq Require Import Lia.
Local Open Scope string_scope.
Local Open Scope list_scope.

Definition opt {A} (o : option A) (f : A -> item) : list item := match o with Some a => [f a] | None => [] end.
Definition trig_items (i : nat) (e : Z * trigger) : list item :=
  opt (t_invert (snd e)) (fun b => (LSeq i, ("trigger" ++ dec_Z (fst e) ++ "_threshold_invert")%string, VBool b)) ++ opt (t_count (snd e)) (fun n => (LSeq i, ("trigger" ++ dec_Z (fst e) ++ "_count_threshold")%string, vint n)).
Definition trace_items (i : nat) (t : string) : list item :=
  if String.eqb t "scope" then [(LIo i, "scope_trigger_mode", VStr "sequencer")] ++ [(LIo i, "scope_mode", VStr "scope")]
  else if String.eqb t "timetag" then [(LIo i, "scope_trigger_mode", VStr "sequencer")] ++ [(LIo i, "scope_mode", VStr "timetags-windowed")] else [].
Definition seq_items (i : nat) (s : tset) : list item :=
  ([(LSeq i, "sync_en", VBool (tt_sync_en s))] ++ [(LSeq i, "sequence", oseq (tt_sequence s))]) ++ flat_map (trig_items i) (tt_triggers s).
Definition io_items (i : nat) (s : tset) : list item :=
  (((((((((((flat_map (fun ch => [(LIo ch, "mode", VStr "input")]) (tt_ins s) ++ flat_map (fun ch => [(LIo ch, "mode", VStr "output")]) (tt_outs s)) ++
  opt (analog_threshold s) (fun q => (LIo i, "analog_threshold", VNum q))) ++
  [(LIo i, "forward_trigger_en", VBool false)]) ++ [(LIo i, "binned_acq_on_invalid_time_delta", VStr "record_0")]) ++
  (match trace_type s with Some t => trace_items i t | None => [] end)) ++
  opt (time_source s) (fun t => (LIo i, "binned_acq_time_source", VStr t))) ++
  opt (time_ref s) (fun r => (LIo i, "binned_acq_time_ref", VStr (time_ref_value s r)))) ++
  [(LIo i, "thresholded_acq_trigger_address_high", vint (addr_high s))]) ++ [(LIo i, "thresholded_acq_trigger_address_mid", vint (addr_mid s))]) ++
  [(LIo i, "thresholded_acq_trigger_address_low", vint (addr_low s))]) ++ [(LIo i, "thresholded_acq_trigger_address_invalid", vint (addr_invalid s))]) ++
  opt (tt_write_en s) (fun b => (LIo i, "thresholded_acq_trigger_en", VBool b)).
Definition name_items (e : string * tset) : list item := match seq_index QTM (fst e) with Some i => seq_items i (snd e) ++ io_items i (snd e) | None => [] end.
Definition off_items : list item := flat_map (fun i => [(LSeq i, "sync_en", VBool false)]) (List.seq 0 8).

Section D.
Variable d : driver.
Lemma writes_opt {A} (o : option A) f (g : A -> item) : (forall a, Writes d (f a) [g a]) -> Writes d (when_some o f) (opt o g).
Proof. intros h. unfold opt. destruct o; [apply h|apply writes_ret]. Qed.
Lemma writes_base_t i a b t : Writes d (config_base d i a b t) (([(LSeq i, "sync_en", VBool a)] ++ [(LSeq i, "sequence", oseq b)]) ++ flat_map (trig_items i) t).
Proof. unfold config_base. apply writes_then; [apply writes_then; apply writes_set|]. apply writes_each. intros [z tr] _. unfold trig_items. cbn [fst snd]. apply writes_then; apply writes_opt; intros; apply writes_set. Qed.
Lemma writes_io i s : Writes d (config_io d i s) (io_items i s).
Proof. unfold config_io, io_items. repeat apply writes_then; try apply writes_set; try (apply writes_opt; intros; apply writes_set); try (apply writes_each; intros; apply writes_set).
  destruct (trace_type s) as [t|]; cbn [when_some]; [|apply writes_ret]. unfold trace_items. destruct (String.eqb t "scope"); [apply writes_then; apply writes_set|]. destruct (String.eqb t "timetag"); [apply writes_then; apply writes_set|apply writes_ret]. Qed.
Lemma writes_prepare p : Writes d (prepare_qtm d p) ((([] ++ off_items) ++ flat_map name_items (p_seqs p)) ++ [] ++ []).
Proof. unfold prepare_qtm. rewrite app_assoc. apply writes_then; [apply writes_then; [apply writes_then|]|].
  - apply writes_then.
    + unfold prepare_base. change (@nil item) with (@nil item ++ []). apply writes_then; [apply writes_names|apply writes_nco].
    + unfold disable_sync, off_items. apply writes_each. intros. apply writes_set.
  - unfold each_seq. apply writes_each. intros [n s] _. unfold name_items, seq_of. cbn [fst snd]. destruct (seq_index QTM n) as [i|].
    + intros c c' h. unfold bnd, ret in h. revert h. apply writes_then; [apply writes_base_t|apply writes_io].
    + intros c c' h. discriminate h.
  - destruct (p_mapping p); apply writes_mgr.
  - destruct (p_settings p); cbn [when_some config_global]; apply writes_ret. Qed.

Lemma in_opt {A} (o : option A) f it : In it (opt o f) <-> exists a, o = Some a /\ it = f a.
Proof. unfold opt. destruct o as [a|]; cbn; split.
  - intros [<-|[]]. eauto.
  - intros (b & e & ->). injection e as <-. auto.
  - intros [].
  - intros (b & e & _). discriminate. Qed.
Lemma ref_value s r v : RefValue s r v <-> v = time_ref_value s r.
Proof. unfold time_ref_value. split.
  - intros h. destruct h as [|n e|e|r n1 n2]; cbn [String.eqb Ascii.eqb Bool.eqb]; try rewrite e; try reflexivity. destruct (String.eqb_spec r "timestamp"); [congruence|]. destruct (String.eqb_spec r "port"); [congruence|auto].
  - intros ->. destruct (String.eqb_spec r "timestamp") as [->|n]; [constructor|]. destruct (String.eqb_spec r "port") as [->|m]; [|constructor; auto]. destruct (time_ref_channel s) eqn:E; [now constructor|]. now constructor. Qed.
Lemma items_wants i s l q v : In (l, q, v) (seq_items i s ++ io_items i s) <-> QtmWants i s l q v.
Proof. split.
  - intros h. apply in_app_iff in h. destruct h as [h|h].
    + unfold seq_items in h. rewrite !in_app_iff in h. destruct h as [[[h|[]]|[h|[]]]|h].
      * injection h as <- <- <-. constructor.
      * injection h as <- <- <-. destruct (tt_sequence s) eqn:E; cbn; constructor; auto.
      * apply in_flat_map in h. destruct h as ([a t] & hin & h). unfold trig_items in h. cbn [fst snd] in h. apply in_app_iff in h. destruct h as [h|h]; apply in_opt in h; destruct h as (x & e & h); injection h as -> -> ->; econstructor; eauto.
    + unfold io_items in h. rewrite !in_app_iff in h. repeat match type of h with _ \/ _ => destruct h as [h|h] end;
      try (apply in_opt in h; destruct h as (x & e & h); injection h as -> -> ->; econstructor; eauto; fail);
      try (destruct h as [h|[]]; injection h as <- <- <-; constructor; fail).
      * apply in_flat_map in h. destruct h as (ch & hin & [h|[]]). injection h as <- <- <-. now constructor.
      * apply in_flat_map in h. destruct h as (ch & hin & [h|[]]). injection h as <- <- <-. now constructor.
      * destruct (trace_type s) as [t|] eqn:E; [|destruct h]. unfold trace_items in h. destruct (String.eqb_spec t "scope") as [->|n].
        { destruct h as [h|[h|[]]]; injection h as <- <- <-; constructor; auto. }
        destruct (String.eqb_spec t "timetag") as [->|m]; [|destruct h]. destruct h as [h|[h|[]]]; injection h as <- <- <-; constructor; auto.
      * apply in_opt in h. destruct h as (x & e & h). injection h as -> -> ->. econstructor; eauto. now apply ref_value.
  - assert (O : forall A (o : option A) f a, o = Some a -> In (f a) (opt o f)) by (intros; apply in_opt; eauto).
    assert (T : forall t it, trace_type s = Some t -> In it (trace_items i t) -> In it (match trace_type s with Some t => trace_items i t | None => [] end)) by (intros t it -> hh; exact hh).
    intros h. destruct h; unfold seq_items, io_items.
    all: let leaf := first [apply in_eq | apply in_flat_map; eexists; split; [eassumption|]; first [apply in_eq | unfold trig_items; cbn [fst snd]; apply in_or_app; first [left; apply in_opt; eexists; split; [eassumption|reflexivity] | right; apply in_opt; eexists; split; [eassumption|reflexivity]]]
                   | apply in_opt; eexists; split; [eassumption|reflexivity]] in
         let rec go := first [leaf | apply in_or_app; left; go | apply in_or_app; right; go] in try go.
    + apply in_or_app. left. apply in_or_app. left. apply in_or_app. right. rewrite H. apply in_eq.
    + apply in_or_app. left. apply in_or_app. left. apply in_or_app. right. rewrite H. apply in_eq.
    + apply in_or_app. right. do 7 (apply in_or_app; left). apply in_or_app. right. destruct H as [H|H]; eapply T; eauto; cbn; auto.
    + apply in_or_app. right. do 7 (apply in_or_app; left). apply in_or_app. right. eapply T; eauto; cbn; auto.
    + apply in_or_app. right. do 7 (apply in_or_app; left). apply in_or_app. right. eapply T; eauto; cbn; auto.
    + apply in_or_app. right. do 5 (apply in_or_app; left). apply in_or_app. right. apply in_opt. exists r. split; [auto|]. apply ref_value in H0. now subst. Qed.

Lemma qwants_not_bt i s l p v w : QtmWants i s l p v -> bt_ignored p w = false.
Proof. intros h. destruct h; try reflexivity; apply bt_no_b, lacks_app; (split; [nolack|]); apply lacks_app; (split; [apply dec_lacks_b|nolack]). Qed.
Definition not_mode (q : string) : Prop := q <> "mode".
Lemma qwants_det i s l p v w : NoDup (map fst (tt_triggers s)) -> (forall ch, In ch (tt_ins s) -> ~ In ch (tt_outs s)) -> QtmWants i s l p v -> QtmWants i s l p w -> v = w.
Proof. intros nd nm h1 h2. destruct h1; inversion h2; try reflexivity; try congruence; subst;
  try match goal with H : (dec_Z _ ++ _)%string = (dec_Z _ ++ _)%string |- _ => apply first_split in H; [|apply dec_lacks_us..]; destruct H as [H ?]; apply ZiIds.dec_inj in H; subst; try discriminate;
     match goal with H1 : In (?a, ?t1) _, H2 : In (?a, ?t2) _ |- _ => assert (t1 = t2) as <- by (eapply nodup_fst_inj; eauto); congruence end end;
  try (exfalso; eapply nm; eassumption).
  match goal with H1 : time_ref s = Some ?a, H2 : time_ref s = Some ?b |- _ => rewrite H1 in H2; injection H2 as <- end.
  match goal with H1 : RefValue _ _ _, H2 : RefValue _ _ _ |- _ => apply ref_value in H1; apply ref_value in H2; congruence end. Qed.
(** wants of different sequencers meet only on the mode of a channel *)
Lemma qwants_owner i s l p v : QtmWants i s l p v -> (l = LSeq i \/ l = LIo i) \/ (exists ch, l = LIo ch /\ p = "mode" /\ ((In ch (tt_ins s) /\ v = VStr "input") \/ (In ch (tt_outs s) /\ v = VStr "output"))).
Proof. intros h. destruct h; auto; right; eauto 8. Qed.
Lemma qmode i s l v : QtmWants i s l "mode" v -> exists ch, l = LIo ch /\ ((In ch (tt_ins s) /\ v = VStr "input") \/ (In ch (tt_outs s) /\ v = VStr "output")).
Proof. intros h. inversion h; subst; try discriminate; eauto. Qed.
Lemma prog_det p l q v w : QtmProgram p -> ProgWants p l q v -> ProgWants p l q w -> v = w.
Proof. intros [n1 n2 n3] (i & s & hi & h1) (j & t & hj & h2). destruct (String.string_dec q "mode") as [->|nq].
  - apply qmode in h1. apply qmode in h2. destruct h1 as (ch & -> & h1), h2 as (ch' & e & h2). injection e as <-.
    destruct h1 as [[a ->]|[a ->]], h2 as [[b ->]|[b ->]]; auto; exfalso; [eapply (n3 _ s _ t); eauto|eapply (n3 _ t _ s); eauto].
  - destruct (qwants_owner _ _ _ _ _ h1) as [o1|(ch & _ & e & _)]; [|congruence]. destruct (qwants_owner _ _ _ _ _ h2) as [o2|(ch & _ & e & _)]; [|congruence].
    assert (i = j) as <- by (destruct o1, o2; congruence). assert (s = t) as <- by (eapply nodup_fst_inj; eauto). eapply qwants_det; eauto. Qed.

Lemma prog_items p l q v : (forall n s, In (n, s) (p_seqs p) -> exists i, n = seq_name i /\ (i < 8)%nat) -> In (l, q, v) (flat_map name_items (p_seqs p)) <-> ProgWants p l q v.
Proof. intros g. rewrite in_flat_map. split.
  - intros ([n s] & hin & h). unfold name_items in h. cbn [fst snd] in h. destruct (seq_index QTM n) as [i|] eqn:E; [|destruct h]. apply seq_index_some in E. destruct E as [-> _]. exists i, s. split; [auto|]. now apply items_wants.
  - intros (i & s & hin & h). exists (seq_name i, s). split; [auto|]. unfold name_items. cbn [fst snd]. destruct (g _ _ hin) as (j & e & lt). apply seq_name_inj in e as <-. assert (seq_index QTM (seq_name i) = Some i) as -> by (apply seq_index_some; auto). now apply items_wants. Qed.
Lemma qtm_names p c c' : prepare_qtm d p c = (c', Ok tt) -> forall n s, In (n, s) (p_seqs p) -> exists i, n = seq_name i /\ (i < 8)%nat.
Proof. intros h n s hin. unfold prepare_qtm in h. apply then_ok in h. destruct h as (c1 & h & _). apply then_ok in h. destruct h as (c2 & h & _). apply then_ok in h. destruct h as (c3 & _ & h).
  unfold each_seq in h. revert c3 h. induction (p_seqs p) as [|[m t] l IH]; intros c3 h; [destruct hin|]. cbn [for_each] in h. apply then_ok in h. destruct h as (c4 & h1 & h2).
  destruct hin as [e|hin]; [|eapply IH; eauto]. assert (e1 := f_equal fst e). cbn [fst] in e1. subst m. unfold bnd, seq_of in h1. destruct (seq_index QTM n) as [i|] eqn:F; [|discriminate]. apply seq_index_some in F. exists i. exact F. Qed.
Lemma off_in l q v : In (l, q, v) off_items <-> exists i, (i < 8)%nat /\ l = LSeq i /\ q = "sync_en" /\ v = VBool false.
Proof. unfold off_items. rewrite in_flat_map. split.
  - intros (i & hi & [h|[]]). apply in_seq in hi. injection h as <- <- <-. exists i. repeat split; auto. lia.
  - intros (i & hi & -> & -> & ->). exists i. split; [apply in_seq; lia|cbn; auto]. Qed.
Lemma prepare_mem p c c' : prepare_qtm d p c = (c', Ok tt) -> mem c' = fold_left (wr d) (flat_map name_items (p_seqs p)) (fold_left (wr d) off_items (mem c)) /\ Forall (settable d) (off_items ++ flat_map name_items (p_seqs p)).
Proof. intros h. apply writes_prepare in h. destruct h as [e f]. rewrite app_nil_r in *. cbn [app] in *. rewrite fold_left_app in e. auto. Qed.

Lemma qtm_holds p c c' l q v : QtmProgram p -> Ready d (mem c) -> prepare_qtm d p c = (c', Ok tt) -> ProgWants p l q v -> has d l q = true /\ Holds (mem c') l q v.
Proof. intros qp g h w. assert (nm := qtm_names _ _ _ h). destruct (prepare_mem _ _ _ h) as [e f]. assert (I : In (l, q, v) (flat_map name_items (p_seqs p))) by (apply prog_items; auto).
  assert (st : settable d (l, q, v)) by (rewrite Forall_forall in f; apply f, in_or_app; auto). cbn in st. destruct w as (i & s & hin & w). rewrite (qwants_not_bt _ _ _ _ _ v w) in st. destruct st as [st|]; [|discriminate]. split; [auto|].
  rewrite e. destruct (wrs_last d (flat_map name_items (p_seqs p)) l q st) with (m := fold_left (wr d) off_items (mem c)) as (v' & hv & r).
  - apply in_map_iff. exists (l, q, v). auto.
  - destruct g as [g|g]; [left; now apply wrs_coherent|now right].
  - apply prog_items in hv; auto. assert (v = v') as <- by (eapply prog_det; eauto; exists i, s; auto). exact r. Qed.
Lemma qtm_frame p c c' l q : prepare_qtm d p c = (c', Ok tt) -> (forall v, ~ ProgWants p l q v) -> mem c' l q = fold_left (wr d) off_items (mem c) l q.
Proof. intros h n. assert (nm := qtm_names _ _ _ h). destruct (prepare_mem _ _ _ h) as [e _]. rewrite e. apply wrs_other. intros hi. apply in_map_iff in hi. destruct hi as ([[l0 q0] v] & hl & hi). cbn in hl. injection hl as -> ->. apply prog_items in hi; auto. eapply n; eauto. Qed.
End D.

(** Every parameter the program determines has the program's value *)
Theorem C54_qtm : forall d p c c', QtmProgram p -> Coherent (mem c) \/ force_set d = true -> prepare_qtm d p c = (c', Ok tt) ->
  forall l q v, ProgWants p l q v -> has d l q = true /\ Holds (mem c') l q v.
Proof. intros d p c c' qp g h l q v w. eapply qtm_holds; eauto. Qed.
(** and nothing else changes, except that the synchronisation of the other sequencers is disabled *)
Theorem C54_qtm_frame : forall d p c c', prepare_qtm d p c = (c', Ok tt) -> forall l q, (forall v, ~ ProgWants p l q v) -> (forall i, (i < 8)%nat -> (l, q) <> (LSeq i, "sync_en")) -> mem c' l q = mem c l q.
Proof. intros d p c c' h l q n ne. rewrite (qtm_frame d p c c' l q h n). apply wrs_other. intros hi. apply in_map_iff in hi. destruct hi as ([[l0 q0] v] & hl & hi). cbn in hl. injection hl as -> ->. apply off_in in hi. destruct hi as (i & lt & -> & -> & _). eapply ne; eauto. Qed.
Theorem C54_qtm_unused : forall d p c c', Coherent (mem c) \/ force_set d = true -> prepare_qtm d p c = (c', Ok tt) -> forall i, (i < 8)%nat -> ~ In (seq_name i) (map fst (p_seqs p)) -> Holds (mem c') (LSeq i) "sync_en" (VBool false).
Proof. intros d p c c' g h i lt n. unfold Holds. rewrite (qtm_frame d p c c' _ _ h).
  - destruct (prepare_mem d _ _ _ h) as [_ f]. assert (I : In (LSeq i, "sync_en", VBool false) off_items) by (apply off_in; eauto 6). assert (st : settable d (LSeq i, "sync_en", VBool false)) by (rewrite Forall_forall in f; apply f, in_or_app; auto). cbn in st. destruct st as [st|]; [|discriminate].
    destruct (wrs_last d off_items (LSeq i) "sync_en" st) with (m := mem c) as (v & hv & r); auto; [apply in_map_iff; exists (LSeq i, "sync_en", VBool false); auto|]. apply off_in in hv. destruct hv as (j & _ & _ & _ & ->). exact r.
  - intros v (j & s & hin & w). destruct (qwants_owner _ _ _ _ _ w) as [[e|e]|(ch & e & _)]; try discriminate. injection e as <-. apply n. apply in_map_iff. exists (seq_name i, s). auto. Qed.
(** It is accepted by a driver that accepts everything, exactly when the names are those of the 8 sequencers *)
Theorem C54_qtm_names : forall d p c c', prepare_qtm d p c = (c', Ok tt) -> forall n s, In (n, s) (p_seqs p) -> exists i, n = seq_name i /\ (i < 8)%nat.
Proof. exact qtm_names. Qed.
