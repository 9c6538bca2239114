(** The table of a sequencer is exactly [SeqWants]; [SeqWants] is functional; no name is one of the optional bias-tee names. *)
From Coq Require Import Ascii.
From Verif Require Import Base PathModel PathProps6 JsonModel JsonProps2 ZiIds LibThms4 LibThms7 QbModel QbSpec QbProps QbSeq.
Local Open Scope string_scope.
Local Open Scope list_scope.

Lemma in_base k s p v : In (p, v) (base_table (sync_en s) (sequence s) (triggers s)) -> SeqWants k s p v.
Proof. unfold base_table. rewrite !in_app_iff. intros [[h|h]|h].
  - destruct h as [h|[]]. injection h as <- <-. apply w_sync.
  - destruct h as [h|[]]. injection h as <- <-. destruct (sequence s) eqn:E; cbn [oseq]; [now apply w_sequence|now apply w_nosequence].
  - apply in_triggers in h. destruct h as (a & t & i & [(b & e & -> & ->)|(b & e & -> & ->)]); [eapply w_invert; eauto|eapply w_count; eauto]. Qed.
Lemma in_analog k s p v : k <> QTM -> In (p, v) (analog_table k s) -> SeqWants k s p v.
Proof. intros hk. unfold analog_table. rewrite !in_app_iff. intros [[[[[h|h]|h]|h]|h]|[h|h]].
  - destruct (nco_en s) eqn:E; [|destruct h]. destruct h as [h|[]]. injection h as <- <-. destruct (mod_freq s) eqn:F; cbn [onum]; [now apply w_nco|now apply w_nonco].
  - destruct h as [h|[]]. injection h as <- <-. constructor.
  - destruct h as [h|[]]. injection h as <- <-. constructor.
  - destruct h as [h|[]]. injection h as <- <-. constructor.
  - destruct h as [h|[]]. injection h as <- <-. constructor.
  - apply in_map_table in h; [|auto]. destruct h as [(ch & w & l & o & -> & ->)|(w & i & ->)]; [now apply w_out|now apply w_in].
  - now apply in_base. Qed.
Definition rd (s : aset) : list table :=
  [opt (integration_length s) (fun n => [("integration_length_acq", vint n)]); opt (ttl_auto s) (fun b => [("ttl_acq_auto_bin_incr_en", VBool b)]); opt (ttl_threshold s) (fun q => [("ttl_acq_threshold", VNum q)]);
   opt (ttl_input s) (fun n => [("ttl_acq_input_select", vint n)]); opt (thr_rotation s) (fun q => [("thresholded_acq_rotation", VNum q)]); opt (thr_threshold s) (fun q => [("thresholded_acq_threshold", VNum q)]);
   opt (write_address s) (fun n => [("thresholded_acq_trigger_address", vint n)]); opt (write_en s) (fun b => [("thresholded_acq_trigger_en", VBool b)] ++ [("thresholded_acq_trigger_invert", VBool (write_invert s))])].
Lemma rd_table s : readout_table s = List.concat (rd s).
Proof. unfold readout_table, rd. cbn [List.concat]. rewrite app_nil_r, <- !app_assoc. reflexivity. Qed.
Lemma in_rd s x n t : nth_error (rd s) n = Some t -> In x t -> In x (readout_table s).
Proof. intros h i. rewrite rd_table. apply in_concat. exists t. split; [eapply nth_error_In; eauto|auto]. Qed.
Lemma in_readout k s p v : readout k -> In (p, v) (readout_table s) -> SeqWants k s p v.
Proof. intros hk. rewrite rd_table, in_concat. intros (t & ht & h). unfold rd in ht. cbn [In] in ht.
  repeat (destruct ht as [<-|ht]); [..|destruct ht]; apply in_opt in h; destruct h as (a & e & h); cbn in h; repeat (destruct h as [h|h]; [injection h as <- <-|]); try destruct h; econstructor; eauto. Qed.
Lemma table_wants k s p v : k <> QTM -> In (p, v) (seq_table k s) -> SeqWants k s p v.
Proof. intros hk. assert (R : forall k', k' = QRM \/ k' = QRM_RF \/ k' = QRC -> readout k') by (unfold readout; auto). assert (T : k = QRC -> nco_en s = false -> In (p, v) (seq_table k s) -> False) by (intros -> e; cbn [seq_table]; rewrite e; cbn; auto).
  intros h. assert (NQ : k = QRC -> nco_en s = true) by (intros ->; destruct (nco_en s); [auto|exfalso; auto]). clear T. revert h.
  destruct k; cbn [seq_table]; [| | | | |congruence]; rewrite ?NQ by auto; cbn [negb]; unfold mod_t, demod_t, ovr_t; rewrite ?in_app_iff; intros h;
  repeat match goal with H : _ \/ _ |- _ => destruct H as [H|H] end;
  try (apply in_analog; [discriminate|assumption]);
  try (apply in_readout; [apply R; auto|assumption]);
  destruct h as [h|[]]; injection h as <- <-; try (now apply w_mod); try (apply w_demod; auto); try (apply w_ovr; unfold rf; auto). Qed.
Lemma wants_base k s p v : k <> QTM -> (k = QRC -> nco_en s = true) -> In (p, v) (base_table (sync_en s) (sequence s) (triggers s)) -> In (p, v) (seq_table k s).
Proof. intros hk hq h. assert (In (p, v) (analog_table k s)) by (unfold analog_table; rewrite !in_app_iff; auto). destruct k; cbn [seq_table]; rewrite ?hq by auto; cbn [negb]; rewrite ?in_app_iff; auto. congruence. Qed.
Lemma wants_analog k s p v : k <> QTM -> (k = QRC -> nco_en s = true) -> In (p, v) (analog_table k s) -> In (p, v) (seq_table k s).
Proof. intros hk hq h. destruct k; cbn [seq_table]; rewrite ?hq by auto; cbn [negb]; rewrite ?in_app_iff; auto; congruence. Qed.
Lemma wants_readout k s p v : readout k -> (k = QRC -> nco_en s = true) -> In (p, v) (readout_table s) -> In (p, v) (seq_table k s).
Proof. unfold readout. intros hk hq h. destruct k; try (exfalso; intuition congruence); cbn [seq_table]; rewrite ?hq by auto; cbn [negb]; rewrite ?in_app_iff; auto. Qed.
Lemma wants_table k s p v : k <> QTM -> (k = QRC -> nco_en s = true) -> SeqWants k s p v -> In (p, v) (seq_table k s).
Proof. intros hk hq h. destruct h.
  1-3: apply wants_base; auto; unfold base_table; rewrite !in_app_iff; cbn; rewrite ?H; cbn; auto.
  1-2: apply wants_analog; auto; unfold analog_table; rewrite !in_app_iff, H, H0; cbn; auto 10.
  - destruct k; try congruence; cbn [seq_table]; rewrite ?in_app_iff; cbn; auto 10.
  - destruct H; subst; cbn [seq_table]; rewrite ?in_app_iff; cbn; auto 10.
  - apply wants_analog; auto; unfold analog_table; rewrite !in_app_iff; cbn; auto 10.
  - apply wants_analog; auto; unfold analog_table; rewrite !in_app_iff; cbn; auto 10.
  - apply wants_analog; auto; unfold analog_table; rewrite !in_app_iff; cbn; auto 10.
  - apply wants_analog; auto; unfold analog_table; rewrite !in_app_iff; cbn; auto 10.
  - apply wants_analog; auto; unfold analog_table; rewrite !in_app_iff. right. left. apply in_map_table; [auto|]. left. eauto 10.
  - apply wants_analog; auto; unfold analog_table; rewrite !in_app_iff. right. left. apply in_map_table; [auto|]. right. eauto.
  - apply wants_base; auto; unfold base_table; rewrite in_app_iff. right. apply in_triggers. exists a, t. split; [auto|]. left. eauto.
  - apply wants_base; auto; unfold base_table; rewrite in_app_iff. right. apply in_triggers. exists a, t. split; [auto|]. right. eauto.
  - unfold rf in H. destruct k; try (exfalso; intuition congruence); cbn [seq_table]; rewrite ?hq by auto; cbn [negb]; rewrite ?in_app_iff; cbn; auto 10.
  - apply wants_readout; auto. apply (in_rd _ _ 0 _ eq_refl), in_opt. eexists. split; [eauto|cbn; auto].
  - apply wants_readout; auto. apply (in_rd _ _ 1 _ eq_refl), in_opt. eexists. split; [eauto|cbn; auto].
  - apply wants_readout; auto. apply (in_rd _ _ 2 _ eq_refl), in_opt. eexists. split; [eauto|cbn; auto].
  - apply wants_readout; auto. apply (in_rd _ _ 3 _ eq_refl), in_opt. eexists. split; [eauto|cbn; auto].
  - apply wants_readout; auto. apply (in_rd _ _ 4 _ eq_refl), in_opt. eexists. split; [eauto|cbn; auto].
  - apply wants_readout; auto. apply (in_rd _ _ 5 _ eq_refl), in_opt. eexists. split; [eauto|cbn; auto].
  - apply wants_readout; auto. apply (in_rd _ _ 6 _ eq_refl), in_opt. eexists. split; [eauto|cbn; auto].
  - apply wants_readout; auto. apply (in_rd _ _ 7 _ eq_refl), in_opt. eexists. split; [eauto|cbn; auto].
  - apply wants_readout; auto. apply (in_rd _ _ 7 _ eq_refl), in_opt. eexists. split; [eauto|cbn; auto]. Qed.

(** ** Functionality *)
Lemma nodup_fst_inj {A B} (l : list (A * B)) a b c : NoDup (map fst l) -> In (a, b) l -> In (a, c) l -> b = c.
Proof. induction l as [|[x y] l IH]; cbn; [intros _ []|]. intros nd h1 h2. inversion nd; subst. destruct h1 as [h1|h1], h2 as [h2|h2]; [congruence| | |eauto].
  - injection h1 as -> ->. exfalso. apply H1. apply in_map_iff. now exists (a, c).
  - injection h2 as -> ->. exfalso. apply H1. apply in_map_iff. now exists (a, b). Qed.
Lemma first_split : forall a b x y : string, lacks "_"%char a -> lacks "_"%char b -> (a ++ String "_"%char x)%string = (b ++ String "_"%char y)%string -> a = b /\ x = y.
Proof. induction a as [|c a IH]; intros [|e b] x y ha hb h; cbn [append] in h.
  - injection h as <-. auto.
  - injection h as <- _. destruct hb. congruence.
  - injection h as -> _. destruct ha. congruence.
  - injection h as <- h. destruct ha, hb. apply IH in h; auto. destruct h as [<- <-]. auto. Qed.
Lemma dec_lacks_us a : lacks "_"%char (dec_Z a).
Proof. apply lacks_dec. unfold digit_like. cbn. intuition discriminate. Qed.
Lemma trigger_name_inj a b (x y : string) : ("trigger" ++ dec_Z a ++ String "_"%char x)%string = ("trigger" ++ dec_Z b ++ String "_"%char y)%string -> a = b /\ x = y.
Proof. intros h. apply str_cancel_l in h. apply first_split in h; auto using dec_lacks_us. destruct h as [h1 h2]. apply ZiIds.dec_inj in h1. auto. Qed.
Lemma out_name_inj a b : ("connect_out" ++ dec_n a)%string = ("connect_out" ++ dec_n b)%string -> a = b.
Proof. intros h. apply str_cancel_l in h. apply ZiIds.dec_inj in h. lia. Qed.

Lemma inconn_name k s p v : InConn k s p v -> In p ["connect_acq_I"; "connect_acq_Q"; "connect_acq"].
Proof. intros h. destruct h; cbn; auto. Qed.
(** what a name says about the constructor *)
Definition cls (p : string) : nat :=
  if String.prefix "connect_out" p then 1 else if String.prefix "connect_acq" p then 2 else if String.prefix "trigger" p then 3 else 0.
Lemma wants_det k s p v w : NoDup (map fst (triggers s)) -> SeqWants k s p v -> SeqWants k s p w -> v = w.
Proof. intros nd h1 h2. destruct h1; inversion h2; try reflexivity; try congruence; subst;
  try match goal with H : dec_n _ = dec_n _ |- _ => apply ZiIds.dec_inj, Nat2Z.inj in H; subst; f_equal; eapply outconn_det; eassumption end;
  try match goal with H : InConn _ _ _ _, H' : InConn _ _ _ _ |- _ => f_equal; eapply inconn_det; eassumption end;
  try match goal with H : InConn _ _ _ _ |- _ => apply inconn_name in H; cbn in H; exfalso; intuition discriminate end;
  try match goal with H : (dec_Z _ ++ _)%string = (dec_Z _ ++ _)%string |- _ => apply first_split in H; [|apply dec_lacks_us..]; destruct H as [H ?]; apply ZiIds.dec_inj in H; subst; try discriminate; 
     match goal with H1 : In (?a, ?t1) _, H2 : In (?a, ?t2) _ |- _ => assert (t1 = t2) as <- by (eapply nodup_fst_inj; eauto); congruence end end. Qed.
