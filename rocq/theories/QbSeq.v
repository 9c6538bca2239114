(** The sequencer parameters: the writes of [config_seq] are what the specification wants. *)
From Verif Require Import Base PathModel PathProps6 JsonModel JsonProps2 ZiIds LibThms7 QbModel QbSpec QbProps.
Local Open Scope string_scope.
Local Open Scope list_scope.

Definition table := list (string * value).
Definition at_loc (l : loc) (t : table) : list item := map (fun '(p, v) => (l, p, v)) t.
Definition opt {A} (o : option A) (f : A -> table) : table := match o with Some a => f a | None => [] end.
Section D.
Variable d : driver.
Definition LW (l : loc) (m : M unit) (t : table) : Prop := Writes d m (at_loc l t).
Lemma lw_then l m n a b : LW l m a -> LW l n b -> LW l (m >> n) (a ++ b).
Proof. unfold LW, at_loc. rewrite map_app. apply writes_then. Qed.
Lemma lw_set l p v : LW l (set_parameter d l p v) [(p, v)].
Proof. apply writes_set. Qed.
Lemma lw_when {A} l (o : option A) f g : (forall a, LW l (f a) (g a)) -> LW l (when_some o f) (opt o g).
Proof. intros h. destruct o; [apply h|apply writes_ret]. Qed.
Lemma lw_each {A} l (xs : list A) f g : (forall a, LW l (f a) (g a)) -> LW l (for_each xs f) (flat_map g xs).
Proof. intros h. induction xs as [|x xs IH]; cbn [for_each flat_map]; [apply writes_ret|]. now apply lw_then. Qed.

Definition trigger_table (trg : list (Z * trigger)) : table :=
  flat_map (fun '(a, t) => opt (t_invert t) (fun b => [(("trigger" ++ dec_Z a ++ "_threshold_invert")%string, VBool b)]) ++ opt (t_count t) (fun n => [(("trigger" ++ dec_Z a ++ "_count_threshold")%string, vint n)])) trg.
Definition base_table (sync : bool) (sq : option string) (trg : list (Z * trigger)) : table := ([("sync_en", VBool sync)] ++ [("sequence", oseq sq)]) ++ trigger_table trg.
Lemma base_writes i sync sq trg : LW (LSeq i) (config_base d i sync sq trg) (base_table sync sq trg).
Proof. unfold config_base, base_table, trigger_table. apply lw_then; [apply lw_then; apply lw_set|]. apply lw_each. intros [a t]. apply lw_then; apply lw_when; intros; apply lw_set. Qed.

Definition map_table (k : kind) (s : aset) : table := flat_map (fun '(p, v) => [(p, VStr v)]) (channel_map k s).
Definition analog_table (k : kind) (s : aset) : table :=
  (((((if nco_en s then [("nco_freq", onum (mod_freq s))] else []) ++ [("offset_awg_path0", VNum (offset_I s))]) ++ [("offset_awg_path1", VNum (offset_Q s))]) ++ [("gain_awg_path0", VNum (gain_I s))]) ++ [("gain_awg_path1", VNum (gain_Q s))]) ++ map_table k s ++ base_table (sync_en s) (sequence s) (triggers s).
Lemma nco_writes i s : LW (LSeq i) (if nco_en s
   then (if has d (LSeq i) "nco_freq" then bnd (gets (fun c => same_as_cache (mem c) (LSeq i) "nco_freq" (onum (mod_freq s)))) (fun same => set_nco (nco_put i (negb same))) else raise ValueError) >>
        set_parameter d (LSeq i) "nco_freq" (onum (mod_freq s))
   else set_nco (nco_put i false)) (if nco_en s then [("nco_freq", onum (mod_freq s))] else []).
Proof. destruct (nco_en s); [|apply writes_nco]. apply (lw_then _ _ _ [] [("nco_freq", onum (mod_freq s))]); [|apply lw_set]. destruct (has d (LSeq i) "nco_freq"); [|apply writes_raise]. apply writes_gets. intros. apply writes_nco. Qed.
Lemma analog_writes k i s : LW (LSeq i) (config_analog d k i s) (analog_table k s).
Proof. unfold config_analog, analog_table. rewrite app_assoc. apply lw_then; [apply lw_then|apply base_writes].
  - repeat (apply lw_then; [|apply lw_set]). apply nco_writes.
  - apply lw_each. intros [p v]. apply lw_set. Qed.
Definition readout_table (s : aset) : table :=
  (((((((opt (integration_length s) (fun n => [("integration_length_acq", vint n)]) ++ opt (ttl_auto s) (fun b => [("ttl_acq_auto_bin_incr_en", VBool b)])) ++ opt (ttl_threshold s) (fun q => [("ttl_acq_threshold", VNum q)])) ++
  opt (ttl_input s) (fun n => [("ttl_acq_input_select", vint n)])) ++ opt (thr_rotation s) (fun q => [("thresholded_acq_rotation", VNum q)])) ++ opt (thr_threshold s) (fun q => [("thresholded_acq_threshold", VNum q)])) ++
  opt (write_address s) (fun n => [("thresholded_acq_trigger_address", vint n)])) ++ opt (write_en s) (fun b => [("thresholded_acq_trigger_en", VBool b)] ++ [("thresholded_acq_trigger_invert", VBool (write_invert s))])).
Lemma readout_writes i s : LW (LSeq i) (config_readout d i s) (readout_table s).
Proof. unfold config_readout, readout_table. repeat (apply lw_then; [|apply lw_when; intros; try apply lw_then; apply lw_set]). apply lw_when. intros. apply lw_set. Qed.
Definition mod_t (s : aset) : table := [("mod_en_awg", VBool (nco_en s))].
Definition demod_t (s : aset) : table := [("demod_en_acq", VBool (nco_en s))].
Definition ovr_t : table := [("marker_ovr_en", VBool false)].
Definition seq_table (k : kind) (s : aset) : table :=
  match k with
  | QCM => mod_t s ++ analog_table k s
  | QCM_RF => (mod_t s ++ analog_table k s) ++ ovr_t
  | QRM => (mod_t s ++ demod_t s) ++ (analog_table k s ++ readout_table s)
  | QRM_RF => ((mod_t s ++ demod_t s) ++ (analog_table k s ++ readout_table s)) ++ ovr_t
  | QRC => if negb (nco_en s) then [] else (analog_table k s ++ readout_table s) ++ ovr_t
  | QTM => []
  end.
Lemma seq_writes k i s : LW (LSeq i) (config_seq d k i s) (seq_table k s).
Proof. destruct k; cbn [config_seq seq_table].
  - apply lw_then; [apply lw_set|apply analog_writes].
  - apply lw_then; [apply lw_then; apply lw_set|]. apply lw_then; [apply analog_writes|apply readout_writes].
  - apply lw_then; [|apply lw_set]. apply lw_then; [apply lw_set|apply analog_writes].
  - apply lw_then; [|apply lw_set]. apply lw_then; [apply lw_then; apply lw_set|]. apply lw_then; [apply analog_writes|apply readout_writes].
  - destruct (nco_en s); cbn [negb]; [|apply writes_raise]. apply lw_then; [|apply lw_set]. apply lw_then; [apply analog_writes|apply readout_writes].
  - apply writes_ret. Qed.
End D.

(** ** The table is the specification *)
Lemma occurs_contains pat s : contains pat s = true <-> Occurs pat s.
Proof. unfold Occurs. now rewrite contains_spec. Qed.
Lemma occurs_not pat s : contains pat s = false <-> ~ Occurs pat s.
Proof. rewrite <- occurs_contains. destruct (contains pat s); intuition congruence. Qed.
Lemma zmem_in z l : zmem z l = true <-> In z l.
Proof. unfold zmem. rewrite existsb_exists. split; [intros (x & h & e); apply Z.eqb_eq in e; congruence|intros h; exists z; split; auto; apply Z.eqb_refl]. Qed.
Lemma zlist_eqb_eq a : forall b, zlist_eqb a b = true <-> a = b.
Proof. induction a as [|x a IH]; intros [|y b]; cbn; try (split; congruence). rewrite andb_true_iff, IH, Z.eqb_eq. split; [intros [-> ->]; auto|intros h; injection h; auto]. Qed.
Lemma nonempty_in {A} (x : A) l : In x l -> negb (Nat.eqb (List.length l) 0) = true.
Proof. destruct l; [intros []|auto]. Qed.
Lemma even_dec n : (Nat.even n = true /\ Nat.Even n) \/ (Nat.even n = false /\ Nat.Odd n).
Proof. destruct (Nat.Even_or_Odd n) as [h|h]; [left|right]; split; auto; [now apply Nat.even_spec|]. apply Nat.odd_spec in h. unfold Nat.odd in h. now destruct (Nat.even n). Qed.
Lemma even_odd n : Nat.Even n -> Nat.Odd n -> False.
Proof. intros [a h] [b e]. lia. Qed.

Lemma outconn_sound k s ch : k <> QTM -> OutConn k s ch (output_channel k s ch).
Proof. intros hk. unfold output_channel. destruct (is_rf k) eqn:R.
  - assert (rf k) by (unfold rf; destruct k; try discriminate; auto).
    destruct (contains "digital" (channel_name s)) eqn:D; cbn [negb andb].
    + apply oc_rfnot; auto. right. now apply occurs_contains.
    + destruct (zlist_eqb (outs s) [(2 * Z.of_nat ch)%Z; (2 * Z.of_nat ch + 1)%Z]) eqn:E.
      * apply zlist_eqb_eq in E. rewrite E at 1. cbn [List.length Nat.eqb negb andb]. apply oc_IQ; auto. now apply occurs_not.
      * rewrite andb_false_r. apply oc_rfnot; auto. left. intros q. apply zlist_eqb_eq in q. congruence.
  - assert (baseband k) by (unfold baseband; destruct k; try discriminate; auto; congruence).
    destruct (zmem (Z.of_nat ch) (outs s)) eqn:E.
    + apply zmem_in in E. rewrite (nonempty_in _ _ E). cbn [andb]. destruct (contains "complex" (channel_name s)) eqn:C.
      * apply occurs_contains in C. destruct (even_dec ch) as [[-> h]|[-> h]]; [apply oc_I|apply oc_Q]; auto.
      * apply occurs_not in C. destruct (contains "real" (channel_name s)) eqn:C2; [apply occurs_contains in C2; now apply oc_real|apply occurs_not in C2; apply oc_not; auto].
    + rewrite andb_false_r. apply oc_not; auto. left. intros q. apply zmem_in in q. congruence. Qed.
Lemma rf_not_baseband k : rf k -> baseband k -> False.
Proof. unfold rf, baseband. intuition congruence. Qed.
Lemma outconn_det k s ch v w : OutConn k s ch v -> OutConn k s ch w -> v = w.
Proof. intros h1 h2. destruct h1, h2; try reflexivity; exfalso; eauto using rf_not_baseband, even_odd; try contradiction; try tauto. Qed.
Lemma inconn_sound k s p v : In (p, v) (input_map k s) -> InConn k s p v.
Proof. destruct k; cbn [input_map n_in List.seq map In Nat.eqb]; try tauto.
  - intros [h|[h|[]]]; injection h as <- <-.
    + change (Z.of_nat 0) with 0%Z. destruct (zmem 0 (ins s)) eqn:E; [apply zmem_in in E; rewrite (nonempty_in _ _ E); now apply ic_I|rewrite andb_false_r; apply ic_Ioff; auto; intros q; apply zmem_in in q; cbn in E; congruence].
    + change (Z.of_nat 1) with 1%Z. destruct (zmem 1 (ins s)) eqn:E; [apply zmem_in in E; rewrite (nonempty_in _ _ E); now apply ic_Q|rewrite andb_false_r; apply ic_Qoff; auto; intros q; apply zmem_in in q; cbn in E; congruence].
  - intros [h|[]]. injection h as <- <-. destruct (zlist_eqb (ins s) [0; 1]%Z) eqn:E; [apply zlist_eqb_eq in E; apply ic_0; auto|apply ic_off; auto; [intros q; apply zlist_eqb_eq in q; congruence|discriminate]].
  - intros [h|[]]. injection h as <- <-. destruct (zlist_eqb (ins s) [0; 1]%Z) eqn:E; [apply zlist_eqb_eq in E; apply ic_0; auto|].
    assert (ins s <> [0; 1]%Z) by (intros q; apply zlist_eqb_eq in q; congruence).
    destruct (zlist_eqb (ins s) [2; 3]%Z) eqn:E2; [apply zlist_eqb_eq in E2; apply ic_1; auto|apply ic_off; auto]. intros _ q. apply zlist_eqb_eq in q. congruence. Qed.
Lemma inconn_det k s p v w : InConn k s p v -> InConn k s p w -> v = w.
Proof. intros h1 h2. destruct h1; inversion h2; subst; try reflexivity; try contradiction; try congruence; intuition congruence. Qed.
Lemma inconn_complete k s p v : InConn k s p v -> exists w, In (p, w) (input_map k s).
Proof. intros h. assert (E : In p (map fst (input_map k s))). { destruct h; subst; try (cbn; tauto); destruct k; cbn; intuition congruence. } apply in_map_iff in E. destruct E as ([q w] & <- & E). exists w. exact E. Qed.

Lemma in_opt {A} (o : option A) f x : In x (opt o f) <-> exists a, o = Some a /\ In x (f a).
Proof. destruct o; cbn; split; [eauto|intros (b & e & h); injection e as ->; auto|intros []|intros (b & e & _); discriminate]. Qed.
Lemma in_triggers trg p v : In (p, v) (trigger_table trg) <-> exists a t, In (a, t) trg /\ ((exists b, t_invert t = Some b /\ p = ("trigger" ++ dec_Z a ++ "_threshold_invert")%string /\ v = VBool b) \/ (exists n, t_count t = Some n /\ p = ("trigger" ++ dec_Z a ++ "_count_threshold")%string /\ v = vint n)).
Proof. unfold trigger_table. rewrite in_flat_map. split.
  - intros ([a t] & h & e). exists a, t. split; [auto|]. apply in_app_iff in e. destruct e as [e|e]; apply in_opt in e; destruct e as (x & ex & [e|[]]); injection e as <- <-; [left|right]; eauto.
  - intros (a & t & h & e). exists (a, t). split; [auto|]. apply in_app_iff. destruct e as [(b & e & -> & ->)|(b & e & -> & ->)]; [left|right]; apply in_opt; exists b; cbn; auto. Qed.
Lemma in_map_table k s p v : k <> QTM -> In (p, v) (map_table k s) <-> (exists ch w, (ch < n_out k)%nat /\ OutConn k s ch w /\ p = ("connect_out" ++ dec_n ch)%string /\ v = VStr w) \/ (exists w, InConn k s p w /\ v = VStr w).
Proof. intros hk. unfold map_table, channel_map. rewrite in_flat_map. split.
  - intros ([q w] & h & e). destruct e as [e|[]]. injection e as -> <-. apply in_app_iff in h. destruct h as [h|h].
    + left. unfold output_map in h. apply in_map_iff in h. destruct h as (ch & h & i). injection h as <- <-. apply in_seq in i. exists ch, (output_channel k s ch). split; [lia|]. split; [now apply outconn_sound|auto].
    + right. apply inconn_sound in h. eauto.
  - intros [(ch & w & h & o & -> & ->)|(w & h & ->)].
    + exists (("connect_out" ++ dec_n ch)%string, w). split; [|cbn; auto]. apply in_app_iff. left. unfold output_map. apply in_map_iff. exists ch. split; [|apply in_seq; lia]. f_equal. eapply outconn_det; [apply outconn_sound; auto|auto].
    + exists (p, w). split; [|cbn; auto]. apply in_app_iff. right. destruct (inconn_complete _ _ _ _ h) as (w' & i). assert (w' = w) as <- by (eapply inconn_det; [apply inconn_sound; eauto|auto]). auto. Qed.
