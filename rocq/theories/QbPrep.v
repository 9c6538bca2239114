(** The structure of [prepare] and its effect on the parameters of the sequencers. *)
From Coq Require Import Ascii.
From Verif Require Import Base PathModel PathProps6 JsonModel JsonProps2 ZiIds LibThms7 QbModel QbSpec QbProps QbSeq QbSeq2.
Local Open Scope string_scope.
Local Open Scope list_scope.

(** ** Names *)
Lemma occurs_lacks c pat s : Occurs pat s -> lacks c s -> lacks c pat.
Proof. intros (a & b & ->) h. apply lacks_app in h. destruct h as [_ h]. apply lacks_app in h. tauto. Qed.
Lemma bt_has_b suf p : In suf ["_bt_config"; "_bt_time_constant"] -> bt_name suf p = true -> lacks "b"%char p -> False.
Proof. intros hs h l. unfold bt_name in h. apply existsb_exists in h. destruct h as (b & hb & h). apply existsb_exists in h. destruct h as (e & he & h). apply occurs_contains in h. apply (occurs_lacks _ _ _ h) in l. apply lacks_app in l. destruct l as [_ l]. apply lacks_app in l. destruct l as [_ l]. destruct hs as [<-|[<-|[]]]; cbn in l; tauto. Qed.
Lemma bt_no_b p v : lacks "b"%char p -> bt_ignored p v = false.
Proof. intros h. unfold bt_ignored. destruct (bt_name "_bt_config" p) eqn:E; [exfalso; eapply bt_has_b; eauto; cbn; auto|]. destruct (bt_name "_bt_time_constant" p) eqn:E2; [exfalso; eapply bt_has_b; eauto; cbn; auto|reflexivity]. Qed.
Lemma dec_lacks_b a : lacks "b"%char (dec_Z a).
Proof. apply lacks_dec. unfold digit_like. cbn. intuition discriminate. Qed.
Ltac nolack := cbn [lacks]; repeat split; discriminate.
Lemma wants_not_bt k s p v w : SeqWants k s p v -> bt_ignored p w = false.
Proof. intros h. destruct h; try reflexivity.
  - apply bt_no_b, lacks_app. split; [nolack|apply dec_lacks_b].
  - apply inconn_name in H. cbn in H. intuition subst; reflexivity.
  - apply bt_no_b, lacks_app. split; [nolack|]. apply lacks_app. split; [apply dec_lacks_b|nolack].
  - apply bt_no_b, lacks_app. split; [nolack|]. apply lacks_app. split; [apply dec_lacks_b|nolack]. Qed.
Lemma wants_not_mixer k s p v : SeqWants k s p v -> ~ mixer_param p.
Proof. intros h m. destruct h, m; try discriminate; subst; apply inconn_name in H; cbn in H; intuition discriminate. Qed.
Lemma seq_index_some k name i : seq_index k name = Some i <-> name = seq_name i /\ (i < n_seq k)%nat.
Proof. unfold seq_index. split.
  - intros h. apply find_some in h. destruct h as [h e]. apply in_seq in h. apply String.eqb_eq in e. split; [auto|lia].
  - intros [-> h]. destruct (find _ _) as [j|] eqn:E.
    + apply find_some in E. destruct E as [_ e]. apply String.eqb_eq in e. unfold seq_name, dec_n in e. apply str_cancel_l in e. apply ZiIds.dec_inj in e. f_equal. lia.
    + exfalso. assert (In i (List.seq 0 (n_seq k))) as hi by (apply in_seq; lia). apply (find_none _ _ E) in hi. rewrite String.eqb_refl in hi. discriminate. Qed.
Lemma seq_name_inj i j : seq_name i = seq_name j -> i = j.
Proof. unfold seq_name, dec_n. intros h. apply str_cancel_l in h. apply ZiIds.dec_inj in h. lia. Qed.

Section D.
Variable d : driver.
Hypothesis gc : GoodCalibration d.

Definition seq_key (i : nat) (l : loc) (_ : string) : Prop := l = LSeq i.
Lemma set_touch_seq i p v : Touch (set_parameter d (LSeq i) p v) (seq_key i).
Proof. eapply touch_weaken; [apply touch_set|]. unfold seq_key. tauto. Qed.
Ltac tch := repeat first [apply touch_then | apply touch_when; intros | apply touch_each; intros | apply set_touch_seq].
Lemma base_touch i a b t : Touch (config_base d i a b t) (seq_key i).
Proof. unfold config_base. tch. destruct a0. tch. Qed.
Ltac tch2 := repeat first [apply base_touch | apply set_touch_seq | apply touch_then | apply touch_when; intros | apply touch_each; intros].
Lemma analog_touch k i s : Touch (config_analog d k i s) (seq_key i).
Proof. unfold config_analog. tch2.
  - destruct (nco_en s); [|now apply touch_pure]. tch2. destruct (has d (LSeq i) "nco_freq"); [|now apply touch_pure]. apply touch_bnd; [now apply touch_pure|intros; now apply touch_pure].
  - destruct a. tch2. Qed.
Lemma readout_touch i s : Touch (config_readout d i s) (seq_key i).
Proof. unfold config_readout. tch2. Qed.
Ltac tch3 := repeat first [apply analog_touch | apply readout_touch | apply set_touch_seq | apply touch_then].
Lemma seq_touch k i s : Touch (config_seq d k i s) (seq_key i).
Proof. destruct k; cbn [config_seq]; try (destruct (negb (nco_en s)); [now apply touch_pure|]); unfold mod_en, demod_en, marker_ovr; tch3. now apply touch_pure. Qed.
Lemma mixer_touch i s : Touch (config_mixer d i s) (fun l p => l = LSeq i /\ mixer_param p).
Proof. unfold config_mixer. apply touch_bnd.
  - destruct (auto_sb s); [now apply touch_pure|]. unfold get_nco. apply touch_bnd; [now apply touch_pure|]. intros [b|]; now apply touch_pure.
  - intros [|].
    + intros c c' r h l p n. unfold calibrate in h. injection h as <- <-. cbn. apply (gc_sb d gc). auto.
    + apply touch_then; apply touch_when; intros; (eapply touch_weaken; [apply touch_set|]); unfold mixer_param; cbn; intuition auto. Qed.
Definition mod_key (l : loc) (_ : string) : Prop := l = LMod.
Lemma set_touch_mod p v : Touch (set_mod d p v) mod_key.
Proof. eapply touch_weaken; [apply touch_set|]. unfold mod_key. tauto. Qed.
Lemma global_touch k st : Touch (config_global d k st) mod_key.
Proof. destruct k; cbn [config_global]; unfold set_onum, set_oint, config_dist_qcm, config_dist_qrm; repeat first [apply touch_then | apply touch_when; intros | apply touch_each; intros | apply set_touch_mod | now apply touch_pure].
  - destruct a. repeat first [apply touch_then | apply touch_when; intros | apply touch_each; intros | apply set_touch_mod | now apply touch_pure | apply touch_bnd; [unfold coeff; destruct (nth_error _ _); now apply touch_pure|intros]].
  - destruct a. repeat first [apply touch_then | apply touch_when; intros | apply touch_each; intros | apply set_touch_mod | now apply touch_pure]. Qed.
Lemma set_lo_touch p o : Touch (set_lo d p o) mod_key.
Proof. unfold set_lo. destruct o; [|now apply touch_pure]. destruct (has d LMod p); [|now apply touch_pure]. apply touch_bnd; [now apply touch_pure|]. intros a. unfold andthen. apply touch_bnd; [apply set_touch_mod|]. intros. now apply touch_pure. Qed.
Lemma any_nco_touch l P : Touch (any_nco l) P.
Proof. induction l as [|i l IH]; cbn [any_nco]; [now apply touch_pure|]. apply touch_bnd.
  - unfold get_nco. apply touch_bnd; [now apply touch_pure|]. intros [b|]; now apply touch_pure.
  - intros [|]; [now apply touch_pure|auto]. Qed.
Lemma lo_cal_touch n m a b : Touch (lo_calibrate d n m a b) mod_key.
Proof. unfold lo_calibrate. destruct (match m with LoOff => false | LoOnLo => a | LoOnLoIf => a || b end); [|now apply touch_pure]. intros c c' r h l p k. unfold calibrate in h. injection h as <- <-. cbn. apply (gc_lo d gc). unfold mod_key in k. tauto. Qed.
Lemma lo_touch k st seqs : Touch (config_lo d k st seqs) mod_key.
Proof. destruct k; cbn [config_lo]; unfold set_onum; repeat first [apply touch_then | apply touch_when; intros | apply touch_each; intros | apply set_touch_mod | apply set_lo_touch | apply any_nco_touch | apply lo_cal_touch | now apply touch_pure | apply touch_bnd; intros]. Qed.
Lemma scope_touch k data p : Touch (select_scope d k data p) mod_key.
Proof. unfold select_scope. apply touch_when. intros hwm _. apply touch_bnd; [now apply touch_pure|]. intros sc. apply touch_when. intros [i z] _. apply set_touch_mod. Qed.

(** coherence *)
Lemma get_nco_keeps i : Keeps (get_nco i).
Proof. unfold get_nco. apply keeps_bnd; [now apply keeps_pure|]. intros [b|]; now apply keeps_pure. Qed.
Lemma calibrate_keeps k f : (forall m, Coherent m -> Coherent (f m)) -> Keeps (calibrate k f).
Proof. intros h c c' r e q. unfold calibrate in e. injection e as <- <-. cbn. auto. Qed.
Lemma any_nco_keeps l : Keeps (any_nco l).
Proof. induction l as [|i l IH]; cbn [any_nco]; [now apply keeps_pure|]. apply keeps_bnd; [apply get_nco_keeps|]. intros [|]; [now apply keeps_pure|auto]. Qed.
Ltac kp := repeat first [apply keeps_then | apply keeps_when; intros | apply keeps_each; intros | apply keeps_set | apply get_nco_keeps | apply any_nco_keeps | apply calibrate_keeps; intros; solve [apply (gc_sb_coh d gc); auto | apply (gc_lo_coh d gc); auto] | now apply keeps_pure | apply keeps_bnd; intros
  | match goal with |- Keeps (if ?b then _ else _) => destruct b | |- Keeps (let '(_, _) := ?x in _) => destruct x | |- Keeps (match ?x with _ => _ end) => destruct x end ].
Lemma seq_keeps k i s : Keeps (config_seq d k i s).
Proof. unfold config_seq, mod_en, demod_en, marker_ovr, config_analog, config_base, config_readout. destruct k; kp. Qed.
Lemma mixer_keeps i s : Keeps (config_mixer d i s).
Proof. unfold config_mixer. kp. Qed.
Lemma global_keeps k st : Keeps (config_global d k st).
Proof. unfold config_global, set_onum, set_oint, set_mod, config_dist_qcm, config_dist_qrm, set_mod, coeff. destruct k; kp. Qed.
Lemma lo_keeps k st seqs : Keeps (config_lo d k st seqs).
Proof. unfold config_lo, set_onum, set_lo, set_mod, lo_calibrate, andthen. destruct k; kp. Qed.
Lemma scope_keeps k data p : Keeps (select_scope d k data p).
Proof. unfold select_scope, set_mod. kp. Qed.

(** ** The loop over the sequencers of the program *)
Lemma one_touch {S} k n (s : S) (f : nat -> string -> S -> M unit) i (K : loc -> string -> Prop) : n <> seq_name i -> (forall j, j <> i -> Touch (f j n s) (fun l q => ~ K l q)) -> Touch (bnd (seq_of k n) (fun j => f j n s)) (fun l q => ~ K l q).
Proof. intros hn h c c' r e. unfold bnd, seq_of in e. destruct (seq_index k n) as [j|] eqn:E; cbn [ret raise] in e.
  - apply seq_index_some in E. destruct E as [-> _]. apply (h j) in e; [auto|congruence].
  - injection e as <- <-. auto. Qed.
Lemma each_touch_other {S} k (seqs : list (string * S)) (f : nat -> string -> S -> M unit) i (K : loc -> string -> Prop) :
  ~ In (seq_name i) (map fst seqs) -> (forall j n s', In (n, s') seqs -> j <> i -> Touch (f j n s') (fun l q => ~ K l q)) ->
  Touch (for_each seqs (fun '(name, s) => bnd (seq_of k name) (fun j => f j name s))) (fun l q => ~ K l q).
Proof. intros hn h. apply touch_each. intros [n s] hi. apply (one_touch k n s f i K); [intros ->; apply hn, in_map_iff; now exists (seq_name i, s)|]. intros j ne. now apply h. Qed.
Lemma each_seq_ok {S} k (p : program S) f i s (K : loc -> string -> Prop) c c' :
  NoDup (map fst (p_seqs p)) -> In (seq_name i, s) (p_seqs p) ->
  (forall j n s', In (n, s') (p_seqs p) -> j <> i -> Touch (f j n s') (fun l q => ~ K l q)) ->
  (forall j n s', Keeps (f j n s')) ->
  each_seq k p f c = (c', Ok tt) ->
  (i < n_seq k)%nat /\ exists c1 c2, f i (seq_name i) s c1 = (c2, Ok tt) /\ (forall l q, K l q -> mem c1 l q = mem c l q) /\ (forall l q, K l q -> mem c' l q = mem c2 l q) /\ (Coherent (mem c) -> Coherent (mem c1)).
Proof. unfold each_seq. generalize (p_seqs p) as l0. intros l0 nd hin ho hk. revert c. induction l0 as [|[n s0] l0 IH]; intros c h; [destruct hin|]. cbn [for_each] in h. apply then_ok in h. destruct h as (cm & h1 & h2).
  pose proof h1 as h1'. unfold bnd at 1, seq_of in h1. destruct (seq_index k n) as [j|] eqn:E; [|discriminate]. cbn [ret] in h1. apply seq_index_some in E. destruct E as [-> lt]. cbn [map fst] in nd. inversion nd; subst. destruct hin as [e|hin].
  - injection e as e <-. apply ZiIds.dec_inj, Nat2Z.inj in e. subst j. split; [auto|]. exists c, cm. split; [auto|]. split; [auto|]. split; [|auto]. intros l q kq.
    eapply (each_touch_other k l0 f i K); [auto|intros; apply ho; cbn; auto|exact h2|tauto].
  - assert (ne : j <> i) by (intros ->; apply H1, in_map_iff; now exists (seq_name i, s)).
    destruct (IH H2 hin (fun j n s' hi => ho j n s' (or_intror hi)) cm h2) as (lt' & c1 & c2 & e1 & e2 & e3 & e4). split; [auto|]. exists c1, c2. split; [auto|]. split; [|split; [auto|]].
    + intros l q kq. rewrite e2 by auto. eapply (ho j (seq_name j) s0); [cbn; auto|auto|exact h1|tauto].
    + intros q. apply e4. eapply hk; eauto. Qed.
Lemma each_seq_keeps {S} k (p : program S) f : (forall j n s', Keeps (f j n s')) -> Keeps (each_seq k p f).
Proof. intros h. unfold each_seq. apply keeps_each. intros [n s]. apply keeps_bnd; [unfold seq_of; destruct (seq_index k n); now apply keeps_pure|auto]. Qed.
End D.
