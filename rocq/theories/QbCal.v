(** The calibrations [prepare] asks for: bookkeeping of the calibration log and of the flags for changed NCO frequencies. *)
From Verif Require Import Base PathModel JsonModel QbModel QbSpec QbProps QbSeq QbSeq2 QbPrep QbThms.
Local Open Scope string_scope.
Local Open Scope list_scope.

(** a relation between the states before and after, kept by every call *)
Record Ord (R : comp -> comp -> Prop) : Prop := { o_refl : forall c, R c c; o_trans : forall a b c, R a b -> R b c -> R a c }.
Definition Pres (R : comp -> comp -> Prop) {A} (m : M A) : Prop := forall c c' r, m c = (c', r) -> R c c'.
Section R.
Variable R : comp -> comp -> Prop.
Hypothesis o : Ord R.
Lemma pres_bnd {A B} (m : M A) (f : A -> M B) : Pres R m -> (forall a, Pres R (f a)) -> Pres R (bnd m f).
Proof. intros h1 h2 c c' r e. apply bnd_inv in e. destruct e as [(c1 & a & e1 & e2)|(x & e1 & _)]; [eapply o_trans; eauto; eapply h2; eauto|eauto]. Qed.
Lemma pres_then {A B} (m : M A) (n : M B) : Pres R m -> Pres R n -> Pres R (m >> n).
Proof. intros. apply pres_bnd; auto. Qed.
Lemma pres_id {A} (m : M A) : (forall c, fst (m c) = c) -> Pres R m.
Proof. intros h c c' r e. specialize (h c). rewrite e in h. cbn in h. subst. now apply o_refl. Qed.
Lemma pres_when {A} (x : option A) f : (forall a, x = Some a -> Pres R (f a)) -> Pres R (when_some x f).
Proof. intros h. destruct x; [now apply h|now apply pres_id]. Qed.
Lemma pres_each {A} (l : list A) f : (forall a, In a l -> Pres R (f a)) -> Pres R (for_each l f).
Proof. intros h. induction l as [|x l IH]; cbn [for_each]; [now apply pres_id|]. apply pres_then; [apply h; cbn; auto|apply IH; intros; apply h; cbn; auto]. Qed.
Lemma pres_each_seq {S} k (p : program S) f : (forall j n s, In (n, s) (p_seqs p) -> n = seq_name j -> (j < n_seq k)%nat -> Pres R (f j n s)) -> Pres R (each_seq k p f).
Proof. intros h. unfold each_seq. apply pres_each. intros [n s] hi. intros c c' r e. unfold bnd, seq_of in e. destruct (seq_index k n) as [j|] eqn:E; cbn [ret raise] in e.
  - apply seq_index_some in E. destruct E as [-> lt]. eapply h; eauto.
  - injection e as <- <-. now apply o_refl. Qed.
End R.

(** nothing happens to log and flags *)
Definition still (c c' : comp) : Prop := cals c' = cals c /\ nco_changed c' = nco_changed c.
Lemma still_ord : Ord still.
Proof. constructor; unfold still; [auto|intros a b c [] []; split; congruence]. Qed.
(** nothing happens to the selected entries of the log, and to the flag of sequencer [i] *)
Definition logged (f : calib -> bool) (c : comp) : list (calib * memory) := filter (fun e => f (fst e)) (cals c).
Definition quiet (f : calib -> bool) (i : nat) (c c' : comp) : Prop := logged f c' = logged f c /\ nco_flag i (nco_changed c') = nco_flag i (nco_changed c).
Lemma quiet_ord f i : Ord (quiet f i).
Proof. constructor; unfold quiet; [auto|intros a b c [] []; split; congruence]. Qed.
Lemma still_quiet {A} (m : M A) f i : Pres still m -> Pres (quiet f i) m.
Proof. intros h c c' r e. destruct (h _ _ _ e) as [e1 e2]. unfold quiet, logged. now rewrite e1, e2. Qed.
(** nothing happens to the log *)
Definition samelog (f : calib -> bool) (c c' : comp) : Prop := logged f c' = logged f c.
Lemma samelog_ord f : Ord (samelog f).
Proof. constructor; unfold samelog; [auto|intros; congruence]. Qed.
Lemma quiet_samelog {A} (m : M A) f i : Pres (quiet f i) m -> Pres (samelog f) m.
Proof. intros h c c' r e. now apply (h _ _ _ e). Qed.
(** the log only grows *)
Definition grows (c c' : comp) : Prop := exists new, cals c' = cals c ++ new.
Lemma grows_ord : Ord grows.
Proof. constructor; unfold grows; [intros c; exists []; now rewrite app_nil_r|]. intros a b c [x e1] [y e2]. exists (x ++ y). now rewrite e2, e1, app_assoc. Qed.

Definition is_sb (i : nat) (k : calib) : bool := match k with SidebandCal j => Nat.eqb i j | LoCal _ => false end.
Definition is_lo (n : string) (k : calib) : bool := match k with SidebandCal _ => false | LoCal x => String.eqb n x end.

Section D.
Variable d : driver.
Lemma still_set l p v : Pres still (set_parameter d l p v).
Proof. intros c c' r e. unfold set_parameter, raw_set, set_mem, bnd, gets in e. destruct (has d l p); [destruct (force_set d); [|destruct (same_as_cache (mem c) l p v)]; try destruct (accepts d l p v)|destruct (bt_ignored p v)]; injection e as <- <-; split; reflexivity. Qed.
Ltac st := repeat first [assumption | apply still_set | apply (pres_then _ still_ord) | apply (pres_when _ still_ord); intros | apply (pres_each _ still_ord); intros | apply (pres_id _ still_ord); reflexivity
  | match goal with |- Pres _ (let '(_, _) := ?x in _) => destruct x end].
Lemma still_base i a b t : Pres still (config_base d i a b t).
Proof. unfold config_base. st. Qed.
Lemma still_readout i s : Pres still (config_readout d i s).
Proof. unfold config_readout. st. Qed.
Lemma still_disable k : Pres still (disable_sync d k).
Proof. unfold disable_sync. st. Qed.
Lemma still_global k st : Pres still (config_global d k st).
Proof. destruct k; cbn [config_global]; unfold set_onum, set_oint, config_dist_qcm, config_dist_qrm, set_mod; st;
  repeat first [apply still_set | apply (pres_then _ still_ord) | apply (pres_when _ still_ord); intros | apply (pres_each _ still_ord); intros | apply (pres_bnd _ still_ord); [unfold coeff; destruct (nth_error _ _); now apply (pres_id _ still_ord)|intros]]. Qed.
Lemma still_select k data p : Pres still (select_scope d k data p).
Proof. unfold select_scope, set_mod. apply (pres_when _ still_ord). intros hwm _. apply (pres_bnd _ still_ord); [apply (pres_id _ still_ord); reflexivity|]. intros sc. apply (pres_when _ still_ord). intros [i z] _. apply still_set. Qed.
Lemma still_mgr o : Pres still (set_mgr o).
Proof. intros c c' r e. injection e as <- <-. split; reflexivity. Qed.
Lemma still_post_readout k data p : Pres still (post_readout d k data p).
Proof. unfold post_readout, set_mod. apply (pres_then _ still_ord); [|apply (pres_then _ still_ord)].
  - destruct (p_mapping p); [|apply still_mgr]. apply (pres_bnd _ still_ord); [apply (pres_id _ still_ord); reflexivity|intros; apply still_mgr].
  - apply (pres_when _ still_ord). intros. apply still_global.
  - st. Qed.
Lemma still_get i : Pres still (get_nco i).
Proof. unfold get_nco. apply (pres_bnd _ still_ord); [apply (pres_id _ still_ord); reflexivity|intros [b|]; apply (pres_id _ still_ord); reflexivity]. Qed.
Lemma still_any l : Pres still (any_nco l).
Proof. induction l; cbn [any_nco]; [apply (pres_id _ still_ord); reflexivity|]. apply (pres_bnd _ still_ord); [apply still_get|intros [|]; auto; apply (pres_id _ still_ord); reflexivity]. Qed.
Lemma still_lo_set p o : Pres still (set_lo d p o).
Proof. unfold set_lo, set_mod. destruct o; [|apply (pres_id _ still_ord); reflexivity]. destruct (has d LMod p); [|apply (pres_id _ still_ord); reflexivity]. apply (pres_bnd _ still_ord); [apply (pres_id _ still_ord); reflexivity|intros; apply (pres_then _ still_ord); [apply still_set|apply (pres_id _ still_ord); reflexivity]]. Qed.

(** *** The flags *)
Definition changes (m : memory) (i : nat) (s : aset) : bool := nco_en s && negb (same_as_cache m (LSeq i) "nco_freq" (onum (mod_freq s))).
Definition Flags (i : nat) (s : aset) (m : M unit) : Prop := forall c c', m c = (c', Ok tt) -> cals c' = cals c /\ nco_changed c' = nco_put i (changes (mem c) i s) (nco_changed c).
Lemma flags_after i s (m n : M unit) : Flags i s m -> Pres still n -> Flags i s (m >> n).
Proof. intros h1 h2 c c' e. apply then_ok in e. destruct e as (c1 & e1 & e2). apply h1 in e1. apply h2 in e2. destruct e1 as [e1 f1], e2 as [e2 f2]. split; congruence. Qed.
Lemma flags_before i s (m n : M unit) : Pres still m -> Touch m (fun _ q => q <> "nco_freq") -> Flags i s n -> Flags i s (m >> n).
Proof. intros h1 t h2 c c' e. apply then_ok in e. destruct e as (c1 & e1 & e2). apply h2 in e2. destruct (h1 _ _ _ e1) as [a1 a2]. pose proof (t _ _ _ e1 (LSeq i) "nco_freq" ltac:(tauto)) as a3. unfold changes, same_as_cache in *. rewrite a1, a2, a3 in e2. exact e2. Qed.
Lemma flags_analog k i s : Flags i s (config_analog d k i s).
Proof. unfold config_analog. repeat (apply flags_after; [|first [apply still_base | apply still_set | apply (pres_each _ still_ord); intros [q v] _; apply still_set]]).
  destruct (nco_en s) eqn:E.
  - apply flags_after; [|apply still_set]. intros c c' e. destruct (has d (LSeq i) "nco_freq"); [|discriminate]. unfold bnd, gets, set_nco in e. injection e as <-. unfold changes. rewrite E. split; reflexivity.
  - intros c c' e. injection e as <-. unfold changes. rewrite E. split; reflexivity. Qed.
Lemma flags_seq k i s : k <> QTM -> Flags i s (config_seq d k i s).
Proof. intros hk. assert (T : forall p v, p <> "nco_freq" -> Touch (set_parameter d (LSeq i) p v) (fun _ q => q <> "nco_freq")) by (intros p v n; eapply touch_weaken; [apply touch_set|]; intros l q [_ ->]; exact n).
  assert (A : Flags i s (config_analog d k i s >> config_readout d i s)) by (apply flags_after; [apply flags_analog|apply still_readout]).
  destruct k; cbn [config_seq]; try congruence; unfold mod_en, demod_en, marker_ovr.
  - apply flags_before; [apply still_set|now apply T|apply flags_analog].
  - apply flags_before; [apply (pres_then _ still_ord); apply still_set|apply touch_then; now apply T|auto].
  - apply flags_after; [|apply still_set]. apply flags_before; [apply still_set|now apply T|apply flags_analog].
  - apply flags_after; [|apply still_set]. apply flags_before; [apply (pres_then _ still_ord); apply still_set|apply touch_then; now apply T|auto].
  - destruct (nco_en s) eqn:E; cbn [negb]; [|intros c c' e; discriminate]. apply flags_after; [auto|apply still_set]. Qed.
Lemma flag_put i j b l : nco_flag i (nco_put j b l) = if Nat.eqb j i then Some b else nco_flag i l.
Proof. unfold nco_flag, nco_put. cbn [find fst]. destruct (Nat.eqb_spec j i) as [->|n]; [reflexivity|]. f_equal. induction l as [|[x y] l IH]; cbn; [auto|]. destruct (Nat.eqb_spec x j) as [->|]; cbn [negb]; [destruct (Nat.eqb_spec j i); [contradiction|exact IH]|]. cbn [find fst]. destruct (Nat.eqb x i); auto. Qed.

(** also when the call raises: only the flag of [i] changes, and the log does not *)
Definition flag_only (i : nat) (c c' : comp) : Prop := cals c' = cals c /\ forall j, j <> i -> nco_flag j (nco_changed c') = nco_flag j (nco_changed c).
Lemma flag_only_ord i : Ord (flag_only i).
Proof. constructor; unfold flag_only; [auto|intros a b c [e f] [e' f']; split; [congruence|intros j n; rewrite f', f; auto]]. Qed.
Lemma still_flag_only {A} (m : M A) i : Pres still m -> Pres (flag_only i) m.
Proof. intros h c c' r e. destruct (h _ _ _ e) as [e1 e2]. unfold flag_only. now rewrite e1, e2. Qed.
Lemma analog_flag_only k i s : Pres (flag_only i) (config_analog d k i s).
Proof. unfold config_analog. repeat (apply (pres_then _ (flag_only_ord i)); [|first [apply still_flag_only; first [apply still_base | apply still_set | apply (pres_each _ still_ord); intros [q v] _; apply still_set]]]).
  assert (S : forall b, Pres (flag_only i) (set_nco (nco_put i b))) by (intros b c c' r e; injection e as <- <-; split; [reflexivity|intros j n; cbn [nco_changed]; rewrite flag_put; destruct (Nat.eqb_spec i j); congruence]).
  destruct (nco_en s); [|apply S]. apply (pres_then _ (flag_only_ord i)); [|apply still_flag_only, still_set]. destruct (has d (LSeq i) "nco_freq"); [|apply (pres_id _ (flag_only_ord i)); reflexivity].
  apply (pres_bnd _ (flag_only_ord i)); [apply (pres_id _ (flag_only_ord i)); reflexivity|intros; apply S]. Qed.
Lemma seq_flag_only k i s : Pres (flag_only i) (config_seq d k i s).
Proof. assert (T : forall p v, Pres (flag_only i) (set_parameter d (LSeq i) p v)) by (intros; apply still_flag_only, still_set). assert (R : Pres (flag_only i) (config_readout d i s)) by apply still_flag_only, still_readout.
  destruct k; cbn [config_seq]; unfold mod_en, demod_en, marker_ovr; try destruct (negb (nco_en s)); repeat first [apply T | apply R | apply analog_flag_only | apply (pres_id _ (flag_only_ord i)); reflexivity | apply (pres_then _ (flag_only_ord i))]. Qed.
Lemma seq_quiet f k i j s : j <> i -> Pres (quiet f i) (config_seq d k j s).
Proof. intros n c c' r e. destruct (seq_flag_only k j s _ _ _ e) as [e1 e2]. split; [unfold logged; now rewrite e1|apply e2; auto]. Qed.
Lemma calibrate_quiet f i k g : f k = false -> Pres (quiet f i) (calibrate k g).
Proof. intros h c c' r e. injection e as <- <-. split; [|reflexivity]. unfold logged. cbn [cals]. rewrite filter_app. cbn [filter fst]. rewrite h. apply app_nil_r. Qed.
Lemma mixer_quiet f i j s : f (SidebandCal j) = false -> Pres (quiet f i) (config_mixer d j s).
Proof. intros h. unfold config_mixer. apply (pres_bnd _ (quiet_ord f i)).
  - destruct (auto_sb s); [apply (pres_id _ (quiet_ord f i)); reflexivity|apply still_quiet, still_get].
  - intros [|]; [now apply calibrate_quiet|]. apply still_quiet. st. Qed.
Lemma lo_quiet f i n m a b : f (LoCal n) = false -> Pres (quiet f i) (lo_calibrate d n m a b).
Proof. intros h. unfold lo_calibrate. destruct (match m with LoOff => false | LoOnLo => a | LoOnLoIf => a || b end); [now apply calibrate_quiet|apply (pres_id _ (quiet_ord f i)); reflexivity]. Qed.
Lemma config_lo_quiet f i k st seqs : (forall n, f (LoCal n) = false) -> Pres (quiet f i) (config_lo d k st seqs).
Proof. intros h. assert (O := quiet_ord f i). destruct k; cbn [config_lo]; unfold set_onum, set_mod;
  repeat first [apply lo_quiet; auto | apply still_quiet; first [apply still_lo_set | apply still_any | apply still_set] | apply (pres_id _ O); reflexivity | apply (pres_then _ O) | apply (pres_each _ O); intros | apply (pres_when _ O); intros | apply (pres_bnd _ O); intros]. Qed.
Lemma rf_quiet f i k p : (forall n, f (LoCal n) = false) -> Pres (quiet f i) (prepare_rf d k p).
Proof. intros h. assert (O := quiet_ord f i). unfold prepare_rf. apply (pres_then _ O); [apply (pres_each_seq _ O); intros; apply (pres_id _ O); reflexivity|apply (pres_when _ O); intros; now apply config_lo_quiet]. Qed.
Lemma body_quiet f i j n k s : f (SidebandCal j) = false -> j <> i -> Pres (quiet f i) (body d k j n s).
Proof. intros h ne. assert (O := quiet_ord f i). unfold body. destruct k; repeat first [now apply seq_quiet | now apply mixer_quiet | apply (pres_then _ O)]. Qed.
(** what the mixer configuration does *)
Lemma mixer_ok i s c c' : config_mixer d i s c = (c', Ok tt) ->
  (auto_sb s = SbOnIf /\ nco_flag i (nco_changed c) = Some true /\ cals c' = cals c ++ [(SidebandCal i, mem c)] /\ mem c' = sideband_cal d i (mem c) /\ nco_changed c' = nco_changed c) \/
  (~ (auto_sb s = SbOnIf /\ nco_flag i (nco_changed c) = Some true) /\ cals c' = cals c /\ nco_changed c' = nco_changed c /\ (Ready d (mem c) -> forall q v, MixerWants s q v -> has d (LSeq i) q = true /\ Holds (mem c') (LSeq i) q v) /\
     (forall q, (forall v, ~ MixerWants s q v) -> mem c' (LSeq i) q = mem c (LSeq i) q)).
Proof. intros e. unfold config_mixer in e. apply bnd_inv in e. destruct e as [(c1 & b & e1 & e2)|(x & _ & e)]; [|discriminate].
  assert (E : c1 = c /\ (b = true <-> auto_sb s = SbOnIf /\ nco_flag i (nco_changed c) = Some true)).
  { destruct (auto_sb s); [injection e1 as <- <-; split; [auto|split; [discriminate|intros [? _]; discriminate]]|].
    unfold get_nco, bnd, gets in e1. destruct (nco_flag i (nco_changed c)) as [b0|]; [|discriminate]. injection e1 as <- <-. split; [auto|]. split; [intros ->; auto|intros [_ h]; congruence]. }
  destruct E as [-> E]. destruct b.
  - left. destruct (proj1 E eq_refl) as [E1 E2]. injection e2 as <-. auto.
  - right. split; [intros h; apply E in h; discriminate|].
    set (m := when_some (mixer_phase s) (fun q => set_parameter d (LSeq i) "mixer_corr_phase_offset_degree" (VNum q)) >> when_some (mixer_gain s) (fun q => set_parameter d (LSeq i) "mixer_corr_gain_ratio" (VNum q))) in *.
    assert (S : Pres still m) by (unfold m; st). destruct (S _ _ _ e2) as [S1 S2]. split; [auto|]. split; [auto|].
    set (t := opt (mixer_phase s) (fun q => [("mixer_corr_phase_offset_degree", VNum q)]) ++ opt (mixer_gain s) (fun q => [("mixer_corr_gain_ratio", VNum q)])).
    assert (W : LW d (LSeq i) m t) by (unfold m, t; apply lw_then; apply lw_when; intros; apply lw_set). destruct (W _ _ e2) as [W1 W2].
    assert (I : forall q v, In (q, v) t <-> MixerWants s q v).
    { intros q v. unfold t. rewrite in_app_iff. split.
      - intros [h|h]; [destruct (mixer_phase s) eqn:F|destruct (mixer_gain s) eqn:F]; cbn in h; try tauto; destruct h as [h|[]]; injection h as <- <-; [now apply mw_phase|now apply mw_gain].
      - intros [x h|x h]; [left|right]; rewrite h; cbn; auto. }
    split.
    + intros g q v w. assert (K : q = "mixer_corr_phase_offset_degree" \/ q = "mixer_corr_gain_ratio") by (destruct w; auto). assert (B : forall x, bt_ignored q x = false) by (intros x; destruct K as [->| ->]; unfold bt_ignored; reflexivity).
      pose proof (proj2 (I q v) w) as J. assert (JJ : In (LSeq i, q, v) (at_loc (LSeq i) t)) by (apply in_map_iff; now exists (q, v)). rewrite Forall_forall in W2. pose proof (W2 _ JJ) as se. cbn in se. rewrite B in se. destruct se as [se|]; [|discriminate]. split; [auto|]. rewrite W1.
      destruct (wrs_last d (at_loc (LSeq i) t) (LSeq i) q se) with (m := mem c) as (v' & hv & r); auto; [apply in_map_iff; exists (LSeq i, q, v); auto|].
      unfold at_loc in hv. apply in_map_iff in hv. destruct hv as ([q' v''] & hv & ht). injection hv as -> ->. apply I in ht. replace v with v'; [auto|]. destruct w as [x hx|x hx]; inversion ht; subst; congruence.
    + intros q n. rewrite W1. apply wrs_other. intros hi. apply in_map_iff in hi. destruct hi as ([[l q'] v] & hl & hi). cbn in hl. injection hl as -> ->. unfold at_loc in hi. apply in_map_iff in hi. destruct hi as ([q' v'] & hl & hi). injection hl as -> ->. apply I in hi. eapply n; eauto. Qed.
End D.
