(** The component of a cluster: lemmas. *)
From Verif Require Import Base PathModel JsonModel QbModel QbSpec QbProps QbSeq QbSeq2 QbPrep QbThms QbCal QbQtmSpec QbQtm QbClModel QbClSpec.
From Coq Require Import Lia.
Local Open Scope string_scope.
Local Open Scope list_scope.

(** ** What a module remembers: names and acquisition manager *)
Section F.
Variable X : Type.
Variable f : comp -> X.
Hypothesis f_mem : forall c g, f {| mem := g (mem c); names := names c; nco_changed := nco_changed c; cals := cals c; mgr := mgr c |} = f c.
Hypothesis f_nco : forall c l, f {| mem := mem c; names := names c; nco_changed := l; cals := cals c; mgr := mgr c |} = f c.
Hypothesis f_cal : forall c m l, f {| mem := m; names := names c; nco_changed := nco_changed c; cals := l; mgr := mgr c |} = f c.
Definition kept (c c' : comp) : Prop := f c' = f c.
Lemma kept_ord : Ord kept.
Proof. constructor; unfold kept; [auto|intros; congruence]. Qed.
Variable d : driver.
Lemma kept_set l p v : Pres kept (set_parameter d l p v).
Proof. intros c c' r e. unfold kept, set_parameter, raw_set, set_mem, bnd, gets in *. destruct (has d l p); [destruct (force_set d); [|destruct (same_as_cache (mem c) l p v)]; try destruct (accepts d l p v)|destruct (bt_ignored p v)]; injection e as <- <-; try reflexivity;
  apply (f_mem c (fun m => upd m l p {| hw := v; cached := Some v |})). Qed.
Lemma kept_nco g : Pres kept (set_nco g).
Proof. intros c c' r e. injection e as <- <-. apply f_nco. Qed.
Lemma kept_cal k g : Pres kept (calibrate k g).
Proof. intros c c' r e. injection e as <- <-. apply f_cal. Qed.
Lemma kept_id {A} (m : M A) : (forall c, fst (m c) = c) -> Pres kept m.
Proof. intros h. now apply (pres_id _ kept_ord). Qed.
Lemma kept_get i : Pres kept (get_nco i).
Proof. unfold get_nco. apply (pres_bnd _ kept_ord); [now apply kept_id|intros [b|]; now apply kept_id]. Qed.
Lemma kept_any l : Pres kept (any_nco l).
Proof. induction l; cbn [any_nco]; [now apply kept_id|]. apply (pres_bnd _ kept_ord); [apply kept_get|intros [|]; auto; now apply kept_id]. Qed.
Lemma kept_coeff cs n : Pres kept (coeff cs n).
Proof. unfold coeff. destruct (nth_error _ _); now apply kept_id. Qed.
Ltac kp := repeat first [assumption | apply kept_set | apply kept_nco | apply kept_cal | apply kept_get | apply kept_any | apply kept_coeff | apply kept_id; reflexivity | apply (pres_then _ kept_ord) | apply (pres_when _ kept_ord); intros | apply (pres_each _ kept_ord); intros | apply (pres_each_seq _ kept_ord); intros | apply (pres_bnd _ kept_ord); intros
  | match goal with |- Pres _ (let '(_, _) := ?x in _) => destruct x | |- Pres _ (if ?b then _ else _) => destruct b | |- Pres _ (match ?o with None => _ | Some _ => _ end) => destruct o end].
Lemma kept_disable k : Pres kept (disable_sync d k).
Proof. unfold disable_sync. kp. Qed.
Lemma kept_base i a b t : Pres kept (config_base d i a b t).
Proof. unfold config_base. kp. Qed.
Lemma kept_analog k i s : Pres kept (config_analog d k i s).
Proof. unfold config_analog. apply (pres_then _ kept_ord); [|apply kept_base]. kp. Qed.
Lemma kept_seq k i s : Pres kept (config_seq d k i s).
Proof. assert (A := kept_analog k i s). assert (R : Pres kept (config_readout d i s)) by (unfold config_readout; kp). destruct k; cbn [config_seq]; unfold mod_en, demod_en, marker_ovr; kp. Qed.
Lemma kept_mixer i s : Pres kept (config_mixer d i s).
Proof. unfold config_mixer. apply (pres_bnd _ kept_ord); [destruct (auto_sb s); kp|intros [|]; kp]. Qed.
Lemma kept_global k st : Pres kept (config_global d k st).
Proof. destruct k; cbn [config_global]; unfold set_onum, set_oint, config_dist_qcm, config_dist_qrm, set_mod; kp. Qed.
Lemma kept_lo k st l : Pres kept (config_lo d k st l).
Proof. assert (S : forall p o, Pres kept (set_lo d p o)) by (intros; unfold set_lo, set_mod; kp). assert (C : forall n m a b, Pres kept (lo_calibrate d n m a b)) by (intros n m a b; unfold lo_calibrate; destruct (match m with LoOff => false | LoOnLo => a | LoOnLoIf => a || b end); kp).
  destruct k; cbn [config_lo]; unfold set_onum, set_mod; repeat first [apply C | apply S | apply kept_any | apply (pres_bnd _ kept_ord); intros | apply (pres_then _ kept_ord)]; kp. Qed.
Lemma kept_rf k p : Pres kept (prepare_rf d k p).
Proof. unfold prepare_rf. apply (pres_then _ kept_ord); [apply (pres_each_seq _ kept_ord); intros; now apply kept_id|]. apply (pres_when _ kept_ord). intros. apply kept_lo. Qed.
Lemma kept_select k data p : Pres kept (select_scope d k data p).
Proof. unfold select_scope, set_mod. apply (pres_when _ kept_ord). intros hwm _. apply (pres_bnd _ kept_ord); [now apply kept_id|intros]. apply (pres_when _ kept_ord). intros [i z] _. apply kept_set. Qed.
Lemma kept_io i s : Pres kept (config_io d i s).
Proof. unfold config_io. kp. Qed.
End F.
Definition kn := kept (list string) names.
Definition km := kept (option manager) mgr.
Lemma kn_ord : Ord kn. Proof. apply kept_ord. Qed.
Lemma km_ord : Ord km. Proof. apply kept_ord. Qed.
Ltac hyp := first [intros; reflexivity].

Definition Sets {A} (m : M A) (L : list string) : Prop := forall c c' r, m c = (c', r) -> names c' = L.
Lemma sets_then {A B} (m : M A) (n : M B) L : Sets m L -> Pres kn n -> Sets (m >> n) L.
Proof. intros h k c c' r e. unfold andthen, bnd in e. destruct (m c) as [c1 [a|x]] eqn:E; [|injection e as <- <-; eauto]. apply k in e. unfold kn, kept in e. rewrite e. eauto. Qed.
Lemma sets_base {S} (p : program S) : Sets (prepare_base p) (map fst (p_seqs p)).
Proof. intros c c' r e. injection e as <- <-. reflexivity. Qed.
Local Opaque prepare_base.
Lemma kn_mgr o : Pres kn (set_mgr o).
Proof. intros c c' r e. injection e as <- <-. reflexivity. Qed.
Lemma kn_mapping {A} (o : option A) (f : A -> M unit) n : (forall a, Pres kn (f a)) -> Pres kn n -> Pres kn (match o with Some a => f a | None => n end).
Proof. intros h k. destruct o; auto. Qed.
Ltac hk := first [apply (kept_disable _ names) | apply (kept_seq _ names) | apply (kept_mixer _ names) | apply (kept_rf _ names) | apply (kept_select _ names) | apply (kept_global _ names) | apply (kept_set _ names) | apply (kept_base _ names) | apply (kept_io _ names)]; intros; reflexivity.
Lemma sets_readout d k data p : Sets (prepare_readout d k data p) (map fst (p_seqs p)).
Proof. unfold prepare_readout, set_mod. repeat (apply sets_then; [|]).
  - apply sets_base.
  - hk.
  - apply (pres_each_seq _ kn_ord). intros. hk.
  - apply kn_mapping; [|apply kn_mgr]. intros hwm. apply (pres_bnd _ kn_ord); [now apply (pres_id _ kn_ord)|intros; apply kn_mgr].
  - apply (pres_when _ kn_ord). intros. hk.
  - apply (pres_each _ kn_ord). intros. apply (pres_then _ kn_ord); hk. Qed.
Lemma sets_qcm d k p : Sets (prepare_qcm d k p) (map fst (p_seqs p)).
Proof. unfold prepare_qcm. repeat (apply sets_then; [|]).
  - apply sets_base.
  - apply (pres_when _ kn_ord). intros. hk.
  - hk.
  - apply (pres_each_seq _ kn_ord). intros. apply (pres_then _ kn_ord); hk. Qed.
Lemma sets_qrm d k data p : Sets (prepare_qrm d k data p) (map fst (p_seqs p)).
Proof. unfold prepare_qrm. apply sets_then; [apply sets_then; [apply sets_readout|]|hk]. apply (pres_each_seq _ kn_ord). intros. hk. Qed.
Lemma sets_prepare d k data p : k <> QTM -> Sets (prepare d k data p) (map fst (p_seqs p)).
Proof. intros h. destruct k; cbn [prepare]; try congruence.
  - apply sets_qcm.
  - apply sets_qrm.
  - apply sets_then; [apply sets_qcm|hk].
  - apply sets_then; [apply sets_qrm|hk].
  - apply sets_then; [apply sets_then; [apply sets_readout|hk]|hk]. Qed.
Lemma sets_qtm d p : Sets (prepare_qtm d p) (map fst (p_seqs p)).
Proof. unfold prepare_qtm. repeat (apply sets_then; [|]).
  - apply sets_base.
  - hk.
  - apply (pres_each_seq _ kn_ord). intros. apply (pres_then _ kn_ord); hk.
  - destruct (p_mapping p); apply kn_mgr.
  - apply (pres_when _ kn_ord). intros. hk. Qed.
Definition Fits (m : module) (p : mprog) : Prop := match p with Analog _ => knd m <> QTM | Timetag _ => knd m = QTM end.
Lemma mod_fits m data p c : prepare_mod m data p = (c, Ok tt) -> Fits m p.
Proof. unfold prepare_mod, Fits. destruct p, (knd m); intros h; try discriminate; auto. Qed.
Lemma mod_analog m data p : knd m <> QTM -> prepare_mod m data (Analog p) = prepare (drv m) (knd m) data p (cmp m).
Proof. unfold prepare_mod. destruct (knd m); intros h; try reflexivity. congruence. Qed.
Lemma mod_timetag m data p : knd m = QTM -> prepare_mod m data (Timetag p) = prepare_qtm (drv m) p (cmp m).
Proof. unfold prepare_mod. intros ->. reflexivity. Qed.
Lemma mod_names m data p c r : Fits m p -> prepare_mod m data p = (c, r) -> names c = seq_names p.
Proof. destruct p as [p|p]; cbn [Fits seq_names]; intros f h; [rewrite mod_analog in h by auto; eapply sets_prepare; eauto|rewrite mod_timetag in h by auto; eapply sets_qtm; eauto]. Qed.

(** the manager after a successful call *)
Definition MgrOk (o : option hw_mapping) (c : comp) : Prop := match o with Some hwm => exists g, mgr c = Some g /\ m_mapping g = hwm | None => mgr c = None end.
Definition SetsM (m : M unit) (o : option hw_mapping) : Prop := forall c c', m c = (c', Ok tt) -> MgrOk o c'.
Lemma setsm_then (m n : M unit) o : SetsM m o -> Pres km n -> SetsM (m >> n) o.
Proof. intros h k c c' e. apply then_ok in e. destruct e as (c1 & e1 & e2). apply h in e1. apply k in e2. unfold km, kept in e2. unfold MgrOk in *. rewrite e2. exact e1. Qed.
Lemma setsm_last (m n : M unit) o : SetsM n o -> SetsM (m >> n) o.
Proof. intros h c c' e. apply then_ok in e. destruct e as (c1 & e1 & e2). eauto. Qed.
Ltac hm := first [apply (kept_disable _ mgr) | apply (kept_seq _ mgr) | apply (kept_mixer _ mgr) | apply (kept_rf _ mgr) | apply (kept_select _ mgr) | apply (kept_global _ mgr) | apply (kept_set _ mgr) | apply (kept_base _ mgr) | apply (kept_io _ mgr)]; intros; reflexivity.
Lemma setsm_readout d k data p : SetsM (prepare_readout d k data p) (p_mapping p).
Proof. unfold prepare_readout, set_mod. apply setsm_then; [apply setsm_then; [apply setsm_last|]|].
  - destruct (p_mapping p) as [hwm|].
    + intros c c' e. unfold bnd, lift in e. destruct (scope_seq k data hwm); [|discriminate]. injection e as <-. cbn. eauto.
    + intros c c' e. injection e as <-. reflexivity.
  - apply (pres_when _ km_ord). intros. hm.
  - apply (pres_each _ km_ord). intros. apply (pres_then _ km_ord); hm. Qed.
Lemma setsm_prepare d k data p : readout k -> SetsM (prepare d k data p) (p_mapping p).
Proof. assert (Q : forall k, SetsM (prepare_qrm d k data p) (p_mapping p)). { intros k'. unfold prepare_qrm. apply setsm_then; [apply setsm_then; [apply setsm_readout|]|hm]. apply (pres_each_seq _ km_ord). intros. hm. }
  intros [->|[->| ->]]; cbn [prepare]; [apply Q|apply setsm_then; [apply Q|hm]|]. apply setsm_then; [apply setsm_then; [apply setsm_readout|hm]|hm]. Qed.
Lemma setsm_qtm d p : SetsM (prepare_qtm d p) (p_mapping p).
Proof. unfold prepare_qtm. apply setsm_then; [apply setsm_last|apply (pres_when _ km_ord); intros; hm]. destruct (p_mapping p); intros c c' e; injection e as <-; cbn; eauto. Qed.
Lemma mod_mgr m data p c : has_inputs (knd m) -> prepare_mod m data p = (c, Ok tt) -> MgrOk (mapping_of p) c.
Proof. intros hi h. assert (f := mod_fits _ _ _ _ h). destruct p as [p|p]; cbn [Fits mapping_of] in *.
  - rewrite mod_analog in h by auto. destruct hi as [hi|]; [|congruence]. eapply setsm_prepare; eauto.
  - rewrite mod_timetag in h by auto. eapply setsm_qtm; eauto. Qed.

(** ** The modules *)
Lemma get_in n l m : get_mod n l = Some m -> In (n, m) l.
Proof. induction l as [|[k x] l IH]; cbn; [discriminate|]. destruct (String.eqb_spec n k) as [->|]; intros h; [injection h as ->; auto|auto]. Qed.
Lemma in_get n l m : Distinct l -> In (n, m) l -> get_mod n l = Some m.
Proof. unfold Distinct. induction l as [|[k x] l IH]; cbn [map fst get_mod]; intros nd h; [destruct h|]. inversion nd; subst. destruct h as [e|h].
  - injection e as -> ->. now rewrite String.eqb_refl.
  - destruct (String.eqb_spec n k) as [->|]; [|auto]. exfalso. apply H1. apply in_map_iff. exists (k, m). auto. Qed.
Lemma put_names n m l : map fst (put_mod n m l) = map fst l.
Proof. induction l as [|[k x] l IH]; cbn; [auto|]. destruct (String.eqb n k); cbn; congruence. Qed.
Lemma get_put n m l x : get_mod n l = Some x -> get_mod n (put_mod n m l) = Some m.
Proof. induction l as [|[k y] l IH]; cbn; [discriminate|]. destruct (String.eqb n k) eqn:E; cbn; rewrite E; auto. Qed.
Lemma get_put_other n k m l : n <> k -> get_mod n (put_mod k m l) = get_mod n l.
Proof. intros h. induction l as [|[j y] l IH]; cbn; [auto|]. destruct (String.eqb_spec k j) as [<-|]; cbn; [destruct (String.eqb_spec n k); [congruence|auto]|]. destruct (String.eqb n j); auto. Qed.

Lemma prepare_mods_ok l data : forall cl cl', NoDup (map fst l) -> prepare_mods l data cl = (cl', Ok tt) ->
  map fst (mods cl') = map fst (mods cl) /\ prog cl' = prog cl /\ root cl' = root cl /\ cdrv cl' = cdrv cl /\ sent cl' = sent cl /\
  (forall n p, In (n, p) l -> exists m c, get_mod n (mods cl) = Some m /\ prepare_mod m data p = (c, Ok tt) /\ get_mod n (mods cl') = Some (with_comp m c)) /\
  (forall n, ~ In n (map fst l) -> get_mod n (mods cl') = get_mod n (mods cl)).
Proof. induction l as [|[k p] l IH]; intros cl cl' nd h; cbn [prepare_mods] in h.
  - injection h as <-. do 5 (split; [reflexivity|]). split; [intros n q []|auto].
  - inversion nd; subst. destruct (get_mod k (mods cl)) as [m|] eqn:E; [|discriminate]. destruct (prepare_mod m data p) as [c [[]|e]] eqn:F; [|discriminate]. apply IH in h; auto.
    destruct h as (h1 & h2 & h3 & h4 & h5 & h6 & h7). cbn [set_mods mods prog root cdrv sent] in *. rewrite put_names in h1. do 5 (split; [auto|]). split.
    + intros n q [e|hin].
      * assert (e1 := f_equal fst e). assert (e2 := f_equal snd e). cbn [fst snd] in e1, e2. subst. exists m, c. do 2 (split; [auto|]). rewrite h7 by auto. eapply get_put; eauto.
      * assert (n <> k) by (intros ->; apply H1; apply in_map_iff; exists (k, q); auto). destruct (h6 _ _ hin) as (m' & c' & q1 & q2 & q3). rewrite get_put_other in q1 by auto. eauto.
    + intros n hn. cbn [map fst] in hn. rewrite h7 by (intros x; apply hn; cbn; auto). apply get_put_other. intros ->. apply hn. cbn. auto. Qed.

(** ** Commands *)
Definition quiet_cmd (c : command) : Prop := match c with StopAll | StartAll => False | _ => True end.
Lemma effect_quiet cs : Forall quiet_cmd cs -> forall a r, exists a', fold_left effect cs (a, r) = (a', r) /\ forall n i, In (n, i) a' <-> In (n, i) a \/ In (Arm n i) cs.
Proof. induction cs as [|c cs IH]; intros f a r; [exists a; split; [reflexivity|]; cbn; tauto|]. inversion f; subst. destruct c; cbn in H1; try tauto; cbn [fold_left effect].
  - destruct (IH H2 a r) as (a' & e & h). exists a'. split; [auto|]. intros n j. rewrite h. cbn. split; [tauto|intros [|[|]]; auto; discriminate].
  - destruct (IH H2 ((m, i) :: a) r) as (a' & e & h). exists a'. split; [auto|]. intros n j. rewrite h. cbn. split; [intros [[x|x]|x]; auto; injection x as <- <-; auto|intros [|[x|]]; auto; injection x as <- <-; auto].
  - destruct (IH H2 a r) as (a' & e & h). exists a'. split; [auto|]. intros n j. rewrite h. cbn. split; [tauto|intros [|[|]]; auto; discriminate]. Qed.
Lemma commands_ok {A} (l : list A) f cs : commands l f = (cs, Ok tt) -> forall c, In c cs <-> exists x y, In x l /\ f x = Ok y /\ In c y.
Proof. revert cs. induction l as [|x l IH]; cbn [commands]; intros cs h c.
  - injection h as <-. split; [intros []|intros (x & y & [] & _)].
  - destruct (f x) as [y|] eqn:E; [|discriminate]. destruct (commands l f) as [cs' r] eqn:F. injection h as <- ->. rewrite in_app_iff, (IH cs' eq_refl). split.
    + intros [h|(z & w & h1 & h2 & h3)]; [exists x, y; cbn; auto|exists z, w; cbn; auto].
    + intros (z & w & [<-|h1] & h2 & h3); [left; congruence|right; eauto]. Qed.
Lemma commands_all {A} (P : command -> Prop) (l : list A) f cs r : (forall x y, f x = Ok y -> Forall P y) -> commands l f = (cs, r) -> Forall P cs.
Proof. intros h. revert cs. induction l as [|x l IH]; cbn [commands]; intros cs e; [injection e as <- <-; constructor|]. destruct (f x) as [y|] eqn:E; [|injection e as <- <-; constructor]. destruct (commands l f) as [cs' r'] eqn:F. injection e as <- <-. apply Forall_app. split; eauto. Qed.
Definition is_clear (n : string) (c : command) : Prop := exists i, c = Clear n i.
Lemma clear_all n m cs r : clear_cmds n m = (cs, r) -> Forall (is_clear n) cs.
Proof. unfold clear_cmds. destruct (manager_of m) as [g|]; intros h; [|injection h as <- <-; constructor]. eapply commands_all; [|exact h]. intros x y. cbn. destruct (seq_index (knd m) (fst x)); intros e; [injection e as <-|discriminate]. repeat constructor. eexists. reflexivity. Qed.
Lemma arm_in n m k i : In (Arm k i) (arm_cmds n m) <-> k = n /\ (i < n_seq (knd m))%nat /\ In (seq_name i) (names (cmp m)).
Proof. unfold arm_cmds. rewrite in_flat_map. split.
  - intros (s & h & e). destruct (seq_index (knd m) s) eqn:E; [|destruct e]. destruct e as [e|[]]. injection e as <- <-. apply seq_index_some in E. destruct E as [-> lt]. auto.
  - intros (-> & lt & h). exists (seq_name i). split; [auto|]. assert (seq_index (knd m) (seq_name i) = Some i) as -> by (apply seq_index_some; auto). cbn. auto. Qed.
Lemma arm_shape n m : Forall (fun c => exists i, c = Arm n i) (arm_cmds n m).
Proof. apply Forall_forall. intros c h. unfold arm_cmds in h. apply in_flat_map in h. destruct h as (s & _ & e). destruct (seq_index (knd m) s); [|destruct e]. destruct e as [<-|[]]. eauto. Qed.
Lemma named_in {A} n (l : list (string * A)) : named n l = true <-> In n (map fst l).
Proof. unfold named. rewrite existsb_exists, in_map_iff. split.
  - intros ([k a] & h & e). apply String.eqb_eq in e. cbn in e. subst. exists (k, a). auto.
  - intros ([k a] & <- & h). exists (k, a). split; [auto|]. apply String.eqb_refl. Qed.
Lemma arm_all_quiet p l cs r : arm_all p l = (cs, r) -> Forall quiet_cmd cs.
Proof. revert cs r. induction l as [|[n m] l IH]; cbn [arm_all]; intros cs r h; [injection h as <- <-; constructor|]. destruct (named n (c_mods p)); [|eauto].
  destruct (clear_cmds n m) as [c1 r1] eqn:E. assert (Q : Forall quiet_cmd c1) by (eapply Forall_impl; [|eapply clear_all; eauto]; intros c [i ->]; exact I).
  destruct r1 as [u|e]; [|injection h as <- <-; auto]. destruct (arm_all p l) as [c2 r2]. injection h as <- <-. apply Forall_app. split; [auto|]. apply Forall_app. split; [|eauto]. eapply Forall_impl; [|apply arm_shape]. intros c [i ->]. exact I. Qed.
Lemma arm_all_in p l cs : arm_all p l = (cs, Ok tt) -> forall k i, In (Arm k i) cs <-> exists m, In (k, m) l /\ In k (map fst (c_mods p)) /\ (i < n_seq (knd m))%nat /\ In (seq_name i) (names (cmp m)).
Proof. revert cs. induction l as [|[n m] l IH]; cbn [arm_all]; intros cs h k i.
  - injection h as <-. split; [intros []|intros (m & [] & _)].
  - destruct (named n (c_mods p)) eqn:N.
    + destruct (clear_cmds n m) as [c1 [[]|e]] eqn:E; [|discriminate]. destruct (arm_all p l) as [c2 r2]. injection h as <- ->. rewrite !in_app_iff, arm_in, (IH c2 eq_refl). apply named_in in N. split.
      * intros [h|[(-> & h)|(x & h1 & h2)]]; [|exists m; cbn; tauto|exists x; cbn; tauto]. exfalso. apply clear_all in E. rewrite Forall_forall in E. apply E in h. destruct h as [j e]. discriminate.
      * intros (x & [e|h1] & h2 & h3); [|right; right; eauto]. assert (e1 := f_equal fst e). assert (e2 := f_equal snd e). cbn [fst snd] in *. subst. auto.
    + rewrite (IH cs h). split; [intros (x & h1 & h2); exists x; cbn; tauto|]. intros (x & [e|h1] & h2 & h3); [|eauto]. assert (e1 := f_equal fst e). cbn [fst] in e1. subst. apply named_in in h2. congruence. Qed.
(** clears come before the arms of the module *)
Lemma arm_all_clear p l cs n m g k : Distinct l -> arm_all p l = (cs, Ok tt) -> In (n, m) l -> In n (map fst (c_mods p)) -> manager_of m = Some g -> In (seq_name k) (map fst (m_mapping g)) ->
  exists a b, cs = a ++ Clear n k :: b /\ forall i, ~ In (Arm n i) a.
Proof. unfold Distinct. revert cs. induction l as [|[n' m'] l IH]; cbn [arm_all]; intros cs nd h hin hn hg hk; [destruct hin|]. cbn [map fst] in nd. inversion nd; subst.
  destruct hin as [e|hin].
  - assert (e1 := f_equal fst e). assert (e2 := f_equal snd e). cbn [fst snd] in *. subst. assert (named n (c_mods p) = true) as N by now apply named_in. rewrite N in h.
    destruct (clear_cmds n m) as [c1 [[]|x]] eqn:E; [|discriminate]. destruct (arm_all p l) as [c2 r2]. injection h as <- ->. assert (A := clear_all _ _ _ _ E). rewrite Forall_forall in A.
    assert (C : In (Clear n k) c1). { unfold clear_cmds in E. rewrite hg in E. apply in_map_iff in hk. destruct hk as ([s ch] & e1 & hk). cbn [fst] in e1. subst s.
      assert (X : exists i, seq_index (knd m) (seq_name k) = Some i). { destruct (seq_index (knd m) (seq_name k)) eqn:X; [eauto|]. exfalso. clear -E hk X. revert c1 E. induction (m_mapping g) as [|y l IH]; intros c1 E; [destruct hk|]. cbn [commands] in E. destruct hk as [->|hk]; [cbn [fst] in E; rewrite X in E; discriminate|].
          destruct (seq_index (knd m) (fst y)); [|discriminate]. match type of E with (let '(_, _) := ?z in _) = _ => destruct z as [cs' r'] eqn:Y end. injection E as <- ->. eapply IH; eauto. }
      destruct X as [i X]. pose proof X as X2. apply seq_index_some in X2. destruct X2 as [X2 _]. apply seq_name_inj in X2 as <-.
      apply (commands_ok _ _ _ E). exists (seq_name k, ch), [Clear n k]. split; [auto|]. cbn [fst]. rewrite X. cbn. auto. }
    apply in_split in C. destruct C as (a & b & ->). exists a, (b ++ arm_cmds n m ++ c2). split; [now rewrite <- app_assoc|]. intros i hi. destruct (A (Arm n i)) as [j e']; [apply in_or_app; auto|discriminate].
  - assert (n' <> n) by (intros ->; apply H1; apply in_map_iff; exists (n, m); auto). destruct (named n' (c_mods p)).
    + destruct (clear_cmds n' m') as [c1 [[]|x]] eqn:E; [|discriminate]. destruct (arm_all p l) as [c2 r2] eqn:F. injection h as <- ->. destruct (IH c2 H2 eq_refl hin hn hg hk) as (a & b & -> & hb).
      exists (c1 ++ arm_cmds n' m' ++ a), b. split; [now rewrite <- !app_assoc|]. intros i hi. rewrite !in_app_iff in hi. destruct hi as [hi|[hi|hi]]; [|apply arm_in in hi; destruct hi; congruence|eapply hb; eauto].
      apply clear_all in E. rewrite Forall_forall in E. apply E in hi. destruct hi as [j e]. discriminate.
    + eauto. Qed.
