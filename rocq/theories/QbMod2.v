(** Module parameters: the writes of [prepare] outside the sequencers. *)
From Coq Require Import Ascii.
From Verif Require Import Base PathModel JsonModel ZiIds QbModel QbSpec QbProps QbSeq QbSeq2 QbPrep QbThms QbMod.
Local Open Scope string_scope.
Local Open Scope list_scope.

Definition otab := list (string * option value).
Definition flat (t : otab) : list item := flat_map (fun '(q, o) => match o with Some v => [(LMod, q, v)] | None => [] end) t.
Lemma flat_app a b : flat (a ++ b) = flat a ++ flat b.
Proof. apply flat_map_app. Qed.
Lemma flat_in t l q v : In (l, q, v) (flat t) <-> l = LMod /\ In (q, Some v) t.
Proof. unfold flat. rewrite in_flat_map. split.
  - intros ([q' [v'|]] & h & e); [|destruct e]. destruct e as [e|[]]. injection e as <- <- <-. auto.
  - intros [-> h]. exists (q, Some v). cbn. auto. Qed.

Section D.
Variable d : driver.
Hypothesis gc : GoodCalibration d.
Variable K : loc -> string -> Prop.
Definition On {A} (m : M A) (ws : list item) : Prop := forall c c' a, m c = (c', Ok a) -> (forall l q, K l q -> mem c' l q = fold_left (wr d) ws (mem c) l q) /\ Forall (settable d) ws.
Lemma wr_at m1 m2 it l q : m1 l q = m2 l q -> wr d m1 it l q = wr d m2 it l q.
Proof. intros h. destruct (key_dec (key it) (l, q)) as [e|n]; [|now rewrite !wr_other]. destruct it as [[l0 q0] v]. cbn in e. injection e as -> ->. cbn [wr]. destruct (has d l q); [|auto]. destruct (force_set d); [now rewrite !upd_same|]. unfold same_as_cache. rewrite h. destruct (match cached (m2 l q) with Some w => py_eq w v | None => false end); [auto|now rewrite !upd_same]. Qed.
Lemma wrs_at ws l q : forall m1 m2, m1 l q = m2 l q -> fold_left (wr d) ws m1 l q = fold_left (wr d) ws m2 l q.
Proof. induction ws as [|it ws IH]; cbn [fold_left]; intros m1 m2 h; [auto|]. apply IH. now apply wr_at. Qed.
Lemma on_bnd {A B} (m : M A) (f : A -> M B) ws ws' : On m ws -> (forall a, On (f a) ws') -> On (bnd m f) (ws ++ ws').
Proof. intros h1 h2 c c' b e. apply bnd_inv in e. destruct e as [(c1 & a & e1 & e2)|(x & _ & e)]; [|discriminate]. apply h1 in e1. apply h2 in e2. destruct e1 as [e1 f1], e2 as [e2 f2]. split; [|apply Forall_app; auto]. intros l q k. rewrite e2 by auto. rewrite fold_left_app. apply wrs_at. auto. Qed.
Lemma on_then {A B} (m : M A) (n : M B) ws ws' : On m ws -> On n ws' -> On (m >> n) (ws ++ ws').
Proof. intros. apply on_bnd; auto. Qed.
Lemma on_writes m ws : Writes d m ws -> On m ws.
Proof. intros h c c' [] e. apply h in e. destruct e as [-> f]. auto. Qed.
Lemma on_touch {A} (m : M A) : Touch m (fun l q => ~ K l q) -> On m [].
Proof. intros h c c' a e. split; [|auto]. intros l q k. cbn. eapply h; eauto. Qed.
Lemma on_pure {A} (m : M A) : (forall c, mem (fst (m c)) = mem c) -> On m [].
Proof. intros h. apply on_touch. now apply touch_pure. Qed.
Definition OT {A} (m : M A) (t : otab) : Prop := On m (flat t).
Lemma ot_then {A B} (m : M A) (n : M B) a b : OT m a -> OT n b -> OT (m >> n) (a ++ b).
Proof. unfold OT. rewrite flat_app. apply on_then. Qed.
Lemma ot_bnd {A B} (m : M A) (f : A -> M B) a b : OT m a -> (forall x, OT (f x) b) -> OT (bnd m f) (a ++ b).
Proof. unfold OT. rewrite flat_app. apply on_bnd. Qed.
Lemma ot_set q v : OT (set_mod d q v) [(q, Some v)].
Proof. apply on_writes, writes_set. Qed.
Lemma ot_when {A} (o : option A) f g : (forall a, OT (f a) (g (Some a))) -> flat (g None) = [] -> OT (when_some o f) (g o).
Proof. intros h e. destruct o; [apply h|]. unfold OT. rewrite e. now apply on_pure. Qed.
Lemma ot_onum q o : OT (set_onum d q o) [(q, option_map VNum o)].
Proof. unfold set_onum. apply (ot_when o _ (fun o => [(q, option_map VNum o)])); [intros; apply ot_set|reflexivity]. Qed.
Lemma ot_oint q o : OT (set_oint d q o) [(q, option_map (fun z => VNum (inject_Z z)) o)].
Proof. unfold set_oint. apply (ot_when o _ (fun o => [(q, option_map (fun z => VNum (inject_Z z)) o)])); [intros; apply ot_set|reflexivity]. Qed.
Lemma ot_each {A} (l : list A) f g : (forall a, OT (f a) (g a)) -> OT (for_each l f) (flat_map g l).
Proof. intros h. induction l as [|x l IH]; cbn [for_each flat_map]; [now apply on_pure|]. now apply ot_then. Qed.
Lemma ot_coeff cs n q : OT (bnd (coeff cs n) (fun x => set_mod d q (VNum x))) [(q, option_map VNum (nth_error cs n))].
Proof. intros c c' a e. unfold coeff in e. destruct (nth_error cs n) as [x|]; [|discriminate]. cbn [option_map]. apply (ot_set q (VNum x) c c' a). exact e. Qed.

Definition dist_tab_qcm (o : nat) (dc : dist) : otab :=
  (flat_map (fun i => let e := nth i (exps dc) nofilt in
     ([(out_ o ("_exp" ++ dec_n i ++ "_time_constant"), match coeffs e with Some cs => option_map VNum (nth_error cs 0) | None => None end)] ++ [(out_ o ("_exp" ++ dec_n i ++ "_amplitude"), match coeffs e with Some cs => option_map VNum (nth_error cs 1) | None => None end)]) ++
     [(out_ o ("_exp" ++ dec_n i ++ "_config"), Some (VStr (fconfig e)))] ++ [(marker_ o ("_exp" ++ dec_n i ++ "_config"), Some (VStr (fmarker e)))]) (List.seq 0 4)) ++
   [(out_ o "_fir_coeffs", option_map VList (coeffs (fir dc)))] ++ [(out_ o "_fir_config", Some (VStr (fconfig (fir dc))))] ++ [(marker_ o "_fir_config", Some (VStr (fmarker (fir dc))))].
Definition dist_tab_qrm (o : nat) (dc : dist) : otab := flat_map (fun i => [(out_ o ("_exp" ++ dec_n i ++ "_config"), Some (VStr (fconfig (nth i (exps dc) nofilt))))]) (List.seq 0 4) ++ [(out_ o "_fir_config", Some (VStr (fconfig (fir dc))))].
Lemma dist_qcm st : OT (config_dist_qcm d st) (flat_map (fun '(o, dc) => dist_tab_qcm o dc) (enum_from 0 (firstn (n_out QCM) (dists st)))).
Proof. unfold config_dist_qcm. apply ot_each. intros [o dc]. unfold dist_tab_qcm. rewrite !app_assoc. apply ot_then; [|apply ot_set]. apply ot_then; [|apply ot_set]. apply ot_then.
  - apply ot_each. intros i. cbv zeta. rewrite !app_assoc. apply ot_then; [|apply ot_set]. apply ot_then; [|apply ot_set]. destruct (coeffs (nth i (exps dc) nofilt)) as [cs|]; cbn [when_some]; [apply ot_then; apply ot_coeff|now apply on_pure].
  - apply (ot_when (coeffs (fir dc)) _ (fun o' => [(out_ o "_fir_coeffs", option_map VList o')])); [intros; apply ot_set|reflexivity]. Qed.
Lemma dist_qrm st : OT (config_dist_qrm d st) (flat_map (fun '(o, dc) => dist_tab_qrm o dc) (enum_from 0 (firstn (n_out QRM) (dists st)))).
Proof. unfold config_dist_qrm. apply ot_each. intros [o dc]. apply ot_then; [|apply ot_set]. apply ot_each. intros i. apply ot_set. Qed.
Definition gtab (k : kind) (st : mset) : otab :=
  match k with
  | QCM => (([("out0_offset", num off0I st)] ++ [("out1_offset", num off0Q st)]) ++ [("out2_offset", num off1I st)]) ++ [("out3_offset", num off1Q st)] ++ flat_map (fun '(o, dc) => dist_tab_qcm o dc) (enum_from 0 (firstn (n_out QCM) (dists st)))
  | QRM => (([("out0_offset", num off0I st)] ++ [("out1_offset", num off0Q st)]) ++ [("in0_gain", int in0_gain st)]) ++ [("in1_gain", int in1_gain st)] ++ flat_map (fun '(o, dc) => dist_tab_qrm o dc) (enum_from 0 (firstn (n_out QRM) (dists st)))
  | QCM_RF => (((([("out0_offset_path0", num off0I st)] ++ [("out0_offset_path1", num off0Q st)]) ++ [("out1_offset_path0", num off1I st)]) ++ [("out1_offset_path1", num off1Q st)]) ++ [("out0_att", int (fun st => out_att st 0) st)]) ++ [("out1_att", int (fun st => out_att st 1) st)]
  | QRM_RF => (([("out0_offset_path0", num off0I st)] ++ [("out0_offset_path1", num off0Q st)]) ++ [("out0_att", int (fun st => out_att st 0) st)]) ++ [("in0_att", int in0_att st)]
  | QRC => flat_map (fun i => [(out_ i "_att", option_map (fun _ => VBool true) (out_att st i))]) (List.seq 0 6)
  | QTM => []
  end.
Lemma global_ot k st : OT (config_global d k st) (gtab k st).
Proof. destruct k; cbn [config_global gtab].
  - rewrite (app_assoc _ [("out3_offset", _)]). apply ot_then; [|apply dist_qcm]. repeat apply ot_then; apply ot_onum.
  - rewrite (app_assoc _ [("in1_gain", _)]). apply ot_then; [|apply dist_qrm]. apply ot_then; [|apply ot_oint]. apply ot_then; [|apply ot_oint]. apply ot_then; apply ot_onum.
  - apply ot_then; [|apply ot_oint]. apply ot_then; [|apply ot_oint]. repeat apply ot_then; apply ot_onum.
  - apply ot_then; [|apply ot_oint]. apply ot_then; [|apply ot_oint]. apply ot_then; apply ot_onum.
  - apply ot_each. intros i. apply (ot_when (out_att st i) _ (fun o => [(out_ i "_att", option_map (fun _ => VBool true) o)])); [intros; apply ot_set|reflexivity].
  - now apply on_pure. Qed.
Definition stab (k : kind) : otab := flat_map (fun path => [(("scope_acq_trigger_mode_path" ++ dec_n path)%string, Some (VStr "sequencer"))] ++ [(("scope_acq_avg_mode_en_path" ++ dec_n path)%string, Some (VBool true))]) (List.seq 0 (n_scope k)).
Lemma scope_ot k : OT (for_each (List.seq 0 (n_scope k)) (fun path => set_mod d ("scope_acq_trigger_mode_path" ++ dec_n path) (VStr "sequencer") >> set_mod d ("scope_acq_avg_mode_en_path" ++ dec_n path) (VBool true))) (stab k).
Proof. apply ot_each. intros. apply ot_then; apply ot_set. Qed.
Definition sel (k : kind) (data : channels_data) (p : program aset) : option value :=
  match p_mapping p with Some hwm => match scope_seq k data hwm with Ok (Some (i, _)) => Some (VNum (inject_Z (Z.of_nat i))) | _ => None end | None => None end.
Definition seltab (k : kind) (data : channels_data) (p : program aset) : otab := [("scope_acq_sequencer_select", sel k data p)].
Lemma select_ot k data p : OT (select_scope d k data p) (seltab k data p).
Proof. unfold select_scope, seltab, sel. destruct (p_mapping p) as [hwm|]; cbn [when_some]; [|now apply on_pure]. intros c c' a e. unfold bnd, lift in e. destruct (scope_seq k data hwm) as [[[i n]|]|]; cbn [when_some] in e; [| |discriminate].
  - apply (ot_set "scope_acq_sequencer_select" (vint (Z.of_nat i)) c c' a e).
  - injection e as <- <-. cbn. auto. Qed.
Definition lotab (k : kind) (st : mset) : otab :=
  match k with
  | QCM_RF => [("out0_lo_freq", num (fun st => lo_freq st 0) st)] ++ [("out1_lo_freq", num (fun st => lo_freq st 1) st)]
  | QRM_RF => [("out0_in0_lo_freq", num (fun st => lo_freq st 0) st)]
  | QRC => flat_map (fun i => [(out_ i ("_in" ++ dec_n i ++ "_lo_freq"), num (fun st => lo_freq st i) st)]) (List.seq 0 2) ++ flat_map (fun i => [(out_ i "_lo_freq", num (fun st => lo_freq st i) st)]) (List.seq 2 4)
  | _ => []
  end.
Lemma set_lo_ot q o : OT (set_lo d q o) [(q, option_map VNum o)].
Proof. unfold set_lo. destruct o as [f|]; [|now apply on_pure]. destruct (has d LMod q); [|intros c c' a e; discriminate]. apply (ot_bnd _ _ [] [(q, Some (VNum f))]); [now apply on_pure|]. intros x. change [(q, Some (VNum f))] with ([(q, Some (VNum f))] ++ []). apply ot_then; [apply ot_set|now apply on_pure]. Qed.
Definition lo_ok (k : kind) (st : mset) : Prop := (forall q, K LMod q -> ~ offset_param q) \/ NoLoCal k st.
Lemma lo_calibrate_ot n m a b : (forall q, K LMod q -> ~ offset_param q) \/ m = LoOff -> OT (lo_calibrate d n m a b) [].
Proof. intros h. unfold lo_calibrate. destruct (match m with LoOff => false | LoOnLo => a | LoOnLoIf => a || b end) eqn:E; [|now apply on_pure]. apply on_touch. intros c c' r e l q nk. unfold calibrate in e. injection e as <- <-. cbn. apply (gc_lo d gc). intros [-> ho]. destruct h as [h|h]; [|subst; discriminate]. apply nk. intros kq. now apply (h q). Qed.
Lemma lo_ot k st seqs : lo_ok k st -> OT (config_lo d k st seqs) (lotab k st).
Proof. intros h. assert (A : forall l, OT (any_nco l) []) by (intros; apply on_touch, any_nco_touch). unfold lo_ok, NoLoCal in h. destruct k; cbn [config_lo lotab]; try now apply on_pure.
  - apply ot_bnd; [apply set_lo_ot|intros lo0]. rewrite <- (app_nil_r [("out1_lo_freq", _)]). apply ot_bnd; [apply set_lo_ot|intros lo1]. apply (ot_bnd _ _ [] []); [apply A|intros n0]. apply (ot_bnd _ _ [] []); [apply A|intros n1]. apply (ot_then _ _ [] []); apply lo_calibrate_ot; tauto.
  - rewrite <- (app_nil_r [("out0_in0_lo_freq", _)]). apply ot_bnd; [apply set_lo_ot|intros lo0]. apply (ot_bnd _ _ [] []); [apply A|intros n0]. apply lo_calibrate_ot. tauto.
  - apply ot_then; apply ot_each; intros; apply ot_onum. Qed.

Definition with_st (p : program aset) (f : mset -> otab) : otab := match p_settings p with Some st => f st | None => [] end.
Definition mtab (k : kind) (data : channels_data) (p : program aset) : otab :=
  match k with
  | QCM => with_st p (gtab k)
  | QCM_RF => with_st p (gtab k) ++ with_st p (lotab k)
  | QRM => with_st p (gtab k) ++ stab k ++ seltab k data p
  | QRM_RF => with_st p (gtab k) ++ stab k ++ seltab k data p ++ with_st p (lotab k)
  | QRC => with_st p (gtab k) ++ stab k ++ with_st p (lotab k) ++ seltab k data p
  | QTM => []
  end.
Hypothesis hK : forall l q, K l q -> l = LMod.
Lemma seq_on {A} (m : M A) i : Touch m (seq_key i) -> OT m [].
Proof. intros h. apply on_touch. eapply touch_weaken; [exact h|]. unfold seq_key. intros l q -> k. apply hK in k. discriminate. Qed.
Lemma each_on {S} k (p : program S) f : (forall j n s, Touch (f j n s) (seq_key j)) -> OT (each_seq k p f) [].
Proof. intros h. apply on_touch. apply each_seq_touch. intros j n s _ _ _. eapply touch_weaken; [apply h|]. unfold seq_key. intros l q -> kq. apply hK in kq. discriminate. Qed.
Lemma mixer_seq i s : Touch (config_mixer d i s) (seq_key i).
Proof. eapply touch_weaken; [now apply mixer_touch|]. unfold seq_key. tauto. Qed.
Lemma with_ot (p : program aset) f g : (forall st, p_settings p = Some st -> OT (f st) (g st)) -> OT (when_some (p_settings p) f) (with_st p g).
Proof. intros h. unfold with_st. destruct (p_settings p); [now apply h|now apply on_pure]. Qed.
Lemma disable_on k : OT (disable_sync d k) [].
Proof. apply on_touch. eapply touch_weaken; [apply disable_touch|]. intros l q (i & -> & _) kq. apply hK in kq. discriminate. Qed.
Lemma base_on (p : program aset) : OT (prepare_base p) [].
Proof. apply on_touch, base_touch'. Qed.
Lemma rf_ot k p : (forall st, p_settings p = Some st -> lo_ok k st) -> OT (prepare_rf d k p) (with_st p (lotab k)).
Proof. intros h. unfold prepare_rf. apply (ot_then _ _ [] (with_st p (lotab k))); [apply each_on; intros; now apply touch_pure|]. apply with_ot. intros st hs. apply lo_ot. auto. Qed.
Lemma post_readout_ot k data p : OT (post_readout d k data p) (with_st p (gtab k) ++ stab k).
Proof. unfold post_readout. apply (ot_then _ _ [] (with_st p (gtab k) ++ stab k)).
  - destruct (p_mapping p); [|now apply on_pure]. apply (ot_bnd _ _ [] []); intros; now apply on_pure.
  - apply ot_then; [apply with_ot; intros; apply global_ot|apply scope_ot]. Qed.
Lemma prepare_ot k data p : k <> QTM -> (forall st, p_settings p = Some st -> lo_ok k st) -> OT (prepare d k data p) (mtab k data p).
Proof. intros hk hl c c' a e. rewrite prepare_split in e by auto. revert c c' a e. change (OT (pre d k p >> each_seq k p (body d k) >> post d k data p) (mtab k data p)).
  assert (B : OT (each_seq k p (body d k)) []) by (apply each_on; intros; now apply body_touch).
  assert (Mx : OT (mixers d k p) []) by (unfold mixers; destruct k; try (now apply on_pure); apply each_on; intros; apply mixer_seq).
  assert (P : OT (pre d k p) (match k with QCM | QCM_RF => with_st p (gtab k) | _ => [] end)).
  { unfold pre. destruct k; try (apply (ot_then _ _ [] []); [apply base_on|apply disable_on]); (rewrite <- (app_nil_r (with_st _ _)); apply ot_then; [|apply disable_on]; apply (ot_then _ _ [] (with_st p (gtab _))); [apply base_on|apply with_ot; intros; apply global_ot]). }
  assert (PR := post_readout_ot k data p). assert (RF := rf_ot k p hl). assert (SL := select_ot k data p).
  destruct k; cbn [mtab post]; try congruence.
  - rewrite <- (app_nil_r (with_st _ _)). apply ot_then; [|now apply on_pure]. rewrite <- (app_nil_r (with_st _ _)). now apply ot_then.
  - rewrite app_assoc. apply (ot_then _ _ [] (_ ++ _)); [now apply (ot_then _ _ [] [])|]. apply ot_then; [auto|]. now apply (ot_then _ _ [] (seltab _ _ _)).
  - apply ot_then; [|auto]. rewrite <- (app_nil_r (with_st _ _)). now apply ot_then.
  - rewrite app_assoc. apply (ot_then _ _ [] (_ ++ _)); [now apply (ot_then _ _ [] [])|]. apply ot_then; [auto|]. apply (ot_then _ _ [] (seltab _ _ _ ++ _)); [auto|]. now apply ot_then.
  - rewrite app_assoc. apply (ot_then _ _ [] (_ ++ _)); [now apply (ot_then _ _ [] [])|]. apply ot_then; [auto|]. now apply ot_then. Qed.
End D.
