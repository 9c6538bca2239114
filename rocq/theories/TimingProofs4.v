From Coq Require Import Permutation Relations Arith.
From Verif Require Import Base TimingModel TimingSpec TimingProofs TimingProofs2 TimingProofs3.
Open Scope Q_scope.

(** ** C07: timing an already timed schedule *)

Lemma delayed_none l tcs : (forall s, In s l -> s_delay s = None) -> delayed l tcs = tcs.
Proof.
  intros H. unfold delayed. rewrite <- (map_id tcs) at 2. apply map_ext. intros c.
  destruct (tc_ref c) as [r|]; [|reflexivity]. unfold delay_in.
  destruct (get_sch l r) as [s|] eqn:E; [|reflexivity].
  apply get_sch_some in E as [E _]. rewrite (H s E). reflexivity.
Qed.

Lemma explicit_tcs_idem st d tcs : explicit_tcs st d (explicit_tcs st d tcs) = explicit_tcs st d tcs.
Proof.
  destruct tcs as [|c r]; [reflexivity|]. cbn. f_equal. f_equal.
  - destruct (tc_ref c); [reflexivity|]. destruct d; reflexivity.
  - destruct (tc_pt c); reflexivity.
  - destruct (tc_ptnew c); reflexivity.
Qed.

Lemma spec_default_names st l l' k : map s_name l = map s_name l' -> spec_default st l k = spec_default st l' k.
Proof.
  intros H.
  assert (E : forall j, option_map s_name (nth_error l j) = option_map s_name (nth_error l' j)).
  { intros j. rewrite <- !nth_error_map, H. reflexivity. }
  unfold spec_default. destruct st; [destruct k; [reflexivity | apply E] | apply E].
Qed.

Lemma nth_error_ext {A} (l l' : list A) : (forall k, nth_error l k = nth_error l' k) -> l = l'.
Proof.
  revert l'. induction l as [|x l IH]; intros l' H; destruct l' as [|y l'].
  - reflexivity.
  - specialize (H 0%nat). discriminate.
  - specialize (H 0%nat). discriminate.
  - pose proof (H 0%nat) as H0. simpl in H0. injection H0 as ->. f_equal. apply IH. intros k. apply (H (S k)).
Qed.

Lemma fold_max_stale F d : forall cs m,
  (forall c, In c cs -> exists t, get_start_time F c d = Ok t /\ t <= m) ->
  foldM (max_step F d) cs (Some m) = Ok (Some m).
Proof.
  induction cs as [|c cs IH]; intros m H; [reflexivity|].
  cbn [foldM]. unfold max_step at 1. destruct (H c (or_introl eq_refl)) as [t [Ht Hle]]. rewrite Ht. cbn [bind].
  apply Qlt_bool_false in Hle. rewrite Hle. apply IH. intros; apply H; right; assumption.
Qed.

Lemma retime_same st reps l out d root :
  keys_ok l -> (forall s, In s l -> s_delay s = None) ->
  determine_level st reps l = Ok (out, d) ->
  nth_error l (root_pos st l) = Some root -> Starts out (s_name root) 0 ->
  determine_level st reps out = Ok (out, d).
Proof.
  intros Hk Hnd H Hroot Hz.
  destruct (determine_level_ok _ _ _ _ _ Hk H)
      as [l1 [o [F [root' [He [Hrk [Ht [Hroot' [Hhead [HF [HS [Hout Hd]]]]]]]]]]]].
  assert (root' = root) by congruence. subst root'. clear Hroot'.
  pose proof (solves_timed _ _ _ _ _ Hk He HS) as Htm.
  pose proof (keys_explicit _ _ _ He Hk) as Hk1.
  assert (HoutF : out = F).
  { pose proof (root_raw_zero _ _ _ _ _ He Hroot HS) as Hz0.
    destruct (normalize_shift F Htm) as [sh [_ [[Heq _]|[Hsh [Heq _]]]]]; [congruence|]. exfalso.
    destruct HS as [HFn _].
    assert (Hko : keys_ok out). { subst out. unfold keys_ok. rewrite normalize_names, HFn. exact Hk1. }
    destruct Hz0 as [x [Hx [Hxn Hxa]]].
    assert (Hz' : Starts out (s_name root) (abs_of x + sh)).
    { rewrite Hout, Heq. eexists. split; [apply in_map_iff; exists x; split; [reflexivity|exact Hx]|]. simpl. auto. }
    pose proof (starts_unique _ _ _ _ Hko Hz Hz') as E. unfold abs_of in E. rewrite Hxa in E.
    assert (0 == 0 + sh) by (rewrite <- E; reflexivity). lra. }
  assert (Hnd1 : forall s, In s l1 -> s_delay s = None).
  { intros s Hs. apply In_nth_error in Hs as [k Hs]. destruct (make_explicit_inv _ _ _ _ _ He Hs) as [s0 [Hs0 [-> _]]].
    simpl. apply Hnd. eapply nth_error_In; eauto. }
  destruct HS as [HFn HFe].
  assert (HkF : keys_ok F) by (unfold keys_ok; rewrite HFn; exact Hk1).
  assert (HlenF : List.length F = List.length l1) by (rewrite <- (map_length s_name F), HFn, map_length; reflexivity).
  (* F and l1 position by position *)
  assert (HFk : forall k f, nth_error F k = Some f -> exists s1, nth_error l1 k = Some s1 /\
            f = set_abs s1 (s_abs f) /\
            (if String.eqb (s_name s1) (s_name root) then s_abs f = Some 0
             else compute_abs st F s1 (s_tcs s1) = Ok (s_abs f))).
  { intros k f Hf.
    destruct (nth_error l1 k) as [s1|] eqn:E1.
    2:{ apply nth_error_None in E1. assert (k < List.length F)%nat by (apply nth_error_Some; congruence). lia. }
    exists s1. split; [reflexivity|].
    destruct (HFe _ (nth_error_In _ _ E1)) as [a [Hg Hc]].
    rewrite (delayed_none _ _ Hnd1) in Hg, Hc.
    assert (Hnm : s_name f = s_name s1).
    { assert (E : nth_error (map s_name F) k = nth_error (map s_name l1) k) by (rewrite HFn; reflexivity).
      rewrite !nth_error_map, Hf, E1 in E. simpl in E. congruence. }
    rewrite <- Hnm, (get_sch_in F f HkF (nth_error_In _ _ Hf)) in Hg.
    assert (Hfe : f = set_abs (set_tcs s1 (s_tcs s1)) a) by congruence.
    assert (Ha : a = s_abs f) by (rewrite Hfe; reflexivity). subst a.
    split; [|exact Hc]. rewrite Hfe at 1. destruct s1; reflexivity. }
  assert (HFnl : map s_name F = map s_name l) by (rewrite HFn; apply (make_explicit_names _ _ _ He)).
  assert (HeF : make_explicit st F = Ok F).
  { destruct (make_explicit_total st F) as [F1 HF1].
    { intros f Hf. apply In_nth_error in Hf as [k Hf]. destruct (HFk _ _ Hf) as [s1 [Hs1 [Hfe _]]].
      destruct (make_explicit_inv _ _ _ _ _ He Hs1) as [s0 [Hs0 [Hs1e Hne]]].
      rewrite Hfe. simpl. rewrite Hs1e. simpl. split.
      - destruct (s_tcs s0); [congruence|discriminate].
      - rewrite explicit_tcs_length. destruct (make_explicit_nth _ _ _ He) as [_ Hn]. apply (Hn _ _ Hs0). }
    rewrite HF1. f_equal. destruct (make_explicit_nth _ _ _ HF1) as [Hl1 Hn1].
    apply nth_error_ext. intros k. destruct (nth_error F k) as [f|] eqn:Ef.
    2:{ apply nth_error_None. rewrite Hl1. apply nth_error_None. exact Ef. }
    destruct (Hn1 _ _ Ef) as [-> _]. f_equal.
    destruct (HFk _ _ Ef) as [s1 [Hs1 [Hfe _]]].
    destruct (make_explicit_inv _ _ _ _ _ He Hs1) as [s0 [Hs0 [Hs1e _]]].
    rewrite (spec_default_names st F l k HFnl).
    assert (Htc : s_tcs f = explicit_tcs st (spec_default st l k) (s_tcs s0)) by (rewrite Hfe, Hs1e; reflexivity).
    rewrite Htc, explicit_tcs_idem, <- Htc. destruct f; reflexivity. }
  assert (HndF : forall s, In s F -> s_delay s = None).
  { intros f Hf. apply In_nth_error in Hf as [k Hf]. destruct (HFk _ _ Hf) as [s1 [Hs1 [-> _]]]. simpl.
    apply Hnd1. eapply nth_error_In; eauto. }
  assert (HSF : Solves st F (s_name root) F).
  { split; [reflexivity|]. intros f Hf. exists (s_abs f). rewrite (delayed_none _ _ HndF).
    split; [rewrite (get_sch_in F f HkF Hf); destruct f; reflexivity|].
    apply In_nth_error in Hf as [k Hf]. destruct (HFk _ _ Hf) as [s1 [Hs1 [Hfe Hc]]].
    assert (Hnm : s_name f = s_name s1) by (rewrite Hfe; reflexivity).
    assert (Htc : s_tcs f = s_tcs s1) by (rewrite Hfe; reflexivity).
    assert (Hdu : s_dur f = s_dur s1) by (rewrite Hfe; reflexivity).
    rewrite Hnm. destruct (String.eqb (s_name s1) (s_name root)); [exact Hc|].
    unfold compute_abs in *. rewrite Htc, Hdu. destruct st; [|exact Hc].
    destruct (Htm f (nth_error_In _ _ Hf)) as [m Hm]. rewrite Hm in *.
    apply fold_max_spec in Hc as [Hc _]. apply fold_max_stale. exact Hc. }
  assert (HTF : TopoX F o).
  { destruct Ht as [Hp Ho]. split; [rewrite HFn; exact Hp|]. intros pre n post Heq f Hf Hn.
    apply In_nth_error in Hf as [k Hf]. destruct (HFk _ _ Hf) as [s1 [Hs1 [Hfe _]]].
    rewrite Hfe in Hn |- *. simpl in Hn. unfold refs_of. simpl. apply (Ho pre n post Heq s1); [|exact Hn].
    eapply nth_error_In; eauto. }
  subst out. rewrite HoutF.
  assert (Hne : F <> []).
  { intros ->. destruct Hhead as [r Hr]. destruct Ht as [Hp _]. rewrite Hr in Hp.
    destruct l1; [|discriminate]. simpl in Hp. apply Permutation_sym, Permutation_nil in Hp. discriminate. }
  apply (order_independent st reps F F o HkF Hne HeF).
  - apply (topoX_iff st F F o HeF HkF). exact HTF.
  - exists F. split; [|split; [symmetry; exact HoutF | rewrite Hd, HoutF; reflexivity]].
    eapply solves_resolve; eauto.
Qed.

(** ** The whole tree *)
Lemma op_dur_lasts : forall o d, op_dur o = Some d <-> Lasts o d.
Proof.
  fix IH 1. intros [v du dl|du dl reps items|n b|q b] d; cbn [op_dur].
  - split; [intros H; injection H as <-; constructor | intros H; inversion H; subst; reflexivity].
  - split; [intros ->; constructor | intros H; inversion H; subst; reflexivity].
  - pose proof (IH b) as Hb. clear IH. destruct (op_dur b) as [db|]; split; intros H.
    + injection H as <-. constructor. apply Hb. reflexivity.
    + inversion H; subst. apply Hb in H3. injection H3 as ->. reflexivity.
    + discriminate.
    + inversion H; subst. apply Hb in H3. discriminate.
  - pose proof (IH b) as Hb. clear IH. destruct (op_dur b) as [db|]; split; intros H.
    + injection H as <-. constructor. apply Hb. reflexivity.
    + inversion H; subst. apply Hb in H3. injection H3 as ->. reflexivity.
    + discriminate.
    + inversion H; subst. apply Hb in H3. discriminate.
Qed.

Lemma mapM_describes items l : mapM item_sch items = Ok l -> Forall2 Describes items l.
Proof.
  revert l. induction items as [|i r IH]; intros l H; cbn [mapM] in H.
  - injection H as <-. constructor.
  - apply bind_ok in H as [s [Hs H]]. apply bind_ok in H as [r' [Hr H]]. injection H as <-.
    constructor; [|apply IH; exact Hr]. unfold item_sch in Hs.
    destruct (op_dur (it_op i)) as [d|] eqn:E; [|discriminate]. injection Hs as <-.
    repeat apply conj; try reflexivity. apply op_dur_lasts. exact E.
Qed.

Lemma write_all_maps : forall is out, List.length out = List.length is ->
  map it_name (write_all is out) = map it_name is /\ map it_op (write_all is out) = map it_op is /\
  map it_abs (write_all is out) = map s_abs out.
Proof.
  induction is as [|i is IH]; intros [|s out] H; try discriminate; [repeat split|].
  cbn in H. destruct (IH out ltac:(congruence)) as [H1 [H2 H3]]. cbn [write_all map write_back it_name it_op it_abs].
  rewrite H1, H2, H3. repeat split.
Qed.

Lemma mapM_names items l : mapM item_sch items = Ok l ->
  map s_name l = map it_name items /\ (forall s, In s l -> exists i, In i items /\ s_abs s = it_abs i).
Proof.
  revert l. induction items as [|i r IH]; intros l H; cbn [mapM] in H.
  - injection H as <-. split; [reflexivity | intros s []].
  - apply bind_ok in H as [s [Hs H]]. apply bind_ok in H as [r' [Hr H]]. injection H as <-.
    destruct (IH _ Hr) as [H1 H2].
    unfold item_sch in Hs. destruct (op_dur (it_op i)); [|discriminate]. injection Hs as <-. simpl. split.
    + f_equal; exact H1.
    + intros s [<-|Hin]; [exists i; simpl; auto|]. destruct (H2 s Hin) as [i' [Hi' E]]. eauto.
Qed.

Lemma ItemsTimed_keep st is is' : ItemsTimed st is is' ->
  map it_name is' = map it_name is /\ map it_abs is' = map it_abs is.
Proof. induction 1; simpl; [auto| |]; destruct IHItemsTimed; split; f_equal; assumption. Qed.

Fixpoint tree_timed st (o : op) {struct o} :
  forall o', TreeFresh o -> determine st o = Ok o' -> TreeTimed st o o'.
Proof.
  intros o' Hf H. destruct o as [v dur dl|dur dl reps items|n b|q b]; cbn [determine] in H.
  - injection H as <-. constructor.
  - apply bind_ok in H as [items1 [Hi H]]. apply bind_ok in H as [ss [Hss H]].
    apply bind_ok in H as [[out d] [Hd H]]. injection H as <-. cbn [fst snd].
    assert (HIT : ItemsTimed st items items1).
    { assert (Hfr : forall i, In i items -> TreeFresh (it_op i)).
      { inversion Hf as [| | |? ? ? ? _ Hit]; subst. intros i Hin. apply (Hit i Hin). }
      clear Hf Hss Hd. revert items1 Hi Hfr. induction items as [|[nm t a oi] r IH]; intros items1 Hi Hfr.
      - injection Hi as <-. constructor.
      - apply bind_ok in Hi as [o2 [Ho2 Hi]]. apply bind_ok in Hi as [r' [Hr Hi]]. injection Hi as <-.
        assert (HIr : ItemsTimed st r r') by (apply IH; [exact Hr | intros i Hin; apply Hfr; right; exact Hin]).
        pose proof (Hfr _ (or_introl eq_refl)) as Hfo. cbn [it_op] in Hfo.
        pose proof (tree_timed st oi) as Hrec. clear tree_timed IH Hfr Hr.
        destruct oi as [v2 d2 dl2|[d2|] dl2 reps2 is2|n2 b2|q2 b2].
        + destruct v2; [|discriminate]. injection Ho2 as <-. apply IT_cons; [constructor | exact HIr].
        + injection Ho2 as <-. apply IT_cached; exact HIr.
        + apply IT_cons; [apply Hrec; assumption | exact HIr].
        + apply IT_cons; [apply Hrec; assumption | exact HIr].
        + apply IT_cons; [apply Hrec; assumption | exact HIr]. }
    clear tree_timed. inversion Hf as [| | |? ? ? ? Hnd Hit]; subst.
    destruct (mapM_names _ _ Hss) as [Hn Ha]. destruct (ItemsTimed_keep _ _ _ HIT) as [Kn Ka].
    assert (HLT : LevelTimed st reps ss out d).
    2:{ assert (Hlen : List.length out = List.length items1).
        { destruct HLT as [HN _]. rewrite <- (map_length s_name out), HN, Hn, map_length. reflexivity. }
        destruct (write_all_maps items1 out Hlen) as [W1 [W2 W3]].
        eapply TT_sched; [exact HIT | exact (mapM_describes _ _ Hss) | exact HLT | exact W1 | exact W2 | exact W3]. }
    eapply level_timed; [| |exact Hd].
    + unfold keys_ok. rewrite Hn, Kn. exact Hnd.
    + intros s Hs. destruct (Ha s Hs) as [i [Hin ->]].
      assert (Hin' : In (it_abs i) (map it_abs items)) by (rewrite <- Ka; apply in_map; exact Hin).
      apply in_map_iff in Hin' as [i0 [<- Hi0]]. apply (Hit i0 Hi0).
  - apply bind_ok in H as [b' [Hb H]]. injection H as <-. constructor. apply tree_timed; [|exact Hb].
    inversion Hf; assumption.
  - apply bind_ok in H as [b' [Hb H]]. injection H as <-. constructor. apply tree_timed; [|exact Hb].
    inversion Hf; assumption.
Qed.

(** ** C06 for a whole tree: every execution lies within the duration *)
Definition Covered (o : op) : Prop :=
  forall D t s d, Lasts o D -> Executes o t s d -> t <= s /\ s + d <= t + D /\ 0 <= d.

Scheme TreeTimed_m := Minimality for TreeTimed Sort Prop
  with ItemsTimed_m := Minimality for ItemsTimed Sort Prop.
Combined Scheme Timed_mut from TreeTimed_m, ItemsTimed_m.

Lemma lasts_fun o d1 d2 : Lasts o d1 -> Lasts o d2 -> d1 = d2.
Proof. rewrite <- !op_dur_lasts. congruence. Qed.

Lemma nth_of_map {A B C} (f : A -> C) (g : B -> C) (l : list A) (l' : list B) k x :
  map f l = map g l' -> nth_error l k = Some x -> exists y, nth_error l' k = Some y /\ f x = g y.
Proof.
  intros H Hx. assert (E : nth_error (map g l') k = Some (f x)) by (rewrite <- H, nth_error_map, Hx; reflexivity).
  rewrite nth_error_map in E. destruct (nth_error l' k) as [y|]; [|discriminate]. exists y. split; [reflexivity|].
  cbn in E. congruence.
Qed.

Lemma Forall2_nth {A B} (R : A -> B -> Prop) l l' k x : Forall2 R l l' -> nth_error l k = Some x ->
  exists y, nth_error l' k = Some y /\ R x y.
Proof.
  intros H. revert k. induction H as [|a b l l' Hab _ IH]; intros [|k] Hk; try discriminate; cbn in *.
  - injection Hk as <-. exists b. auto.
  - apply IH. exact Hk.
Qed.

Lemma timed_covered st :
  (forall o o', TreeTimed st o o' -> Sound o -> Covered o') /\
  (forall l l', ItemsTimed st l l' -> (forall i, In i l -> Sound (it_op i)) -> forall i, In i l' -> Covered (it_op i)).
Proof.
  apply Timed_mut.
  - intros v d dl HS D t s d0 HD HE. inversion HS; subst. inversion HD; subst. inversion HE; subst. lra.
  - intros n b b' _ IH HS D t s d HD HE. inversion HS; subst. inversion HD; subst. inversion HE as [| |? ? db k ? ? ? Hb Hk HEb|]; subst.
    assert (Ed : db = d0) by (eapply lasts_fun; eassumption). subst d0.
    specialize (IH ltac:(assumption) _ _ _ _ Hb HEb). destruct IH as [I1 [I2 I3]].
    assert (J0 : 0 <= inject_Z k) by (change 0 with (inject_Z 0); rewrite <- Zle_Qle; lia).
    assert (J1 : inject_Z k + 1 <= inject_Z n) by (change 1 with (inject_Z 1); rewrite <- inject_Z_plus, <- Zle_Qle; lia).
    assert (J2 : 0 <= db) by lra.
    pose proof (Qmult_le_0_compat _ _ J0 J2). pose proof (Qmult_le_compat_r _ _ _ J1 J2). lra.
  - intros q b b' _ IH HS D t s d HD HE. inversion HS; subst. inversion HD; subst. inversion HE; subst.
    match goal with H : Lasts b' ?x, H' : Executes b' _ _ _ |- _ => specialize (IH ltac:(assumption) _ _ _ _ H H') end. lra.
  - intros dur dl reps items items1 items2 l out d _ IH HF HL HN HO HA HS D t s d0 HD HE.
    inversion HS; subst. inversion HD; subst. inversion HE as [|? ? ? ? i a ? ? ? Hin Hia HEi| |]; subst.
    apply In_nth_error in Hin as [k Hk].
    destruct (nth_of_map _ _ _ _ _ _ HO Hk) as [i1 [Hk1 Ho]].
    destruct (nth_of_map _ _ _ _ _ _ HA Hk) as [so [Hko Hso]].
    destruct (Forall2_nth _ _ _ _ _ HF Hk1) as [sl [Hkl [_ [_ [_ [Hlast _]]]]]].
    destruct HL as [HLn [_ [Hpos [_ [D0 [HD0 [HD1 [HD2 _]]]]]]]].
    assert (Hnm : s_name so = s_name sl).
    { destruct (nth_of_map _ _ _ _ _ _ HLn Hko) as [y [Hy Hyn]]. congruence. }
    assert (HSt : Starts out (s_name so) a).
    { exists so. split; [eapply nth_error_In; eauto|]. split; [reflexivity|congruence]. }
    pose proof (Hpos _ _ HSt) as Ha0.
    pose proof (HD2 _ _ sl HSt (nth_error_In _ _ Hkl) (eq_sym Hnm)) as HDk.
    rewrite Ho in HEi.
    destruct (IH ltac:(assumption) i1 (nth_error_In _ _ Hk1) _ _ _ _ Hlast HEi) as [I1 [I2 I3]].
    assert (Hr : 1 <= inject_Z reps) by (change 1 with (inject_Z 1); rewrite <- Zle_Qle; lia).
    pose proof (Qmult_le_compat_r _ _ _ Hr HD1). lra.
  - intros _ i [].
  - intros n t a dur dl reps is r r' _ IH HS i [<-|Hi].
    + specialize (HS _ (or_introl eq_refl)). cbn [it_op] in HS. inversion HS.
    + apply IH; [|exact Hi]. intros j Hj. apply HS. right. exact Hj.
  - intros n t a o o' r r' _ IHo _ IH HS i [<-|Hi].
    + cbn [it_op]. apply IHo. apply (HS _ (or_introl eq_refl)).
    + apply IH; [|exact Hi]. intros j Hj. apply HS. right. exact Hj.
Qed.
