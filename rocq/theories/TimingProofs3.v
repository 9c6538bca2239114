From Coq Require Import Permutation Relations Arith.
From Verif Require Import Base TimingModel TimingSpec TimingProofs TimingProofs2.
Open Scope Q_scope.

(** the earliest start time is exactly 0 *)
Lemma root_raw_zero st l l1 root F :
  make_explicit st l = Ok l1 -> nth_error l (root_pos st l) = Some root -> Solves st l1 (s_name root) F ->
  Starts F (s_name root) 0.
Proof.
  intros He Hroot [HFn HFe].
  destruct (make_explicit_nth _ _ _ He) as [_ Hnth]. destruct (Hnth _ _ Hroot) as [H1 _].
  destruct (HFe _ (nth_error_In _ _ H1)) as [a [Hg Hc]]. simpl in Hg, Hc.
  rewrite String.eqb_refl in Hc. subst a. eapply get_starts; [exact Hg | reflexivity].
Qed.

Lemma earliest_zero st reps l out d :
  keys_ok l -> determine_level st reps l = Ok (out, d) ->
  (forall n t, Starts out n t -> 0 <= t) /\ (exists n t, Starts out n t /\ t == 0).
Proof.
  intros Hk H. destruct (determine_level_ok _ _ _ _ _ Hk H)
      as [l1 [o [F [root [He [_ [_ [Hroot [_ [_ [HS [-> _]]]]]]]]]]]].
  pose proof (solves_timed _ _ _ _ _ Hk He HS) as Htm.
  destruct (normalize_correct F Htm) as [_ [Hnn [Hneg [Hid _]]]].
  split; [exact Hnn|].
  pose proof (root_raw_zero _ _ _ _ _ He Hroot HS) as Hz.
  destruct (normalize_shift F Htm) as [sh [_ [[Heq [_ _]]|[_ [Heq [_ [s [Hs Hs0]]]]]]]].
  - exists (s_name root), 0. rewrite Heq. split; [exact Hz | reflexivity].
  - exists (s_name s), (abs_of s + sh). split; [|exact Hs0]. rewrite Heq.
    exists (set_abs s (Some (abs_of s + sh))). split; [apply in_map_iff; eauto | simpl; auto].
Qed.

Lemma level_timed st reps l out d :
  keys_ok l -> fresh l -> determine_level st reps l = Ok (out, d) -> LevelTimed st reps l out d.
Proof.
  intros Hk Hf H. destruct (timing_constraints _ _ _ _ _ Hk Hf H) as [Hn Hc].
  destruct (earliest_zero _ _ _ _ _ Hk H) as [Hnn Hz].
  split; [exact Hn|]. split; [exact Hc|]. split; [exact Hnn|]. split; [exact Hz|].
  pose proof (determine_timed _ _ _ _ _ Hk H) as Htm.
  pose proof (determine_ops _ _ _ _ _ Hk H) as Hops.
  assert (Hd : d = schedule_duration reps out).
  { destruct (determine_level_ok _ _ _ _ _ Hk H) as [? [? [? [? [_ [_ [_ [_ [_ [_ [_ [_ Hd]]]]]]]]]]]]. exact Hd. }
  assert (Hko : keys_ok out) by (unfold keys_ok; rewrite Hn; exact Hk).
  assert (Hmatch : forall s', In s' out -> exists s, In s l /\ s_name s = s_name s' /\ s_dur s = s_dur s').
  { clear - Hops. induction Hops as [|s s' l out [H1 [H2 _]] Hops IH]; intros x [].
    - subst x. exists s. split; [left; reflexivity|]. split; congruence.
    - destruct (IH x H) as [y [Hy Hy']]. exists y. split; [right; exact Hy | exact Hy']. }
  destruct (duration_correct reps out Htm) as [D [HD1 [HD2 [HD3 HD4]]]].
  exists D. split; [rewrite Hd; exact HD1|]. split; [exact HD2|]. split.
  - intros n t s [s' [Hs' [Hs'n Hs'a]]] Hs Hsn.
    destruct (Hmatch s' Hs') as [s2 [Hs2 [Hs2n Hs2d]]].
    assert (s2 = s).
    { apply get_sch_in in Hs2; [|exact Hk]. apply get_sch_in in Hs; [|exact Hk].
      rewrite Hs2n, Hs'n in Hs2. rewrite Hsn in Hs. congruence. }
    subst s2. rewrite Hs2d. apply HD3 with (s := s'); assumption.
  - destruct HD4 as [HD4|[s' [t [Hs' [Ha Heq]]]]]; [left; exact HD4|]. right.
    destruct (Hmatch s' Hs') as [s2 [Hs2 [Hs2n Hs2d]]].
    exists (s_name s'), t, s2. split; [exists s'; auto|]. split; [exact Hs2|]. split; [exact Hs2n|].
    rewrite Hs2d. exact Heq.
Qed.

(** ** C05 *)
Lemma unc_ref st l k j s c :
  nth_error l k = Some s -> Unconstrained s -> nth_error (s_tcs s) j = Some c ->
  j = 0%nat /\ c = {| tc_ref := None; tc_pt := None; tc_ptnew := None; tc_rel := 0 |} /\
  the_ref st l k j c = spec_default st l k.
Proof.
  intros Hk [Ht _] Hj. rewrite Ht in Hj. destruct j as [|j]; [|destruct j; discriminate].
  inversion Hj; subst. split; [reflexivity|]. split; [reflexivity|]. reflexivity.
Qed.

Lemma unc_refers st l a b :
  keys_ok l -> (forall s, In s l -> Unconstrained s) -> RefersTo st l a b ->
  exists ka kb sa sb, nth_error l ka = Some sa /\ s_name sa = a /\ nth_error l kb = Some sb /\ s_name sb = b /\
    match st with ASAP => kb = S ka | ALAP => ka = S kb end.
Proof.
  intros Hk Hu [k [j [s [c [Hks [Hsn [Hj Hr]]]]]]].
  destruct (unc_ref st l k j s c Hks (Hu s (nth_error_In _ _ Hks)) Hj) as [_ [_ Hd]].
  rewrite Hd in Hr. unfold spec_default in Hr. destruct st.
  - destruct k as [|k]; [discriminate|]. destruct (nth_error l k) as [sa|] eqn:E; [|discriminate].
    simpl in Hr. inversion Hr. exists k, (S k), sa, s. auto.
  - destruct (nth_error l (S k)) as [sa|] eqn:E; [|discriminate].
    simpl in Hr. inversion Hr. exists (S k), k, sa, s. auto.
Qed.

Lemma pos_unique l k k' s s' :
  keys_ok l -> nth_error l k = Some s -> nth_error l k' = Some s' -> s_name s = s_name s' -> k = k'.
Proof.
  intros Hk H1 H2 Hn. eapply (proj1 (NoDup_nth_error (map s_name l)) Hk).
  - rewrite map_length. apply nth_error_Some. congruence.
  - rewrite !nth_error_map, H1, H2. simpl. congruence.
Qed.

Lemma unc_acyclic st l : keys_ok l -> (forall s, In s l -> Unconstrained s) -> ~ Circular st l.
Proof.
  intros Hk Hu [n Hn].
  assert (Hpos : forall a b, clos_trans _ (RefersTo st l) a b ->
     exists ka kb sa sb, nth_error l ka = Some sa /\ s_name sa = a /\ nth_error l kb = Some sb /\ s_name sb = b /\
       match st with ASAP => (ka < kb)%nat | ALAP => (kb < ka)%nat end).
  { intros a b H. induction H as [a b H|a b c H1 IH1 H2 IH2].
    - destruct (unc_refers st l a b Hk Hu H) as [ka [kb [sa [sb [E1 [E2 [E3 [E4 E5]]]]]]]].
      exists ka, kb, sa, sb. repeat split; try assumption. destruct st; lia.
    - destruct IH1 as [ka [kb [sa [sb [E1 [E2 [E3 [E4 E5]]]]]]]].
      destruct IH2 as [kb' [kc [sb' [sc [F1 [F2 [F3 [F4 F5]]]]]]]].
      assert (kb = kb') by (eapply (pos_unique l); [exact Hk|exact E3|exact F1|congruence]). subst kb'.
      exists ka, kc, sa, sc. repeat split; try assumption. destruct st; lia. }
  destruct (Hpos n n Hn) as [ka [kb [sa [sb [E1 [E2 [E3 [E4 E5]]]]]]]].
  assert (ka = kb) by (eapply (pos_unique l); [exact Hk|exact E1|exact E3|congruence]).
  destruct st; lia.
Qed.

Lemma sum_firstn_S l k (s : sch) :
  nth_error l k = Some s ->
  sum_Q (map s_dur (firstn (S k) l)) == sum_Q (map s_dur (firstn k l)) + s_dur s.
Proof.
  revert k. induction l as [|x l IH]; intros k H; [destruct k; discriminate|].
  destruct k as [|k]; simpl in H.
  - inversion H; subst. simpl. lra.
  - change (sum_Q (map s_dur (firstn (S (S k)) (x :: l)))) with (s_dur x + sum_Q (map s_dur (firstn (S k) l))).
    change (sum_Q (map s_dur (firstn (S k) (x :: l)))) with (s_dur x + sum_Q (map s_dur (firstn k l))).
    rewrite (IH _ H). lra.
Qed.

Lemma sum_nonneg l : (forall s : sch, In s l -> 0 <= s_dur s) -> 0 <= sum_Q (map s_dur l).
Proof.
  induction l as [|x l IH]; intros H; simpl; [lra|].
  assert (0 <= s_dur x) by (apply H; left; reflexivity).
  assert (0 <= sum_Q (map s_dur l)) by (apply IH; intros; apply H; right; assumption).
  unfold sum_Q in *. simpl. lra.
Qed.

Lemma sum_prefix_le l k : (forall s : sch, In s l -> 0 <= s_dur s) ->
  sum_Q (map s_dur (firstn k l)) <= sum_Q (map s_dur l).
Proof.
  revert k. induction l as [|x l IH]; intros k H; [destruct k; simpl; lra|].
  assert (Hx : 0 <= s_dur x) by (apply H; left; reflexivity).
  assert (Hl : 0 <= sum_Q (map s_dur l)) by (apply sum_nonneg; intros; apply H; right; assumption).
  destruct k as [|k]; simpl; [unfold sum_Q in *; simpl; lra|].
  specialize (IH k ltac:(intros; apply H; right; assumption)). unfold sum_Q in *. simpl. lra.
Qed.

Lemma back_to_back st reps l :
  keys_ok l -> l <> [] -> fresh l -> (forall s, In s l -> Unconstrained s) ->
  exists out d, determine_level st reps l = Ok (out, d) /\
    (forall k s, nth_error l k = Some s ->
       exists t, Starts out (s_name s) t /\ t == sum_Q (map s_dur (firstn k l))) /\
    d == inject_Z reps * sum_Q (map s_dur l).
Proof.
  intros Hk Hne Hf Hu.
  assert (Hnn : forall s, In s l -> 0 <= s_dur s) by (intros s Hs; apply (Hu s Hs)).
  destruct (timing_complete st reps l Hk) as [out [d H]].
  - split; [exact Hne|]. split; [|split].
    + intros k s Hks. destruct (Hu s (nth_error_In _ _ Hks)) as [-> _]. discriminate.
    + intros _ s Hs. destruct (Hu s Hs) as [-> _]. reflexivity.
    + intros k s j c Hks Hnr Hj.
      destruct (unc_ref st l k j s c Hks (Hu s (nth_error_In _ _ Hks)) Hj) as [-> [-> Hd]].
      rewrite Hd. split; [|split; destruct st; discriminate].
      assert (Hkl : (k < List.length l)%nat) by (apply nth_error_Some; congruence).
      unfold spec_default. destruct st; simpl in Hnr.
      * destruct k as [|k]; [congruence|].
        destruct (nth_error l k) eqn:E; [discriminate|]. apply nth_error_None in E. lia.
      * destruct (nth_error l (S k)) eqn:E; [discriminate|]. apply nth_error_None in E. lia.
  - intros a b Hab. destruct (unc_refers st l a b Hk Hu Hab) as [ka [kb [sa [sb [E1 [E2 _]]]]]].
    rewrite <- E2. apply in_map. eapply nth_error_In; eauto.
  - apply unc_acyclic; assumption.
  - exists out, d. split; [exact H|].
    destruct (level_timed _ _ _ _ _ Hk Hf H) as [Hn [Hc [Hpos [[n0 [t0 [Hz1 Hz2]]] [D [HD1 [HD2 [HD3 HD4]]]]]]]].
    assert (Hko : keys_ok out) by (unfold keys_ok; rewrite Hn; exact Hk).
    assert (Hstart : forall k s, nth_error l k = Some s -> exists t, Starts out (s_name s) t).
    { intros k s Hs. destruct (Hc k s Hs) as [t [Ht _]]. eauto. }
    assert (Hstep : forall k s s' t t', nth_error l k = Some s -> nth_error l (S k) = Some s' ->
              Starts out (s_name s) t -> Starts out (s_name s') t' -> t' == t + s_dur s).
    { intros k s s' t t' Hs Hs' Ht Ht'. destruct st.
      - destruct (Hc (S k) s' Hs') as [t2 [Ht2 Hcc]].
        destruct (Hcc ltac:(simpl; lia)) as [_ [j [c [q [Hj [Hq Heq]]]]]].
        pose proof (starts_unique _ _ _ _ Hko Ht2 Ht'). subst t2.
        destruct (unc_ref ASAP l (S k) j s' c Hs' (Hu s' (nth_error_In _ _ Hs')) Hj) as [-> [-> Hd]].
        destruct Hq as [s2 r sr tr off offn G1 G2 G3 G4 G5 G6 G7].
        rewrite Hd in G2. simpl in G2. rewrite Hs in G2. simpl in G2. inversion G2; subst r.
        assert (s2 = s') by congruence. subst s2.
        assert (sr = s).
        { apply get_sch_in in G3; [|exact Hk]. pose proof (get_sch_in l s Hk (nth_error_In _ _ Hs)) as Hg.
          congruence. }
        subst sr. pose proof (starts_unique _ _ _ _ Hko G5 Ht). subst tr.
        cbn in G6, G7. inversion G6; subst off. inversion G7; subst offn.
        unfold delay_or_0 in Heq. destruct (Hu s (nth_error_In _ _ Hs)) as [_ [Hdl _]]. rewrite Hdl in Heq.
        cbn [tc_rel] in Heq. lra.
      - destruct (Hc k s Hs) as [t2 [Ht2 Hcc]].
        assert (Hkl : (S k < List.length l)%nat) by (apply nth_error_Some; congruence).
        destruct (Hcc ltac:(simpl; lia)) as [_ [j [c [q [Hj [Hq Heq]]]]]].
        pose proof (starts_unique _ _ _ _ Hko Ht2 Ht). subst t2.
        destruct (unc_ref ALAP l k j s c Hs (Hu s (nth_error_In _ _ Hs)) Hj) as [-> [-> Hd]].
        destruct Hq as [s2 r sr tr off offn G1 G2 G3 G4 G5 G6 G7].
        rewrite Hd in G2. cbn [spec_default] in G2. rewrite Hs' in G2. simpl in G2. inversion G2; subst r.
        assert (s2 = s) by congruence. subst s2.
        assert (sr = s').
        { apply get_sch_in in G3; [|exact Hk]. pose proof (get_sch_in l s' Hk (nth_error_In _ _ Hs')) as Hg.
          congruence. }
        subst sr. pose proof (starts_unique _ _ _ _ Hko G5 Ht'). subst tr.
        cbn in G6, G7. inversion G6; subst off. inversion G7; subst offn.
        unfold delay_or_0 in Heq. destruct (Hu s' (nth_error_In _ _ Hs')) as [_ [Hdl _]]. rewrite Hdl in Heq.
        cbn [tc_rel] in Heq. lra. }
    destruct l as [|s0 r] eqn:El; [congruence|]. rewrite <- El in *.
    assert (Hs0 : nth_error l 0 = Some s0) by (rewrite El; reflexivity).
    destruct (Hstart 0%nat s0 Hs0) as [t00 Ht00].
    assert (Hsum : forall k s t, nth_error l k = Some s -> Starts out (s_name s) t ->
               t == t00 + sum_Q (map s_dur (firstn k l))).
    { induction k as [|k IH]; intros s t Hs Ht.
      - assert (s = s0) by congruence. subst s. rewrite (starts_unique _ _ _ _ Hko Ht Ht00). simpl. lra.
      - assert (Hkl : (S k < List.length l)%nat) by (apply nth_error_Some; congruence).
        destruct (nth_error l k) as [sp|] eqn:Ep; [|apply nth_error_None in Ep; lia].
        destruct (Hstart k sp Ep) as [tp Htp].
        rewrite (Hstep k sp s tp t Ep Hs Htp Ht). rewrite (IH sp tp eq_refl Htp), (sum_firstn_S l k sp Ep). lra. }
    assert (Ht0 : t00 == 0).
    { assert (Hin : In n0 (map s_name l)).
      { rewrite <- Hn. destruct Hz1 as [x [Hx [<- _]]]. apply in_map; exact Hx. }
      apply in_map_iff in Hin as [sz [Hszn Hsz]]. apply In_nth_error in Hsz as [kz Hkz].
      subst n0. pose proof (Hsum kz sz t0 Hkz Hz1) as Hs.
      assert (0 <= sum_Q (map s_dur (firstn kz l))).
      { apply sum_nonneg. intros s Hs'. apply Hnn. rewrite <- (firstn_skipn kz l). apply in_or_app. left. exact Hs'. }
      specialize (Hpos _ _ Ht00). lra. }
    split.
    + intros k s Hs. destruct (Hstart k s Hs) as [t Ht]. exists t. split; [exact Ht|].
      rewrite (Hsum k s t Hs Ht). lra.
    + rewrite HD1.
      assert (HDeq : D == sum_Q (map s_dur l)).
      { assert (Hle : D <= sum_Q (map s_dur l)).
        { destruct HD4 as [HD4|[n [t [s [Hst [Hs [Hsn Heq]]]]]]].
          - rewrite HD4. apply sum_nonneg. exact Hnn.
          - apply In_nth_error in Hs as [k Hs]. subst n. rewrite Heq, (Hsum k s t Hs Hst), Ht0.
            pose proof (sum_firstn_S l k s Hs). pose proof (sum_prefix_le l (S k) Hnn). lra. }
        assert (Hge : sum_Q (map s_dur l) <= D).
        { set (kl := pred (List.length l)).
          assert (Hkl : (kl < List.length l)%nat) by (unfold kl; rewrite El; simpl; lia).
          destruct (nth_error l kl) as [sl|] eqn:Esl; [|apply nth_error_None in Esl; lia].
          destruct (Hstart kl sl Esl) as [tl Htl].
          specialize (HD3 _ _ sl Htl (nth_error_In _ _ Esl) eq_refl).
          pose proof (Hsum kl sl tl Esl Htl). pose proof (sum_firstn_S l kl sl Esl) as Hsf.
          rewrite firstn_all2 in Hsf by (unfold kl; lia). lra. }
        lra. }
      rewrite HDeq. reflexivity.
Qed.
