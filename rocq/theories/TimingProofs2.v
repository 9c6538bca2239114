From Coq Require Import Permutation Relations Arith.
From Verif Require Import Base TimingModel TimingSpec TimingProofs.
Open Scope Q_scope.

(** C01 (raw times) *)
Lemma raw_constraints st l l1 F root :
  keys_ok l -> fresh l -> make_explicit st l = Ok l1 ->
  nth_error l (root_pos st l) = Some root -> Solves st l1 (s_name root) F ->
  forall k s, nth_error l k = Some s -> k <> root_pos st l ->
  exists t, Starts F (s_name s) t /\
    (forall j c, nth_error (s_tcs s) j = Some c -> exists q, Implied st l F k j c q /\ q <= t) /\
    (exists j c q, nth_error (s_tcs s) j = Some c /\ Implied st l F k j c q /\ q == t).
Proof.
  intros Hk Hfr He Hroot HS k s Hs Hnr.
  destruct (make_explicit_nth _ _ _ He) as [Hlen Hnth]. destruct (Hnth _ _ Hs) as [Hs1 [Hne Halap]].
  set (s1 := set_tcs s (explicit_tcs st (spec_default st l k) (s_tcs s))) in *.
  destruct (proj2 HS s1 (nth_error_In _ _ Hs1)) as [a [Hg Hc]].
  assert (Hneq : String.eqb (s_name s1) (s_name root) = false).
  { apply String.eqb_neq. simpl. intros Heq. apply Hnr.
    assert (H : nth_error (map s_name l) k = nth_error (map s_name l) (root_pos st l)).
    { rewrite !nth_error_map, Hs, Hroot. simpl. congruence. }
    eapply (proj1 (NoDup_nth_error (map s_name l)) Hk); [|exact H].
    rewrite map_length. apply nth_error_Some. congruence. }
  rewrite Hneq in Hc. simpl in Hg, Hc.
  assert (Hcs : forall j c, nth_error (s_tcs s) j = Some c ->
            exists c2, nth_error (delayed l1 (explicit_tcs st (spec_default st l k) (s_tcs s))) j = Some c2).
  { intros j c Hj. unfold delayed. rewrite nth_error_map, (explicit_tcs_nth _ _ _ _ _ Hj). simpl. eauto. }
  assert (Hcs' : forall c2, In c2 (delayed l1 (explicit_tcs st (spec_default st l k) (s_tcs s))) ->
            exists j c, nth_error (s_tcs s) j = Some c /\
                        nth_error (delayed l1 (explicit_tcs st (spec_default st l k) (s_tcs s))) j = Some c2).
  { intros c2 Hin. apply In_nth_error in Hin as [j Hj]. exists j.
    destruct (nth_error (s_tcs s) j) as [c|] eqn:E; [eauto|].
    apply nth_error_None in E. rewrite <- (explicit_tcs_length st (spec_default st l k)) in E.
    assert (H : nth_error (delayed l1 (explicit_tcs st (spec_default st l k) (s_tcs s))) j = None).
    { apply nth_error_None. unfold delayed. rewrite map_length. exact E. }
    congruence. }
  unfold compute_abs in Hc. destruct st.
  - assert (Habs : s_abs s1 = None) by (simpl; apply Hfr; eapply nth_error_In; eauto).
    rewrite Habs in Hc.
    apply fold_max_spec in Hc. destruct a as [m|].
    2:{ exfalso. destruct Hc as [Hc _]. apply Hne.
        destruct (s_tcs s); [reflexivity | simpl in Hc; discriminate]. }
    destruct Hc as [Hall [_ Htight]].
    exists m. split; [eapply get_starts; [exact Hg | reflexivity]|]. split.
    + intros j c Hj. destruct (Hcs j c Hj) as [c2 Hc2].
      destruct (Hall c2 (nth_error_In _ _ Hc2)) as [t [Ht Hle]].
      destruct (gst_implied _ _ _ _ _ _ _ _ _ _ Hk He HS Hs Hj c2 Hc2 Ht) as [q [Hq1 Hq2]].
      exists q. split; [exact Hq1|]. lra.
    + destruct Htight as [[c2 [Hin Ht]]|Hbad]; [|discriminate].
      destruct (Hcs' c2 Hin) as [j [c [Hj Hj2]]].
      destruct (gst_implied _ _ _ _ _ _ _ _ _ _ Hk He HS Hs Hj c2 Hj2 Ht) as [q [Hq1 Hq2]].
      exists j, c, q. auto.
  - specialize (Halap eq_refl). destruct (s_tcs s) as [|c [|c' r]] eqn:Et; simpl in Halap; try discriminate.
    destruct (Hcs 0%nat c eq_refl) as [c2 Hc2].
    destruct (delayed l1 _) as [|c2' r2] eqn:Ed; [discriminate|]. simpl in Hc2. inversion Hc2; subst c2'.
    apply bind_ok in Hc as [t [Ht Hc]]. inversion Hc; subst a; clear Hc.
    assert (Hj0 : nth_error (s_tcs s) 0 = Some c) by (rewrite Et; reflexivity).
    assert (Hd0 : nth_error (delayed l1 (explicit_tcs ALAP (spec_default ALAP l k) (s_tcs s))) 0 = Some c2).
    { rewrite Et, Ed. reflexivity. }
    destruct (gst_implied _ _ _ _ _ _ _ _ _ _ Hk He HS Hs Hj0 c2 Hd0 Ht) as [q [Hq1 Hq2]].
    exists t. split; [eapply get_starts; [exact Hg | reflexivity]|]. split.
    + intros j c0 Hj. destruct j as [|j]; [|destruct j; discriminate]. inversion Hj; subst c0.
      exists q. split; [exact Hq1 | lra].
    + exists 0%nat, c, q. auto.
Qed.

Lemma timing_constraints st reps l out d :
  keys_ok l -> fresh l -> determine_level st reps l = Ok (out, d) ->
  map s_name out = map s_name l /\
  forall k s, nth_error l k = Some s ->
  exists t, Starts out (s_name s) t /\
    (k <> root_pos st l ->
     (forall j c, nth_error (s_tcs s) j = Some c -> exists q, Implied st l out k j c q /\ q <= t) /\
     (exists j c q, nth_error (s_tcs s) j = Some c /\ Implied st l out k j c q /\ q == t)).
Proof.
  intros Hk Hfr H.
  destruct (determine_level_ok _ _ _ _ _ Hk H) as [l1 [o [F [root [He [_ [_ [Hroot [_ [_ [HS [-> _]]]]]]]]]]]].
  pose proof (solves_timed _ _ _ _ _ Hk He HS) as Htm.
  destruct (normalize_starts F Htm) as [sh [Hsh Hst]].
  split.
  { rewrite normalize_names, (proj1 HS). eapply make_explicit_names; eauto. }
  intros k s Hs.
  destruct (Nat.eq_dec k (root_pos st l)) as [->|Hnr].
  - assert (s = root) by congruence. subst s.
    assert (Hin : In (s_name root) (map s_name F)).
    { rewrite (proj1 HS), (make_explicit_names _ _ _ He). apply in_map. eapply nth_error_In; eauto. }
    apply in_map_iff in Hin as [x [Hxn Hx]]. destruct (Htm x Hx) as [t Ht].
    destruct (Hst (s_name root) t) as [t' [Ht' _]]; [exists x; auto|].
    exists t'. split; [exact Ht'|]. intros Hc; congruence.
  - destruct (raw_constraints _ _ _ _ _ Hk Hfr He Hroot HS k s Hs Hnr) as [t [Ht [Hall [j [c [q [Hj [Hq Heq]]]]]]]].
    destruct (Hst _ _ Ht) as [t' [Ht' Heq']].
    exists t'. split; [exact Ht'|]. intros _. split.
    + intros j0 c0 Hj0. destruct (Hall j0 c0 Hj0) as [q0 [Hq0 Hle]].
      destruct (implied_shift _ _ _ _ _ _ _ _ _ Hst Hq0) as [q1 [Hq1 Hq1']].
      exists q1. split; [exact Hq1|]. lra.
    + destruct (implied_shift _ _ _ _ _ _ _ _ _ Hst Hq) as [q1 [Hq1 Hq1']].
      exists j, c, q1. split; [exact Hj|]. split; [exact Hq1|]. lra.
Qed.

(** C02 *)
Lemma order_independent st reps l l1 o :
  keys_ok l -> l <> [] -> make_explicit st l = Ok l1 -> Topological st l o ->
  forall out d,
  (determine_level st reps l = Ok (out, d) <->
   exists F, resolve st o l1 = Ok F /\ out = normalize F /\ d = schedule_duration reps out).
Proof.
  intros Hk Hne He Ho out d. apply (topoX_iff st l l1 o He Hk) in Ho.
  destruct (topo_head_root st l l1 o He Hk Hne Ho) as [root [Hroot Hhead]].
  pose proof (keys_explicit _ _ _ He Hk) as Hk1.
  split.
  - intros H. destruct (determine_level_ok _ _ _ _ _ Hk H)
      as [l1' [o' [F [root' [He' [_ [Ht' [Hroot' [_ [_ [HS [Hout Hd]]]]]]]]]]]].
    assert (l1' = l1) by congruence. assert (root' = root) by congruence. subst l1' root'.
    exists F. split; [|auto]. eapply solves_resolve; eauto.
  - intros [F [HF [Hout Hd]]]. pose proof (resolve_solves _ _ _ _ _ Hk1 Ho Hhead HF) as HS.
    (* references are known, because the order lists them all *)
    assert (Hrk : refs_known l1 = true).
    { unfold refs_known. apply forallb_forall. intros s Hs. apply forallb_forall. intros r Hr.
      apply mem_str_In. destruct Ho as [Hp Ho].
      assert (Hin : In (s_name s) o). { eapply Permutation_in; [symmetry; exact Hp|]. apply in_map; exact Hs. }
      apply in_split in Hin as [pre [post Heq]].
      specialize (Ho pre (s_name s) post Heq s Hs eq_refl r Hr).
      eapply Permutation_in; [exact Hp|]. rewrite Heq. apply in_or_app. left; exact Ho. }
    assert (Hts : exists o', topo_sort l1 = Some o').
    { apply (kahn_complete (List.length l1) [] l1 l1).
      - eapply topo_no_cycle; eauto.
      - intros x Hx; exact Hx.
      - intros s a Hs Ha. right. unfold refs_known in Hrk. rewrite forallb_forall in Hrk.
        specialize (Hrk s Hs). rewrite forallb_forall in Hrk. specialize (Hrk a Ha).
        apply mem_str_In in Hrk. exact Hrk.
      - lia. }
    destruct Hts as [o' Ho'].
    pose proof (topo_sort_topo _ _ Hk1 Ho') as Ht'.
    destruct (topo_head_root st l l1 o' He Hk Hne Ht') as [root' [Hroot' Hhead']].
    assert (root' = root) by congruence. subst root'.
    unfold determine_level. destruct l as [|x r] eqn:El; [congruence|]. rewrite <- El in *.
    rewrite He. cbn [bind]. rewrite Hrk. cbn [negb]. rewrite Ho'.
    rewrite (solves_resolve _ _ _ _ _ Hk1 Ht' Hhead' HS). cbn [bind]. subst. reflexivity.
Qed.

(** C03 *)

Lemma refs_known_iff st l l1 : make_explicit st l = Ok l1 ->
  (refs_known l1 = true <-> AllKnown st l).
Proof.
  intros He. unfold refs_known, AllKnown. rewrite forallb_forall. split.
  - intros H a b Hab. destruct (proj2 (refX_iff st l l1 a b He) Hab) as [s [Hin [Hn Ha]]].
    specialize (H s Hin). rewrite forallb_forall in H. specialize (H a Ha).
    apply mem_str_In in H. rewrite (make_explicit_names _ _ _ He) in H. exact H.
  - intros H s Hs. apply forallb_forall. intros r Hr. apply mem_str_In.
    rewrite (make_explicit_names _ _ _ He). apply (H r (s_name s)).
    apply (refX_iff st l l1 r (s_name s) He). exists s. auto.
Qed.

Lemma timing_sound_refs st reps l out d :
  keys_ok l -> determine_level st reps l = Ok (out, d) -> AllKnown st l /\ ~ Circular st l.
Proof.
  intros Hk H. destruct (determine_level_ok _ _ _ _ _ Hk H) as [l1 [o [F [root [He [Hrk [Ht _]]]]]]].
  split; [eapply refs_known_iff; eauto|].
  intros [n Hn]. eapply (topo_no_cycle l1 o); [eapply keys_explicit; eauto | exact Ht |].
  eapply clos_trans_iff; [|exact Hn]. intros a b. apply (refX_iff st l l1 a b He).
Qed.

Lemma timing_unknown st reps l :
  (forall s, In s l -> s_tcs s <> []) -> (st = ALAP -> forall s, In s l -> List.length (s_tcs s) = 1%nat) ->
  (exists a b, RefersTo st l a b /\ ~ In a (map s_name l)) -> determine_level st reps l = Err ValueError.
Proof.
  intros Hne Hone [a [b [Hab Hna]]].
  destruct (make_explicit_total st l) as [l1 He]; [intros s Hs; auto|].
  unfold determine_level. destruct l as [|x r] eqn:El.
  { destruct Hab as [k [j [s [c [Hk _]]]]]. destruct k; discriminate. }
  rewrite <- El in *. rewrite He. cbn [bind].
  destruct (refs_known l1) eqn:Er; [|reflexivity].
  exfalso. apply Hna. apply (proj1 (refs_known_iff st l l1 He) Er a b Hab).
Qed.

Lemma timing_circular st reps l :
  keys_ok l ->
  (forall s, In s l -> s_tcs s <> []) -> (st = ALAP -> forall s, In s l -> List.length (s_tcs s) = 1%nat) ->
  AllKnown st l -> Circular st l -> determine_level st reps l = Err TypeError.
Proof.
  intros Hk Hne Hone Hak [n Hn].
  destruct (make_explicit_total st l) as [l1 He]; [intros s Hs; auto|].
  unfold determine_level. destruct l as [|x r] eqn:El.
  { exfalso. clear - Hn. induction Hn as [a b H|]; [|assumption].
    destruct H as [k [j [s [c [Hk _]]]]]. destruct k; discriminate. }
  rewrite <- El in *. rewrite He. cbn [bind].
  rewrite (proj2 (refs_known_iff st l l1 He) Hak). cbn [negb].
  destruct (topo_sort l1) as [o|] eqn:Eo; [|reflexivity].
  exfalso. eapply (topo_no_cycle l1 o);
    [eapply keys_explicit; eauto | eapply topo_sort_topo; eauto; eapply keys_explicit; eauto |].
  eapply clos_trans_iff; [|exact Hn]. intros a b. apply (refX_iff st l l1 a b He).
Qed.

(** evaluation never gets stuck when the referenced schedulables are timed *)
Lemma fold_max_total F d : forall cs cur,
  (forall c, In c cs -> exists t, get_start_time F c d = Ok t) ->
  exists r, foldM (max_step F d) cs cur = Ok r.
Proof.
  induction cs as [|c cs IH]; intros cur H; simpl; [eauto|].
  destruct (H c (or_introl eq_refl)) as [t Ht]. unfold max_step at 1. rewrite Ht. simpl.
  apply IH. intros c' Hc'. apply H. right; exact Hc'.
Qed.

Definition good_tc (c : tconstr) : Prop :=
  tc_ref c <> None /\ tc_pt c <> Some PtOther /\ tc_ptnew c <> Some PtOther.

Lemma gst_total F c d r s t :
  tc_ref c = Some r -> tc_pt c <> Some PtOther -> tc_ptnew c <> Some PtOther ->
  get_sch F r = Some s -> s_abs s = Some t -> exists q, get_start_time F c d = Ok q.
Proof.
  intros Hr Hp Hpn Hg Ha. unfold get_start_time. rewrite Hr, Hg, Ha.
  destruct (tc_pt c) as [[]|]; try congruence; destruct (tc_ptnew c) as [[]|]; try congruence; simpl; eauto.
Qed.

Lemma delayed_good l tcs : (forall c, In c tcs -> good_tc c) -> forall c, In c (delayed l tcs) -> good_tc c.
Proof.
  intros H c Hc. unfold delayed in Hc. apply in_map_iff in Hc as [c0 [He Hin]].
  destruct (H c0 Hin) as [H1 [H2 H3]].
  destruct (tc_ref c0) as [r|] eqn:Er; [|congruence].
  destruct (delay_in l r); subst c; unfold good_tc; simpl; rewrite ?Er; auto.
Qed.

Lemma fold_resolve_total st l h : forall rest done state,
  keys_ok l -> ResInv st l h done state ->
  (forall n, In n done -> In n (map s_name l)) ->
  (forall s, In s l -> s_name s <> h -> s_tcs s <> [] /\ forall c, In c (s_tcs s) -> good_tc c) ->
  (forall n, In n done -> exists s t, get_sch (fst state) n = Some s /\ s_abs s = Some t) ->
  NoDup (done ++ rest) -> incl rest (map s_name l) -> ~ In h rest ->
  (forall pre n post, rest = pre ++ n :: post -> forall s, In s l -> s_name s = n -> incl (refs_of s) (done ++ pre)) ->
  exists state', foldM (resolve_step st false) rest state = Ok state'.
Proof.
  induction rest as [|n rest IH]; intros done state Hk HI Hdone Hgood Htm Hnd Hincl Hh Ho; [simpl; eauto|].
  assert (Hn : ~ In n done).
  { intros Hin. apply NoDup_remove_2 in Hnd. apply Hnd. apply in_or_app. left; exact Hin. }
  destruct (get_sch_in_names l n (Hincl n (or_introl eq_refl))) as [s Hs].
  pose proof (get_sch_some _ _ _ Hs) as [Hsl Hsn].
  assert (Hrefs : incl (refs_of s) done).
  { specialize (Ho [] n rest eq_refl s Hsl Hsn). rewrite app_nil_r in Ho. exact Ho. }
  assert (Hnh : n <> h) by (intros ->; apply Hh; left; reflexivity).
  destruct (Hgood s Hsl ltac:(congruence)) as [Hne Hgc].
  assert (Hgst : forall c, In c (delayed l (s_tcs s)) -> exists t, get_start_time (fst state) c (s_dur s) = Ok t).
  { intros c Hc. destruct (delayed_good l (s_tcs s) Hgc c Hc) as [H1 [H2 H3]].
    destruct (tc_ref c) as [r|] eqn:Er; [|congruence].
    assert (Hrd : In r done).
    { apply Hrefs. destruct (delayed_ref _ _ _ _ Hc Er) as [c0 [Hc0 Hr0]]. eapply in_refs; eauto. }
    destruct (Htm r Hrd) as [sr [t [Hg Ha]]]. eapply gst_total; eauto. }
  assert (Hex : exists a, compute_abs st (fst state) s (delayed l (s_tcs s)) = Ok (Some a)).
  { assert (Hdne : delayed l (s_tcs s) <> []) by (destruct (s_tcs s); [congruence | discriminate]).
    unfold compute_abs. destruct st.
    - destruct (fold_max_total (fst state) (s_dur s) _ (s_abs s) Hgst) as [r Hr]. rewrite Hr.
      pose proof (fold_max_spec _ _ _ _ _ Hr) as Hsp. destruct r as [m|]; [eauto|]. destruct Hsp; congruence.
    - destruct (delayed l (s_tcs s)) as [|c cs]; [congruence|].
      destruct (Hgst c (or_introl eq_refl)) as [t Ht]. rewrite Ht. simpl. eauto. }
  destruct Hex as [a Ha].
  cbn [foldM]. rewrite (resolve_step_eq st l h done state n s false HI Hn Hs Hrefs).
  rewrite Ha. cbn [bind].
  replace (done ++ n :: rest) with ((done ++ [n]) ++ rest) in * by (rewrite <- app_assoc; reflexivity).
  apply (IH (done ++ [n])); try assumption.
  - apply resolve_step_inv; try assumption.
    destruct (String.eqb n h) eqn:E; [apply String.eqb_eq in E; congruence | exact Ha].
  - intros m Hm. apply in_app_or in Hm as [Hm|[<-|[]]]; [auto | apply Hincl; left; reflexivity].
  - cbn [fst]. intros m Hm. destruct (string_dec m n) as [->|Hmn].
    + exists (set_abs (set_tcs s (delayed l (s_tcs s))) (Some a)), a. split; [|reflexivity].
      rewrite <- Hsn. change (s_name s) with (s_name (set_abs (set_tcs s (delayed l (s_tcs s))) (Some a))).
      apply get_put_same. simpl. rewrite (ri_names _ _ _ _ _ HI). apply in_map; exact Hsl.
    + rewrite get_put_other by (simpl; congruence).
      apply Htm. apply in_app_or in Hm as [Hm|[Hm|[]]]; [exact Hm | congruence].
  - intros x Hx. apply Hincl. right; exact Hx.
  - intros Hin. apply Hh. right; exact Hin.
  - intros pre m post Hpre s0 Hs0 Hm.
    specialize (Ho (n :: pre) m post). rewrite Hpre in Ho. specialize (Ho eq_refl s0 Hs0 Hm).
    rewrite <- app_assoc. exact Ho.
Qed.

Lemma resolve_total st l h o :
  keys_ok l -> TopoX l o -> is_head h o ->
  (forall s, In s l -> s_name s <> h -> s_tcs s <> [] /\ forall c, In c (s_tcs s) -> good_tc c) ->
  exists F, resolve st o l = Ok F.
Proof.
  intros Hk [Hp Ho] [r ->] Hgood. cbn [resolve].
  assert (Hnd : NoDup (h :: r)) by (eapply Permutation_NoDup; [symmetry; exact Hp | exact Hk]).
  assert (Hin : forall x, In x (h :: r) -> In x (map s_name l)).
  { intros x Hx. eapply Permutation_in; eauto. }
  destruct (get_sch_in_names l h (Hin h (or_introl eq_refl))) as [s Hs].
  pose proof (get_sch_some _ _ _ Hs) as [Hsl Hsn].
  assert (Hrefs : incl (refs_of s) []) by (apply (Ho [] h r eq_refl s Hsl Hsn)).
  rewrite (resolve_step_eq st l h [] (l, []) h s true (ResInv_init _ _ _) (fun x => x) Hs Hrefs).
  cbn [bind fst snd].
  assert (HI : ResInv st l h [h] (put_sch l (set_abs (set_tcs s (delayed l (s_tcs s))) (Some 0)),
     match s_delay s with Some d => [(h, d)] | None => [] end)).
  { apply (resolve_step_inv st l h [] (l, []) h s (Some 0) Hk (ResInv_init _ _ _) (fun x => x) Hs Hrefs).
    rewrite String.eqb_refl. reflexivity. }
  destruct (fold_resolve_total st l h r [h] _ Hk HI) as [state' Hst].
  - intros n [<-|[]]. apply Hin. left; reflexivity.
  - exact Hgood.
  - cbn [fst]. intros n [<-|[]]. exists (set_abs (set_tcs s (delayed l (s_tcs s))) (Some 0)), 0.
    split; [|reflexivity]. rewrite <- Hsn.
    change (s_name s) with (s_name (set_abs (set_tcs s (delayed l (s_tcs s))) (Some 0))).
    apply get_put_same. simpl. apply in_map; exact Hsl.
  - exact Hnd.
  - intros x Hx. apply Hin. right; exact Hx.
  - inversion Hnd; assumption.
  - intros pre n post He s0 Hs0 Hn0. specialize (Ho (h :: pre) n post). simpl in Ho. rewrite He in Ho.
    apply Ho; auto.
  - rewrite Hst. cbn [bind]. eauto.
Qed.

Lemma timing_complete st reps l :
  keys_ok l -> Servable st l -> AllKnown st l -> ~ Circular st l ->
  exists out d, determine_level st reps l = Ok (out, d).
Proof.
  intros Hk [Hnil [Hne [Hone Hgood]]] Hak Hnc.
  destruct (make_explicit_total st l) as [l1 He].
  { intros s Hs. split; [|intros Ha; apply Hone; assumption].
    apply In_nth_error in Hs as [k Hk']. eapply Hne; eauto. }
  pose proof (keys_explicit _ _ _ He Hk) as Hk1.
  pose proof (proj2 (refs_known_iff st l l1 He) Hak) as Hrk.
  assert (Hac : forall z, ~ clos_trans _ (RefX l1) z z).
  { intros z Hz. apply Hnc. exists z. eapply clos_trans_iff; [|exact Hz].
    intros a b. symmetry. apply (refX_iff st l l1 a b He). }
  destruct (kahn_complete (List.length l1) [] l1 l1 Hac) as [o Ho]; [intros x Hx; exact Hx | | lia |].
  { intros s a Hs Ha. right. rewrite (make_explicit_names _ _ _ He). apply (Hak a (s_name s)).
    apply (refX_iff st l l1 a (s_name s) He). exists s. auto. }
  fold (topo_sort l1) in Ho.
  pose proof (topo_sort_topo _ _ Hk1 Ho) as Ht.
  destruct (topo_head_root st l l1 o He Hk Hnil Ht) as [root [Hroot Hhead]].
  destruct (resolve_total st l1 (s_name root) o Hk1 Ht Hhead) as [F HF].
  { intros s1 Hs1 Hnroot. apply In_nth_error in Hs1 as [k Hk1'].
    destruct (make_explicit_inv _ _ _ _ _ He Hk1') as [s [Hs [-> Hnes]]]. simpl.
    assert (Hkr : k <> root_pos st l) by (intros ->; apply Hnroot; simpl; congruence).
    split; [destruct (s_tcs s); [congruence | discriminate]|].
    intros c1 Hc1. apply In_nth_error in Hc1 as [j Hj].
    destruct (nth_error (s_tcs s) j) as [c|] eqn:Ec.
    2:{ apply nth_error_None in Ec. rewrite <- (explicit_tcs_length st (spec_default st l k)) in Ec.
        apply nth_error_None in Ec. congruence. }
    destruct (Hgood k s j c Hs Hkr Ec) as [G1 [G2 G3]].
    rewrite (explicit_tcs_nth _ _ _ _ _ Ec) in Hj. inversion Hj; subst c1; clear Hj.
    unfold the_ref, the_pt, the_ptnew in *. unfold good_tc, spec_default.
    destruct j; simpl.
    - split; [|split].
      + destruct (tc_ref c); simpl; [discriminate|]. destruct st, k; exact G1.
      + destruct (tc_pt c) as [p|]; simpl; [congruence|]. destruct st; discriminate.
      + destruct (tc_ptnew c) as [p|]; simpl; [congruence|]. destruct st; discriminate.
    - split; [|split].
      + destruct (tc_ref c); [discriminate | exact G1].
      + destruct (tc_pt c) as [p|]; [congruence | discriminate].
      + destruct (tc_ptnew c) as [p|]; [congruence | discriminate]. }
  unfold determine_level. destruct l as [|x r] eqn:El; [congruence|]. rewrite <- El in *.
  rewrite He. cbn [bind]. rewrite Hrk. cbn [negb]. rewrite Ho, HF. cbn [bind]. eauto.
Qed.

(** C04 *)
Lemma normalize_correct l :
  timed l ->
  map s_name (normalize l) = map s_name l /\
  (forall n t, Starts (normalize l) n t -> 0 <= t) /\
  ((exists n t, Starts l n t /\ t < 0) -> exists n t, Starts (normalize l) n t /\ t == 0) /\
  ((forall n t, Starts l n t -> 0 <= t) -> normalize l = l) /\
  (keys_ok l -> forall n m tn tm tn' tm', Starts l n tn -> Starts l m tm ->
     Starts (normalize l) n tn' -> Starts (normalize l) m tm' -> tn' - tm' == tn - tm).
Proof.
  intros Ht. split; [apply normalize_names|].
  destruct (normalize_shift l Ht) as [d [Hd [[Heq [Hd0 Hnn]]|[Hd1 [Heq [Hnn Hz]]]]]]; rewrite Heq.
  - split; [|split; [|split]].
    + intros n t [s [H1 [_ H3]]]. specialize (Hnn s H1). unfold abs_of in Hnn. rewrite H3 in Hnn. exact Hnn.
    + intros [n [t [[s [H1 [_ H3]]] Hneg]]]. specialize (Hnn s H1). unfold abs_of in Hnn. rewrite H3 in Hnn. lra.
    + reflexivity.
    + intros Hk n m tn tm tn' tm' H1 H2 H3 H4.
      rewrite (starts_unique _ _ _ _ Hk H3 H1), (starts_unique _ _ _ _ Hk H4 H2). reflexivity.
  - assert (Hinv : forall n t', Starts (map (fun s => set_abs s (Some (abs_of s + d))) l) n t' ->
              exists t, Starts l n t /\ t' = t + d).
    { intros n t' [s' [H1 [H2 H3]]]. apply in_map_iff in H1 as [s [Hs Hin]]. subst s'. simpl in H2, H3.
      destruct (Ht s Hin) as [t Hta]. exists t. split; [exists s; auto|].
      unfold abs_of in H3. rewrite Hta in H3. congruence. }
    split; [|split; [|split]].
    + intros n t' H. destruct (Hinv n t' H) as [t [[s [H1 [_ H3]]] ->]].
      specialize (Hnn s H1). unfold abs_of in Hnn. rewrite H3 in Hnn. exact Hnn.
    + intros _. destruct Hz as [s [Hs Hz]]. exists (s_name s), (abs_of s + d). split; [|exact Hz].
      exists (set_abs s (Some (abs_of s + d))). split; [apply in_map_iff; eauto|]. simpl. auto.
    + intros Hall. destruct Hz as [s [Hs Hz]]. destruct (Ht s Hs) as [t Hta].
      assert (0 <= t) by (apply (Hall (s_name s)); exists s; auto).
      unfold abs_of in Hz. rewrite Hta in Hz. lra.
    + intros Hk n m tn tm tn' tm' H1 H2 H3 H4.
      destruct (Hinv _ _ H3) as [t1 [H3' ->]]. destruct (Hinv _ _ H4) as [t2 [H4' ->]].
      rewrite (starts_unique _ _ _ _ Hk H3' H1), (starts_unique _ _ _ _ Hk H4' H2). lra.
Qed.

(** C06 *)
Lemma fold_dur_spec : forall l acc,
  let r := fold_left (fun acc s => let t := abs_of s + s_dur s in if Qlt_bool acc t then t else acc) l acc in
  acc <= r /\ (forall s, In s l -> abs_of s + s_dur s <= r) /\
  (r = acc \/ exists s, In s l /\ r = abs_of s + s_dur s).
Proof.
  induction l as [|s l IH]; intros acc; simpl.
  - split; [lra|]. split; [intros s []|]. left; reflexivity.
  - destruct (IH (if Qlt_bool acc (abs_of s + s_dur s) then abs_of s + s_dur s else acc)) as [H1 [H2 H3]].
    simpl in H1, H2, H3.
    destruct (Qlt_bool acc (abs_of s + s_dur s)) eqn:E.
    + apply Qlt_bool_true in E. split; [lra|]. split.
      * intros s' [<-|Hs]; [exact H1 | auto].
      * right. destruct H3 as [H3|[s' [Hs Hr]]]; [exists s; auto | exists s'; auto].
    + apply Qlt_bool_false in E. split; [exact H1|]. split.
      * intros s' [<-|Hs]; [lra | auto].
      * destruct H3 as [H3|[s' [Hs Hr]]]; [left; exact H3 | right; exists s'; auto].
Qed.

Lemma duration_correct reps l :
  timed l -> exists D, schedule_duration reps l == inject_Z reps * D /\ 0 <= D /\
    (forall s t, In s l -> s_abs s = Some t -> t + s_dur s <= D) /\
    (D == 0 \/ exists s t, In s l /\ s_abs s = Some t /\ D == t + s_dur s).
Proof.
  intros Ht. destruct (fold_dur_spec l 0) as [H1 [H2 H3]]. simpl in H1, H2, H3.
  unfold schedule_duration. eexists. split; [apply Qmult_comm|]. split; [exact H1|]. split.
  - intros s t Hs Ha. specialize (H2 s Hs). unfold abs_of in H2 at 1. rewrite Ha in H2. exact H2.
  - destruct H3 as [H3|[s [Hs Hr]]]; [left; rewrite H3; reflexivity|].
    right. destruct (Ht s Hs) as [t Hta]. exists s, t. split; [exact Hs|]. split; [exact Hta|].
    rewrite Hr. unfold abs_of at 1. rewrite Hta. reflexivity.
Qed.

Lemma determine_timed st reps l out d :
  keys_ok l -> determine_level st reps l = Ok (out, d) -> timed out.
Proof.
  intros Hk H. destruct (determine_level_ok _ _ _ _ _ Hk H)
      as [l1 [o [F [root [He [_ [_ [_ [_ [_ [HS [-> _]]]]]]]]]]]].
  pose proof (solves_timed _ _ _ _ _ Hk He HS) as Htm.
  destruct (normalize_shift F Htm) as [sh [_ [[Heq _]|[_ [Heq _]]]]]; rewrite Heq; [exact Htm|].
  intros s Hs. apply in_map_iff in Hs as [x [<- Hx]]. simpl. eauto.
Qed.

(** operations themselves are untouched by timing *)
Lemma determine_ops st reps l out d :
  keys_ok l -> determine_level st reps l = Ok (out, d) ->
  Forall2 (fun s s' => s_name s' = s_name s /\ s_dur s' = s_dur s /\ s_delay s' = s_delay s) l out.
Proof.
  intros Hk H. destruct (determine_level_ok _ _ _ _ _ Hk H)
      as [l1 [o [F [root [He [_ [_ [_ [_ [_ [HS [-> _]]]]]]]]]]]].
  assert (HF : Forall2 (fun s s' => s_name s' = s_name s /\ s_dur s' = s_dur s /\ s_delay s' = s_delay s) l F).
  { destruct HS as [HFn HFe].
    assert (HkF : keys_ok F). { unfold keys_ok. rewrite HFn. eapply keys_explicit; eauto. }
    destruct (make_explicit_nth _ _ _ He) as [Hlen Hnth].
    assert (Hlen' : List.length F = List.length l).
    { rewrite <- Hlen, <- (map_length s_name F), HFn, map_length. reflexivity. }
    assert (Hpt : forall k s s', nth_error l k = Some s -> nth_error F k = Some s' ->
               s_name s' = s_name s /\ s_dur s' = s_dur s /\ s_delay s' = s_delay s).
    { intros k s s' Hs Hs'. destruct (Hnth _ _ Hs) as [Hs1 _].
      destruct (HFe _ (nth_error_In _ _ Hs1)) as [a [Hg _]]. simpl in Hg.
      assert (Hnm : s_name s' = s_name s).
      { assert (E : nth_error (map s_name F) k = nth_error (map s_name l1) k) by (rewrite HFn; reflexivity).
        rewrite !nth_error_map, Hs', Hs1 in E. simpl in E. congruence. }
      rewrite <- Hnm, (get_sch_in F s' HkF (nth_error_In _ _ Hs')) in Hg.
      injection Hg as Hg'. subst s'. simpl. auto. }
    clear - Hlen' Hpt. revert F Hlen' Hpt. induction l as [|s l IH]; intros F Hlen Hpt; destruct F as [|f F];
      simpl in Hlen; try discriminate; constructor.
    - apply (Hpt 0%nat); reflexivity.
    - apply IH; [congruence|]. intros k x y Hx Hy. apply (Hpt (S k)); assumption. }
  pose proof (solves_timed _ _ _ _ _ Hk He HS) as Htm.
  destruct (normalize_shift F Htm) as [sh [_ [[Heq _]|[_ [Heq _]]]]]; rewrite Heq; [exact HF|].
  clear - HF. induction HF; simpl; constructor; auto.
Qed.
