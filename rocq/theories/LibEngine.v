(** The time line of a schedule whose operations refer to earlier operations (used for C44). *)
From Coq Require Import Relations.
From Verif Require Import Base TimingModel TimingSpec TimingProofs TimingProofs2 TimingProofs3 TimingProofs4 LibModel LibSpec LibProps.
Open Scope Q_scope.
Open Scope list_scope.

(** how long an operation lasts once it is timed *)
Definition OD gdur gdelay (o : lop) (d : Q) : Prop := exists o', determine ASAP (to_op gdur gdelay o) = Ok o' /\ op_dur o' = Some d.
Definition odelay gdur gdelay (o : lop) : option Q := op_delay (to_op gdur gdelay o).

(** every operation refers to an earlier one *)
Definition Backward (es : list entry) : Prop :=
  forall k e, nth_error es k = Some e -> tc_pt (e_tc e) <> Some PtOther /\ tc_ptnew (e_tc e) = None /\
    match tc_ref (e_tc e) with None => True | Some r => exists j er, (j < k)%nat /\ nth_error es j = Some er /\ e_name er = r end.

Definition sch_of gdur gdelay (df : lop -> Q) (e : entry) : sch :=
  {| s_name := e_name e; s_dur := df (e_op e); s_delay := odelay gdur gdelay (e_op e); s_tcs := [e_tc e]; s_abs := None |}.

Section Eng.
Context (gdur : lop -> Q) (gdelay : lop -> option Q) (df : lop -> Q).
Let sof := sch_of gdur gdelay df.

Lemma nth_sof es k s : nth_error (map sof es) k = Some s -> exists e, nth_error es k = Some e /\ s = sof e.
Proof. rewrite nth_error_map. destruct (nth_error es k) as [e|]; cbn; [|discriminate]. injection 1 as <-; eauto. Qed.
Lemma level_keys es : NoDup (names es) -> keys_ok (map sof es).
Proof. unfold keys_ok. rewrite map_map. auto. Qed.
Lemma level_fresh es : fresh (map sof es).
Proof. intros s h. apply in_map_iff in h as (e & <- & _). reflexivity. Qed.
Lemma level_ref es k j s c r : Backward es -> nth_error (map sof es) k = Some s -> nth_error (s_tcs s) j = Some c -> the_ref ASAP (map sof es) k j c = Some r ->
  exists p er, (p < k)%nat /\ nth_error es p = Some er /\ e_name er = r.
Proof. intros hb hs hc h. apply nth_sof in hs as (e & he & ->). destruct j as [|[|j]]; try discriminate. cbn in hc; injection hc as <-.
  unfold the_ref in h. destruct (hb _ _ he) as (_ & _ & hr). destruct (tc_ref (e_tc e)) as [r'|].
  - injection h as <-. exact hr.
  - destruct k as [|k]; [discriminate|]. rewrite nth_error_map in h. destruct (nth_error es k) as [er|] eqn:E; [|discriminate]. cbn in h. injection h as <-. exists k, er. auto. Qed.
Lemma level_pos es a b : Backward es -> RefersTo ASAP (map sof es) a b ->
  exists p k er e, (p < k)%nat /\ nth_error es p = Some er /\ e_name er = a /\ nth_error es k = Some e /\ e_name e = b.
Proof. intros hb (k & j & s & c & hs & hn & hc & hr). destruct (level_ref _ _ _ _ _ _ hb hs hc hr) as (p & er & hp & he & hr').
  apply nth_sof in hs as (e & he' & ->). exists p, k, er, e. auto. Qed.
Lemma names_inj es p q a b : NoDup (names es) -> nth_error es p = Some a -> nth_error es q = Some b -> e_name a = e_name b -> p = q.
Proof. intros hn h1 h2 h. apply (proj1 (NoDup_nth_error (names es)) hn).
  - unfold names. rewrite map_length. apply nth_error_Some. congruence.
  - unfold names. rewrite !nth_error_map, h1, h2. cbn. congruence. Qed.
Lemma level_acyclic es : NoDup (names es) -> Backward es -> ~ Circular ASAP (map sof es).
Proof. intros hn hb (n & h).
  assert (G : forall a b, clos_trans _ (RefersTo ASAP (map sof es)) a b -> exists p k er e, (p < k)%nat /\ nth_error es p = Some er /\ e_name er = a /\ nth_error es k = Some e /\ e_name e = b).
  { clear h. intros a b h. induction h as [a b h|a b c h1 IH1 h2 IH2]; [now apply level_pos|].
    destruct IH1 as (p & k & er & e & h & h0 & h3 & h4 & h5). destruct IH2 as (p' & k' & er' & e' & g & g0 & g3 & g4 & g5).
    assert (k = p') by (apply (names_inj es k p' e er' hn h4 g0); congruence). subst p'. exists p, k', er, e'. repeat split; auto. lia. }
  destruct (G _ _ h) as (p & k & er & e & h1 & h0 & h3 & h4 & h5). assert (p = k) by (apply (names_inj es p k er e hn h0 h4); congruence). lia. Qed.
Lemma level_accept es reps : es <> [] -> NoDup (names es) -> Backward es -> exists out d, determine_level ASAP reps (map sof es) = Ok (out, d).
Proof. intros hne hn hb. apply timing_complete.
  - now apply level_keys.
  - split; [destruct es; [easy|discriminate]|]. split; [|split].
    + intros k s h. apply nth_sof in h as (e & _ & ->). discriminate.
    + discriminate.
    + intros k s j c h hk hc. apply nth_sof in h as (e & he & ->). destruct j as [|[|j]]; try discriminate. cbn in hc; injection hc as <-.
      destruct (hb _ _ he) as (h1 & h2 & h3). split; [|split].
      * unfold the_ref. destruct (tc_ref (e_tc e)); [discriminate|]. destruct k as [|k]; [easy|]. rewrite nth_error_map.
        destruct (nth_error es k) eqn:E; [discriminate|]. apply nth_error_None in E. pose proof (nth_error_Some es (S k)) as g. rewrite he in g. assert (S k < List.length es)%nat by (apply g; discriminate). lia.
      * unfold the_pt. destruct (tc_pt (e_tc e)); [congruence|discriminate].
      * unfold the_ptnew. rewrite h2. discriminate.
  - intros a b h. apply level_pos in h as (p & k & er & e & _ & h & <- & _); auto. rewrite map_map. apply in_map_iff. exists er. split; [reflexivity|]. eapply nth_error_In; eauto.
  - now apply level_acyclic. Qed.

(** start times of the operations by position *)
Definition Rel (es : list entry) (T : nat -> Q) : Prop :=
  (forall k e j er, nth_error es k = Some e -> k <> 0%nat -> nth_error es j = Some er ->
     match tc_ref (e_tc e) with None => k = S j | Some r => e_name er = r end ->
     T k == T j + match tc_pt (e_tc e) with Some PtStart => 0 | Some PtCenter => df (e_op er) / 2 | _ => df (e_op er) end
            + tc_rel (e_tc e) + match odelay gdur gdelay (e_op er) with Some x => x | None => 0 end) /\
  (forall k, (k < List.length es)%nat -> 0 <= T k) /\ (exists k, (k < List.length es)%nat /\ T k == 0).

Lemma level_rel es reps out d : NoDup (names es) -> Backward es -> determine_level ASAP reps (map sof es) = Ok (out, d) ->
  exists T, map (fun s => (s_name s, s_abs s)) out = map (fun ke => (e_name (snd ke), Some (T (fst ke)))) (combine (seq 0 (List.length es)) es) /\ Rel es T.
Proof. intros hn hb h. pose proof (level_timed _ _ _ _ _ (level_keys _ hn) (level_fresh es) h) as (h1 & h2 & h3 & h4 & _).
  rewrite map_map in h1. change (map s_name out = names es) in h1.
  pose (T k := match nth_error out k with Some s => abs_of s | None => 0 end).
  assert (hlen : List.length out = List.length es) by (rewrite <- (map_length s_name out), h1; apply map_length).
  assert (hko : forall k s k' s', nth_error out k = Some s -> nth_error out k' = Some s' -> s_name s = s_name s' -> k = k').
  { intros k s k' s' g1 g2 g. apply (proj1 (NoDup_nth_error (names es)) hn).
    - unfold names. rewrite map_length, <- hlen. apply nth_error_Some. congruence.
    - rewrite <- h1, !nth_error_map, g1, g2. cbn. congruence. }
  assert (hT : forall k e, nth_error es k = Some e -> forall t, Starts out (e_name e) t <-> exists s, nth_error out k = Some s /\ s_abs s = Some t).
  { intros k e he t. assert (hk : nth_error (map s_name out) k = Some (e_name e)) by (rewrite h1; unfold names; now rewrite nth_error_map, he).
    rewrite nth_error_map in hk. destruct (nth_error out k) as [s|] eqn:E; [|discriminate]. cbn in hk; injection hk as hk.
    split.
    - intros (s' & hs & hs1 & hs2). apply In_nth_error in hs as (k' & hk'). assert (k = k') by (eapply hko; eauto; congruence). subst k'. exists s'. split; [congruence|auto].
    - intros (s' & g1 & g2). injection g1 as <-. exists s. split; [eapply nth_error_In; eauto|auto]. }
  assert (hS : forall k e, nth_error es k = Some e -> exists s, nth_error out k = Some s /\ s_name s = e_name e /\ s_abs s = Some (T k)).
  { intros k e he. assert (g : nth_error (map sof es) k = Some (sof e)) by (rewrite nth_error_map, he; reflexivity).
    destruct (h2 _ _ g) as (t & ht & _). cbn in ht. apply (hT _ _ he) in ht as (s & hs & ha). exists s. split; auto. unfold T. rewrite hs. unfold abs_of. rewrite ha. split; auto.
    assert (hk : nth_error (map s_name out) k = Some (e_name e)) by (rewrite h1; unfold names; now rewrite nth_error_map, he). rewrite nth_error_map, hs in hk. cbn in hk. congruence. }
  assert (hTs : forall k e t, nth_error es k = Some e -> Starts out (e_name e) t -> t = T k).
  { intros k e t he g. apply (hT _ _ he) in g as (s & hs & ha). destruct (hS _ _ he) as (s' & hs' & _ & ha'). congruence. }
  assert (hSt : forall k e, nth_error es k = Some e -> Starts out (e_name e) (T k)).
  { intros k e he. apply (hT _ _ he). destruct (hS _ _ he) as (s & hs & _ & ha). eauto. }
  exists T. split; [|split; [|split]].
  - apply nth_error_ext. intros k. rewrite !nth_error_map. destruct (nth_error es k) as [e|] eqn:E.
    + destruct (hS _ _ E) as (s & hs & hn' & ha). rewrite hs. cbn.
      assert (hc : nth_error (combine (seq 0 (List.length es)) es) k = Some (k, e)).
      { clear - E. assert (G : forall l i k e, nth_error l k = Some e -> nth_error (combine (seq i (List.length l)) l) k = Some ((i + k)%nat, e : entry)).
        { induction l as [|x l IH]; intros i [|k'] e' h; cbn in *; try discriminate; [injection h as ->; now rewrite Nat.add_0_r|]. rewrite (IH (S i) k' e') by auto. f_equal. f_equal. lia. }
        rewrite (G _ 0%nat _ _ E). reflexivity. }
      rewrite hc. cbn. congruence.
    + assert (g : (List.length es <= k)%nat) by (now apply nth_error_None). replace (nth_error out k) with (@None sch) by (symmetry; apply nth_error_None; lia).
      replace (nth_error (combine (seq 0 (List.length es)) es) k) with (@None (nat * entry)) by (symmetry; apply nth_error_None; rewrite combine_length, seq_length; lia). reflexivity.
  - intros k e j er he hk hj hr.
    assert (g : nth_error (map sof es) k = Some (sof e)) by (rewrite nth_error_map, he; reflexivity).
    destruct (h2 _ _ g) as (t & ht & hc). specialize (hc hk) as (_ & (j' & c & q & hc & hi & hq)). apply (hTs _ _ _ he) in ht. subst t.
    destruct j' as [|[|j']]; try discriminate. cbn in hc. injection hc as <-. inversion hi as [s r sr tr off offn i1 i2 i3 i4 i5 i6 i7]; subst.
    rewrite g in i1. injection i1 as <-.
    assert (hr' : s_name sr = e_name er).
    { unfold the_ref in i2. destruct (tc_ref (e_tc e)) as [r'|]; [congruence|]. subst k. rewrite nth_error_map, hj in i2. cbn in i2. congruence. }
    apply in_map_iff in i3 as (er' & <- & hin). apply In_nth_error in hin as (p & hp). cbn in hr'. assert (p = j) by (eapply names_inj; eauto). subst p. assert (er' = er) by congruence. subst er'.
    cbn in i5. apply (hTs _ _ _ hj) in i5. subst tr.
    destruct (hb _ _ he) as (b1 & b2 & _). unfold the_ptnew in i7. rewrite b2 in i7. cbn in i7. injection i7 as <-.
    rewrite <- hq. unfold delay_or_0. cbn [sof sch_of s_delay]. unfold the_pt in i6. cbn [sof sch_of s_dur] in i6.
    destruct (tc_pt (e_tc e)) as [[| | |]|]; cbn in i6; try congruence; injection i6 as <-; ring.
  - intros k hk. destruct (nth_error es k) as [e|] eqn:E; [|apply nth_error_None in E; lia]. eauto.
  - destruct h4 as (n & t & (s & hs & hn' & ha) & h0). apply In_nth_error in hs as (k & hk).
    assert (hlt : (k < List.length es)%nat) by (rewrite <- hlen; apply nth_error_Some; congruence).
    exists k. split; auto. unfold T. rewrite hk. unfold abs_of. rewrite ha. exact h0. Qed.

Lemma go_ok (es : list entry) : (forall e, In e es -> OD gdur gdelay (e_op e) (df (e_op e))) ->
  exists items1,
    (fix go (l : list item) : result (list item) :=
          match l with
          | [] => Ok []
          | Item n t a o' :: r =>
            do o'' <- match o' with
                      | OSched (Some _) _ _ _ => Ok o'
                      | OSched None _ _ _ => determine ASAP o'
                      | OLoop _ _ | OCond _ _ => determine ASAP o'
                      | OLeaf valid _ _ => if valid then Ok o' else Err RuntimeError
                      end;
            do r' <- go r;
            Ok (Item n t a o'' :: r')
          end) (map (to_item gdur gdelay) es) = Ok items1 /\ mapM item_sch items1 = Ok (map sof es) /\ map it_name items1 = names es.
Proof. induction es as [|e es IH]; intros h; [exists []; auto|].
  destruct IH as (items & h1 & h2 & h3); [intros; apply h; right; auto|]. destruct (h e) as (o' & ho & hd); [left; auto|].
  exists (Item (e_name e) [e_tc e] None o' :: items). split; [|split].
  - cbn [map to_item]. rewrite h1.
    assert (G : match to_op gdur gdelay (e_op e) with
                      | OSched (Some _) _ _ _ => Ok (to_op gdur gdelay (e_op e))
                      | OSched None _ _ _ => determine ASAP (to_op gdur gdelay (e_op e))
                      | OLoop _ _ | OCond _ _ => determine ASAP (to_op gdur gdelay (e_op e))
                      | OLeaf valid _ _ => if valid then Ok (to_op gdur gdelay (e_op e)) else Err RuntimeError
                      end = Ok o').
    { destruct (e_op e); cbn [to_op] in *; try (cbn [determine] in ho; exact ho). }
    rewrite G. reflexivity.
  - cbn [mapM]. unfold item_sch at 1. cbn [it_op it_name it_tcs it_abs]. rewrite hd. cbn [bind]. rewrite h2. cbn [bind map]. do 2 f_equal.
    unfold sof, sch_of. f_equal. unfold odelay. destruct (e_op e); cbn [to_op] in *; try (injection ho as <-; reflexivity).
    cbn [determine] in ho. apply bind_ok in ho as (b' & _ & ho). injection ho as <-. reflexivity.
  - cbn. now rewrite h3. Qed.

Lemma engine s : l_entries s <> [] -> NoDup (names (l_entries s)) -> Backward (l_entries s) ->
  (forall e, In e (l_entries s) -> OD gdur gdelay (e_op e) (df (e_op e))) ->
  exists T, Timeline gdur gdelay s (map (fun ke => (e_name (snd ke), e_op (snd ke), T (fst ke))) (combine (seq 0 (List.length (l_entries s))) (l_entries s))) /\ Rel (l_entries s) T.
Proof. intros hne hn hb hd. destruct (go_ok _ hd) as (items1 & h1 & h2 & h3). destruct (level_accept _ (l_reps s) hne hn hb) as (out & d & h).
  destruct (level_rel _ _ _ _ hn hb h) as (T & hT & hR). exists T. split; auto.
  exists d, (write_all items1 out). split; [|split].
  - unfold to_tree. cbn [determine]. rewrite h1. cbn [bind]. rewrite h2. cbn [bind]. rewrite h. reflexivity.
  - rewrite map_map. cbn. transitivity (map (fun e : entry => (e_name e, e_op e)) (map snd (combine (seq 0 (List.length (l_entries s))) (l_entries s)))); [now rewrite map_map|].
    f_equal. generalize 0%nat. generalize (l_entries s). clear. induction l as [|x l IH]; intros i; cbn; [auto|]. now rewrite IH.
  - rewrite map_map. cbn. rewrite <- hT.
    assert (hl : List.length out = List.length items1).
    { apply (f_equal (@List.length _)) in hT. rewrite !map_length, combine_length, seq_length, Nat.min_id in hT. rewrite hT. rewrite <- (map_length it_name), h3. unfold names. now rewrite map_length. }
    assert (hN : map s_name out = map it_name items1).
    { rewrite h3. apply (f_equal (map fst)) in hT. rewrite !map_map in hT. cbn in hT. etransitivity; [exact hT|].
      transitivity (map e_name (map snd (combine (seq 0 (List.length (l_entries s))) (l_entries s)))); [now rewrite map_map|].
      unfold names. f_equal. generalize 0%nat. generalize (l_entries s). clear. induction l as [|x l IH]; intros i; cbn; [auto|]. now rewrite IH. }
    clear - hl hN. revert out hl hN. induction items1 as [|i l IH]; intros [|s out] hl hN; cbn in *; try discriminate; auto.
    injection hN as h1 h2. injection hl as hl. rewrite (IH out) by auto. now rewrite h1. Qed.
End Eng.

Lemma od_leaf gdur gdelay o v d dl : to_op gdur gdelay o = OLeaf v d dl -> OD gdur gdelay o d.
Proof. intros h. exists (OLeaf v d dl). rewrite h. auto. Qed.

Definition ldur gdur (o : lop) : Q := match to_op gdur (fun _ => None) o with OLeaf _ d _ => d | _ => 0 end.
Definition leaf (o : lop) : bool := match o with Loop _ _ => false | _ => true end.
Lemma od_ldur gdur gdelay o : leaf o = true -> OD gdur gdelay o (ldur gdur o).
Proof. destruct o; try discriminate; intros _; eexists; (split; [reflexivity|reflexivity]). Qed.

Definition Back1 (pre : list entry) (e : entry) : Prop :=
  tc_pt (e_tc e) <> Some PtOther /\ tc_ptnew (e_tc e) = None /\ match tc_ref (e_tc e) with None => True | Some r => In r (names pre) end.
Fixpoint BackAll (pre es : list entry) : Prop := match es with [] => True | e :: r => Back1 pre e /\ BackAll (pre ++ [e]) r end.
Lemma backall_app a : forall pre b, BackAll pre (a ++ b) <-> BackAll pre a /\ BackAll (pre ++ a) b.
Proof. induction a as [|e a IH]; intros pre b; cbn; [rewrite app_nil_r; tauto|]. rewrite IH, <- app_assoc. cbn. tauto. Qed.
Lemma backall_mono es : forall pre pre', (forall n, In n (names pre) -> In n (names pre')) -> BackAll pre es -> BackAll pre' es.
Proof. induction es as [|e es IH]; intros pre pre' h; cbn; auto. intros ((h1 & h2 & h3) & h4). split.
  - split; auto. split; auto. destruct (tc_ref (e_tc e)); auto.
  - eapply IH; [|exact h4]. intros n. unfold names. rewrite !map_app, !in_app_iff. intros [g|g]; auto. Qed.
Lemma backall_backward es : BackAll [] es -> Backward es.
Proof. intros h k e he. destruct (nth_error_split _ _ he) as (a & b & -> & hl). apply backall_app in h as (_ & h). cbn in h. destruct h as ((h1 & h2 & h3) & _).
  split; auto. split; auto. destruct (tc_ref (e_tc e)) as [r|]; auto. unfold names in h3. apply in_map_iff in h3 as (er & <- & h3). apply In_nth_error in h3 as (j & hj).
  exists j, er. assert (j < List.length a)%nat by (apply nth_error_Some; congruence). split; [lia|]. split; auto. now rewrite nth_error_app1. Qed.
Lemma backall_blocks {A} (blk : nat -> nat -> A -> list entry) : (forall base i x, BackAll [] (blk base i x)) -> forall xs base i pre, BackAll pre (blocks blk base i xs).
Proof. intros h xs; induction xs as [|x xs IH]; intros base i pre; cbn; auto. apply backall_app. split; auto. eapply backall_mono; [|apply h]. intros n []. Qed.

(** the part of the time line that belongs to a block *)
Lemma timeline_segment (es pre blk post : list entry) (T : nat -> Q) : es = pre ++ blk ++ post ->
  Segment (map (fun ke : nat * entry => (e_name (snd ke), e_op (snd ke), T (fst ke))) (combine (seq 0 (List.length es)) es)) (List.length pre)
          (map (fun ke : nat * entry => (e_name (snd ke), e_op (snd ke), T (fst ke))) (combine (seq (List.length pre) (List.length blk)) blk)).
Proof. intros ->. rewrite !app_length, !seq_app. cbn [Nat.add].
  assert (G : forall (a : list nat) (b : list nat) (c d : list entry), List.length a = List.length c -> combine (a ++ b) (c ++ d) = combine a c ++ combine b d).
  { induction a; destruct c; intros; cbn in *; try discriminate; auto. f_equal. apply IHa. lia. }
  rewrite !G by now rewrite seq_length. rewrite !map_app. eexists _, _. split; [reflexivity|]. rewrite map_length, combine_length, seq_length. lia. Qed.
