(** C42: theorems about conditional playback. *)
From Verif Require Import Base CircModel CircProps CircProps5 QSort NumericModel CondModel CondSpec CondProps CondProps2 CondProps3 CondProps4 CondProps5 CondProps6 CondProps7.
From Coq Require Import List Lia Lqa Setoid Bool.
Open Scope list_scope.
Open Scope Q_scope.

(** Addresses are in 1..15; conditionals and acquisitions share an address exactly if they share the label. *)
Theorem C42_addresses mt latch_id o o' : Considered latch_id o -> conditional_playback mt latch_id o = Ok o' ->
  (forall l x i c f b, Sub (KCond l x i c f b) o' -> exists z, x = Some z /\ (1 <= z <= 15)%Z) /\
  (forall la p d a k l, Sub (KLeaf la p d) o' -> In a la -> Labelled a k l -> exists z, SendsTo a k z /\ (1 <= z <= 15)%Z) /\
  (forall l x i c f b l' x' i' c' f' b', Sub (KCond l x i c f b) o' -> Sub (KCond l' x' i' c' f' b') o' -> (x = x' <-> l = l')) /\
  (forall la p d a k z l x i c f b, Sub (KLeaf la p d) o' -> In a la -> SendsTo a k z -> Sub (KCond l (Some x) i c f b) o' -> (z = x <-> Labelled a k l)) /\
  (forall la p d a k z l la' p' d' a' k' z', Sub (KLeaf la p d) o' -> In a la -> SendsTo a k z -> Labelled a k l -> Sub (KLeaf la' p' d') o' -> In a' la' -> SendsTo a' k' z' -> (z' = z <-> Labelled a' k' l)).
Proof.
  intros C E. destruct (facts _ _ _ _ C E) as [m F]. repeat split.
  - intros l x i c f b S. destruct (cond_filled _ _ _ F _ _ _ _ _ _ S) as (e & En & -> & _). exists (ci_addr e). split; [reflexivity|]. eapply f_range; eassumption.
  - intros la p d a k l S Hi L. destruct (acq_address _ _ _ F _ _ _ _ _ _ S Hi L) as (e & En & Sd). exists (ci_addr e). split; [exact Sd|]. eapply f_range; eassumption.
  - destruct (cond_filled _ _ _ F _ _ _ _ _ _ H) as (e & En & -> & _). destruct (cond_filled _ _ _ F _ _ _ _ _ _ H0) as (e' & En' & -> & _). intros [= X]. apply (address_label _ _ _ F _ _ _ _ En En') in X. congruence.
  - destruct (cond_filled _ _ _ F _ _ _ _ _ _ H) as (e & En & -> & _). destruct (cond_filled _ _ _ F _ _ _ _ _ _ H0) as (e' & En' & -> & _). intros ->. congruence.
  - intros ->. destruct (acq_sends _ _ _ F _ _ _ _ _ _ H H0 H1) as (e & En & Ea). destruct (cond_filled _ _ _ F _ _ _ _ _ _ H2) as (e' & En' & [= Ex] & _). apply labelled_iff. apply (address_label _ _ _ F _ _ _ _ En En'). congruence.
  - intros L. apply (proj1 (labelled_iff _ _ _)) in L. destruct (acq_sends _ _ _ F _ _ _ _ _ _ H H0 H1) as (e & En & Ea). destruct (cond_filled _ _ _ F _ _ _ _ _ _ H2) as (e' & En' & [= Ex] & _). congruence.
  - intros ->. apply (proj1 (labelled_iff _ _ _)) in H2. destruct (acq_sends _ _ _ F _ _ _ _ _ _ H H0 H1) as (e & En & Ea). destruct (acq_sends _ _ _ F _ _ _ _ _ _ H3 H4 H5) as (e' & En' & Ea'). apply labelled_iff. rewrite <- H2. apply (address_label _ _ _ F _ _ _ _ En' En). congruence.
  - intros L. apply (proj1 (labelled_iff _ _ _)) in L, H2. destruct (acq_sends _ _ _ F _ _ _ _ _ _ H H0 H1) as (e & En & Ea). destruct (acq_sends _ _ _ F _ _ _ _ _ _ H3 H4 H5) as (e' & En' & Ea'). congruence.
Qed.

(** Before each conditional there is an acquisition with its label, and between the two there is neither an acquisition with a label nor a conditional on the same label. *)
Theorem C42_preceded mt latch_id o o' : Considered latch_id o -> conditional_playback mt latch_id o = Ok o' ->
  forall tc l x i c f b, Runs o' 0 tc (KCond l x i c f b) ->
  exists ta la p d a k, Runs o' 0 ta (KLeaf la p d) /\ In a la /\ Labelled a k l /\ ta <= tc /\
    (forall t la' p' d' a' k' l', Runs o' 0 t (KLeaf la' p' d') -> In a' la' -> Labelled a' k' l' -> t <= ta \/ tc <= t) /\
    (forall t x' i' c' f' b', Runs o' 0 t (KCond l x' i' c' f' b') -> t <= ta \/ tc <= t).
Proof.
  intros C E tc l x i c f b R. destruct (facts _ _ _ _ C E) as [m F]. destruct (timeline _ (f_check _ _ _ F)) as [tl T]. destruct (t_complete _ _ T _ _ R) as (u & Hu & Eu). apply in_split in Hu. destruct Hu as (S1 & S2 & Es). destruct (cond_after _ _ _ _ _ _ _ _ _ _ _ T Es) as (K1 & ta & y & ls & K2 & -> & A & Hl & Na & Nc). destruct (activates_leaf _ _ _ A Hl) as (la & p & d & a & r & k & -> & -> & L).
  assert (Ord : forall t z, Runs o' 0 t z -> (forall t, ~ In (t, z) K2) -> t <= ta \/ tc <= t).
  { intros t z Rz Nz. destruct (t_complete _ _ T _ _ Rz) as (v & Hv & Ev). rewrite <- Ev, <- Eu. rewrite Es in Hv. apply in_app_or in Hv. destruct Hv as [Hv|Hv].
    - left. apply in_app_or in Hv. destruct Hv as [Hv|[[= -> _]|Hv]]; [|apply Qle_refl|exfalso; eapply Nz; exact Hv]. eapply (sorted_le _ _ T K1 (((ta, KLeaf (a :: r) p d) :: K2) ++ (u, KCond l x i c f b) :: S2)); [rewrite app_assoc; exact Es|exact Hv|left; reflexivity].
    - right. destruct Hv as [[= -> _]|Hv]; [apply Qle_refl|]. eapply (sorted_le _ _ T ((K1 ++ (ta, KLeaf (a :: r) p d) :: K2) ++ [(u, KCond l x i c f b)]) S2); [rewrite <- app_assoc; exact Es|apply in_or_app; right; left; reflexivity|exact Hv]. }
  exists ta, (a :: r), p, d, a, k. split; [apply (t_sound _ _ T); rewrite Es; apply in_or_app; left; apply in_or_app; right; left; reflexivity|]. split; [left; reflexivity|]. split; [exact L|]. split; [|split].
  - rewrite <- Eu. eapply (sorted_le _ _ T (K1 ++ (ta, KLeaf (a :: r) p d) :: K2)); [exact Es|apply in_or_app; right; left; reflexivity|left; reflexivity].
  - intros t la' p' d' a' k' l' R' Hi L'. apply (Ord _ _ R'). intros t0 H0. destruct (activates_labelled _ _ _ F _ _ _ _ _ _ (runs_sub _ _ _ _ R') Hi L') as [ls' A']. apply (Na _ _ _ H0 A').
  - intros t x' i' c' f' b' R'. apply (Ord _ _ R'). intros t0 H0. apply (Nc _ _ _ _ _ _ H0).
Qed.

(** No result is overwritten before it is used: between two acquisitions with labels there is a conditional on each label of the first acquisition of the earlier operation. *)
Theorem C42_used mt latch_id o o' : Considered latch_id o -> conditional_playback mt latch_id o = Ok o' ->
  forall t a r p d k l t' la' p' d' a' k' l', Runs o' 0 t (KLeaf (a :: r) p d) -> Labelled a k l -> Runs o' 0 t' (KLeaf la' p' d') -> In a' la' -> Labelled a' k' l' -> t < t' ->
  exists tc x i c f b, Runs o' 0 tc (KCond l x i c f b) /\ t <= tc <= t'.
Proof.
  intros C E t a r p d k l t' la' p' d' a' k' l' R L R' Hi' L' Lt. destruct (facts _ _ _ _ C E) as [m F]. destruct (timeline _ (f_check _ _ _ F)) as [tl T]. destruct (t_complete _ _ T _ _ R) as (u & Hu & Eu). destruct (t_complete _ _ T _ _ R') as (u' & Hu' & Eu'). apply in_split in Hu. destruct Hu as (S1 & S2 & Es). rewrite Es in Hu'.
  apply in_app_or in Hu'. destruct Hu' as [Hu'|[Hu'|Hu']].
  - exfalso. assert (u' <= u) by (eapply (sorted_le _ _ T); [exact Es|exact Hu'|left; reflexivity]). lra.
  - exfalso. injection Hu' as Hu' _. rewrite Hu' in Eu. lra.
  - apply in_split in Hu'. destruct Hu' as (J & S3 & ->). destruct (activates_labelled _ _ _ F _ _ _ _ _ _ (runs_sub _ _ _ _ R) (or_introl eq_refl) L) as [ls A]. destruct (activates_labelled _ _ _ F _ _ _ _ _ _ (runs_sub _ _ _ _ R') Hi' L') as [ls' A'].
    assert (Hl : In l ls). { destruct A as [A _]. cbn [event_of] in A. destruct (conditional_acquisition (a :: r)); [|discriminate]. injection A as <-. cbn. destruct L as [a1 l1 P|a1 l1 P|a1 l1 c n P|a1 l1 mi h i P|a1 lo l1 h i P|a1 lo mi l1 i P|a1 lo mi h l1 P]; rewrite P; try (left; reflexivity). all: apply nodup_In; cbn [opt_list]; rewrite ?in_app_iff; cbn; auto 6. }
    destruct (cond_between _ _ _ _ _ _ _ _ _ _ _ l T Es A A' Hl) as (tc & x & i & c & f & b & Hc). exists tc, x, i, c, f, b. split; [apply (t_sound _ _ T); rewrite Es; apply in_or_app; right; right; apply in_or_app; left; exact Hc|]. rewrite <- Eu, <- Eu'. split.
    + eapply (sorted_le _ _ T (S1 ++ [(u, KLeaf (a :: r) p d)])); [rewrite <- app_assoc; exact Es|apply in_or_app; right; left; reflexivity|apply in_or_app; left; exact Hc].
    + eapply (sorted_le _ _ T (S1 ++ (u, KLeaf (a :: r) p d) :: J) ((u', KLeaf la' p' d') :: S3)); [rewrite <- app_assoc; exact Es|apply in_or_app; right; right; exact Hc|left; reflexivity].
Qed.

(** When a conditional runs, the counters of its address in the sequencers its body uses have counted exactly the triggers of the latest acquisition with its label. *)
Theorem C42_counter mt latch_id o o' delay trs : Considered latch_id o -> conditional_playback mt latch_id o = Ok o' -> TriggersOf o' delay trs -> Waits o' delay ->
  forall tc l x i c f b, Runs o' 0 tc (KCond l x i c f b) ->
  exists addr ta la p d a k, x = Some addr /\ Runs o' 0 ta (KLeaf la p d) /\ In a la /\ Labelled a k l /\ ta + delay <= tc /\
    (forall t la' p' d' a' k', Runs o' 0 t (KLeaf la' p' d') -> In a' la' -> Labelled a' k' l -> t <= ta \/ tc < t) /\
    (forall pc r, Uses pc b -> In r trs -> (CountedAt o' pc addr tc r <-> on_address r = addr /\ started r == ta)).
Proof.
  intros C E Tr W tc l x i c f b R. destruct (facts _ _ _ _ C E) as [m F]. destruct (timeline _ (f_check _ _ _ F)) as [tl T]. destruct (t_complete _ _ T _ _ R) as (u & Hu & Eu). apply in_split in Hu. destruct Hu as (S1 & S2 & Es). destruct (cond_after _ _ _ _ _ _ _ _ _ _ _ T Es) as (K1 & ta & y & ls & K2 & -> & A & Hl & Na & Nc). destruct (activates_leaf _ _ _ A Hl) as (la & p & d & a & ar & k & -> & Ela & L).
  assert (Ha : In a la) by (rewrite Ela; left; reflexivity). clear Ela. assert (Ra : Runs o' 0 ta (KLeaf la p d)). { apply (t_sound _ _ T). rewrite Es. apply in_or_app. left. apply in_or_app. right. left. reflexivity. }
  assert (Le : ta <= u). { eapply (sorted_le _ _ T (K1 ++ (ta, KLeaf la p d) :: K2)); [exact Es|apply in_or_app; right; left; reflexivity|left; reflexivity]. }
  destruct (cond_filled _ _ _ F _ _ _ _ _ _ (runs_sub _ _ _ _ R)) as (e & En & -> & Pc & _). exists (ci_addr e), ta, la, p, d, a, k. split; [reflexivity|]. split; [exact Ra|]. split; [exact Ha|]. split; [exact L|].
  assert (Lw : ta + delay <= tc). { destruct (proj1 W _ _ _ _ _ _ _ _ _ _ _ _ _ Ra Ha L R) as [Lt|?]; [lra|assumption]. }
  pose proof (delay_pos _ _ W _ _ _ _ _ Ra Ha) as Dp.
  assert (Pos : forall t la' p' d' a' k' l', Runs o' 0 t (KLeaf la' p' d') -> In a' la' -> Labelled a' k' l' -> t + delay <= ta \/ (t == ta /\ KLeaf la' p' d' = KLeaf la p d) \/ tc <= t).
  { intros t la' p' d' a' k' l' R' Hi' L'. destruct (activates_labelled _ _ _ F _ _ _ _ _ _ (runs_sub _ _ _ _ R') Hi' L') as [ls' A']. rewrite <- Eu. eapply (position _ _ T _ W); [exact Es|exact A|intros ls0 [X _]; discriminate|exact Na|exact R'|exact A']. }
  split; [exact Lw|]. split.
  - intros t la' p' d' a' k' R' Hi' L'. destruct (Pos _ _ _ _ _ _ _ R' Hi' L') as [?|[[? _]|Ge]]; [left; lra|left; lra|]. right. destruct (proj1 W _ _ _ _ _ _ _ _ _ _ _ _ _ R' Hi' L' R) as [Lt|?]; [exact Lt|]. exfalso. lra.
  - intros pc r Hpc Hr. assert (Hpm : In pc (pcs_of m (Some l))). { unfold pcs_of. rewrite En. apply Pc, uses_iff, Hpc. }
    destruct (Tr _ Hr) as (t & la' & p' & d' & a' & k' & R' & Hi' & Sd & Est & Ar). pose proof (delay_pos _ _ W _ _ _ _ _ R' Hi') as Dp'.
    assert (Lab : on_address r = ci_addr e -> Labelled a' k' l). { intros Q. destruct (acq_sends _ _ _ F _ _ _ _ _ _ (runs_sub _ _ _ _ R') Hi' Sd) as (e' & En' & Ea). apply labelled_iff. apply (address_label _ _ _ F _ _ _ _ En' En). congruence. }
    split.
    + intros (Q & Before & NoReset). split; [exact Q|]. specialize (Lab Q). destruct (Pos _ _ _ _ _ _ _ R' Hi' Lab) as [Ea|[[? _]|Ge]]; [|lra|exfalso; lra]. exfalso. apply NoReset.
      destruct (f_served _ _ _ F 0 ta la p d a k l pc Ra Ha L Hpm) as [(q & Hq & Rq)|(q & _ & [])]. exists q. split; [exact Rq|]. unfold ResetTime in Hq. lra.
    + intros (Q & Es'). specialize (Lab Q). split; [exact Q|]. split; [lra|]. intros (q & Rq & Hq). destruct (f_latch _ _ _ F _ _ Rq) as (t2 & l2 & p2 & d2 & a2 & k2 & lb2 & R2 & Hi2 & L2 & _ & Rt). unfold ResetTime in Rt. pose proof (delay_pos _ _ W _ _ _ _ _ R2 Hi2) as Dp2.
      destruct (Pos _ _ _ _ _ _ _ R2 Hi2 L2) as [Ea|[[E2 El2]|Ge]]; [lra| |lra]. destruct (Pos _ _ _ _ _ _ _ R' Hi' Lab) as [Eb|[[E3 El3]|Ge]]; [lra| |lra]. injection El2 as -> -> ->. injection El3 as -> -> ->.
      pose proof (proj2 (proj2 W) _ _ _ _ _ _ _ _ _ _ R2 Hi2 Hi' L2 Lab) as Et. lra.
Qed.

(** A conditional that has settings has those of every trigger count with its label. *)
Theorem C42_settings mt latch_id o o' : Considered latch_id o -> conditional_playback mt latch_id o = Ok o' ->
  forall l x i c f b la p d a, Sub (KCond l x i c f b) o' -> Sub (KLeaf la p d) o' -> In a la ->
  (forall cond n, a_proto a = PTrigger (Some l) cond n -> mt (a_pc a) = Ok QRM -> (forall v, i = Some v -> cond = Some v) /\ (forall v, c = Some v -> v = n)) /\
  ((exists cond n, a_proto a = PTrigger (Some l) cond n) \/ (exists k, Labelled a (Some k) l) -> mt (a_pc a) = Ok QTM -> (forall v, i = Some v -> v = false) /\ (forall v, c = Some v -> v = 1%Z)).
Proof.
  intros C E l x i c f b la p d a Sc Sl Hi. destruct (facts _ _ _ _ C E) as [m F]. destruct (cond_filled _ _ _ F _ _ _ _ _ _ Sc) as (e & En & _ & _ & Vi & Vc). destruct (f_leaf _ _ _ F _ _ _ Sl) as (LO & Fi & _).
  assert (Fa : (exists k, Labelled a k l) -> acq_filled mt m a). { intros [k L]. assert (Ca : conditional_acquisition la = true) by (apply labelled_conditional; eauto 6). specialize (Fi Ca). rewrite Forall_forall in Fi. apply Fi, Hi. }
  assert (Tg : forall cond n, a_proto a = PTrigger (Some l) cond n -> exists c0, entry m (Some l) = Some c0 /\ (mt (a_pc a) = Ok QRM -> exists v, cond = Some v /\ ci_invert c0 = Some v /\ ci_count c0 = Some n) /\ (mt (a_pc a) = Ok QTM -> ci_invert c0 = Some false /\ ci_count c0 = Some 1%Z)).
  { intros cond n P. destruct Fa as (_ & B & _); [exists None; eapply L_trigger, P|]. destruct (B _ _ _ P) as (c0 & H1 & _ & H2). eauto. }
  split.
  - intros cond n P M. destruct (Tg _ _ P) as (e' & En' & H & _). destruct (H M) as (v & -> & Hv & Hn). rewrite En in En'. injection En' as <-. split; [intros w Hw; apply Vi in Hw; congruence|intros w Hw; apply Vc in Hw; congruence].
  - intros [(cond & n & P)|[k L]] M.
    + destruct (Tg _ _ P) as (e' & En' & _ & H). destruct (H M) as (Hv & Hn). rewrite En in En'. injection En' as <-. split; [intros w Hw; apply Vi in Hw; congruence|intros w Hw; apply Vc in Hw; congruence].
    + destruct Fa as (_ & _ & D); [eauto|]. pose proof (proj1 (labelled_iff _ _ _) L) as Lk. destruct (a_proto a) as [| | |lo mi hi inv|] eqn:P; try discriminate. cbn in Lk. destruct (D _ _ _ _ _ _ eq_refl Lk) as (e' & En' & _ & _ & Hv & Hn). rewrite En in En'. injection En' as <-. split; [intros w Hw; apply Vi in Hw; congruence|intros w Hw; apply Vc in Hw; congruence].
Qed.
