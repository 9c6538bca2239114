(** C42: where LatchResets come from. *)
From Verif Require Import Base CircModel CircProps CircProps5 QSort NumericModel CondModel CondSpec CondProps CondProps2 CondProps3 CondProps4 CondProps5 CondProps6 CondProps7 CondThms2.
From Coq Require Import List Lia Lqa Setoid Bool.
Open Scope list_scope.
Open Scope Q_scope.

Definition has_pc (m : cmap) (l : option string) (p : portclock) : Prop := exists c, entry m l = Some c /\ In p (ci_pcs c).
(** no port-clocks are added *)
Definition no_new (m m' : cmap) : Prop := forall l p, has_pc m' l p -> has_pc m l p.
Lemma no_new_trans m1 m2 m3 : no_new m1 m2 -> no_new m2 m3 -> no_new m1 m3.
Proof. unfold no_new. auto. Qed.
Lemma no_new_refl m : no_new m m. Proof. intros l p H. exact H. Qed.
Lemma touch_no_new m l m1 c : touch m l = (m1, c) -> no_new m m1 /\ (forall p, In p (ci_pcs c) -> has_pc m l p).
Proof.
  unfold touch. destruct (entry m l) as [c0|] eqn:E; intros [= <- <-].
  - split; [apply no_new_refl|]. intros p H. exists c0. auto.
  - cbn. split; [|intros p []]. intros l' p (c & H & Hp). rewrite find_app in H. destruct (entry m l') eqn:E'; [injection H as ->; exists c; auto|]. cbn in H. destruct (label_eqb l l'); [|discriminate]. injection H as <-. destruct Hp.
Qed.
Lemma store_no_new m l c : (forall p, In p (ci_pcs c) -> has_pc m l p) -> no_new m (store m l c).
Proof. intros H l' p (c' & E & Hp). rewrite find_store in E. destruct (label_eqb_spec l l') as [<-|N]; [injection E as <-; apply H, Hp|exists c'; auto]. Qed.
Lemma has_trans m m1 l p : no_new m m1 -> has_pc m1 l p -> has_pc m l p. Proof. intros N H. apply N, H. Qed.
Lemma settings_no_new m l i n m' : settings m l i n = Ok m' -> no_new m m'.
Proof.
  unfold settings. destruct (touch m l) as [m1 c] eqn:T. pose proof (touch_no_new _ _ _ _ T) as [N P]. assert (En : entry m1 l = Some c). { unfold touch in T. destruct (entry m l) eqn:E; injection T as <- <-; [exact E|]. rewrite find_app, E. cbn. destruct (label_eqb_spec l l); [reflexivity|congruence]. }
  intros E. apply bind_inv in E. destruct E as (c1 & E1 & E). apply bind_inv in E. destruct E as (c2 & E2 & [= <-]).
  assert (P1 : ci_pcs c1 = ci_pcs c). { unfold set_invert in E1. destruct (ci_invert c); [destruct (Bool.eqb b i); [|discriminate]|]; injection E1 as <-; reflexivity. }
  assert (P2 : ci_pcs c2 = ci_pcs c). { rewrite <- P1. unfold set_count in E2. destruct (ci_count c1); [destruct (Z.eqb z n); [|discriminate]|]; injection E2 as <-; reflexivity. }
  eapply no_new_trans; [exact N|]. apply store_no_new. intros p H. exists c. rewrite <- P2. auto.
Qed.
Section S.
Variable mt : portclock -> result module_type.
Lemma proc_kind_no_new lo mi hi inv a m k a' m' : proc_kind mt lo mi hi inv (a, m) k = Ok (a', m') -> no_new m m'.
Proof.
  unfold proc_kind. destruct (dual_label lo mi hi inv k) as [l|]; [|intros [= _ <-]; apply no_new_refl]. intros E. apply bind_inv in E. destruct E as (ty & _ & E). destruct ty; try discriminate. destruct (touch m (Some l)) as [m1 c] eqn:T. apply bind_inv in E. destruct E as (m2 & E & [= _ <-]). eapply no_new_trans; [apply (touch_no_new _ _ _ _ T)|]. eapply settings_no_new, E.
Qed.
Lemma proc_acq_no_new m a a' m' : proc_acq mt m a = Ok (a', m') -> no_new m m'.
Proof.
  unfold proc_acq. destruct (a_proto a) as [l|l|l cond n|lo mi hi inv|].
  - destruct (touch m l) as [m1 c] eqn:T. intros [= _ <-]. apply (touch_no_new _ _ _ _ T).
  - intros [= _ <-]. apply no_new_refl.
  - destruct cond as [less|]; [|discriminate]. destruct (touch m l) as [m1 c] eqn:T. intros E. apply bind_inv in E. destruct E as (ty & _ & E). destruct ty; [| |injection E as _ <-; apply (touch_no_new _ _ _ _ T)]; apply bind_inv in E; destruct E as (m2 & E & [= _ <-]); (eapply no_new_trans; [apply (touch_no_new _ _ _ _ T)|]; eapply settings_no_new, E).
  - generalize kinds as ks. intros ks. revert a m. induction ks as [|k ks IH]; intros a m E; cbn [foldM] in E; [injection E as _ <-; apply no_new_refl|]. apply bind_inv in E. destruct E as ([a1 m1] & E1 & E). eapply no_new_trans; [eapply proc_kind_no_new, E1|]. eapply IH, E.
  - intros [= _ <-]. apply no_new_refl.
Qed.
Lemma proc_acqs_no_new : forall l m l' m', proc_acqs mt m l = Ok (l', m') -> no_new m m'.
Proof.
  induction l as [|a l IH]; intros m l' m' E; cbn [proc_acqs] in E; [injection E as _ <-; apply no_new_refl|]. apply bind_inv in E. destruct E as ([a1 m1] & E1 & E). apply bind_inv in E. destruct E as ([l1 m2] & E2 & [= _ <-]). eapply no_new_trans; [eapply proc_acq_no_new, E1|eapply IH, E2].
Qed.
Definition UsedBy (o : cop) (l : option string) (p : portclock) : Prop := exists lb x i c f b, l = Some lb /\ In (KCond lb x i c f b) (listing o) /\ In p (used_pcs b).
Lemma set_pcs : forall o m o' m', set_map mt o m = Ok (o', m') -> forall l p, has_pc m' l p -> has_pc m l p \/ UsedBy o' l p.
Proof.
  induction o as [l p d|p|n b IH|l a i c f b IH|d ops items IH] using cop_ind'; intros m o' m' E l1 q H; cbn [set_map] in E.
  - left. destruct (conditional_acquisition l).
    + apply bind_inv in E. destruct E as ([l' m1] & E1 & [= _ <-]). eapply proc_acqs_no_new; [exact E1|exact H].
    + injection E as _ <-. exact H.
  - injection E as _ <-. left. exact H.
  - apply bind_inv in E. destruct E as ([b' m1] & E1 & [= <- <-]). destruct (IH _ _ _ E1 _ _ H) as [H1|H1]; [left; exact H1|right; exact H1].
  - destruct (touch m (Some l)) as [m1 e] eqn:T. injection E as <- <-. destruct (touch_no_new _ _ _ _ T) as [N P]. destruct H as (c' & H & Hp). rewrite find_store in H. destruct (label_eqb_spec (Some l) l1) as [<-|Nl].
    + injection H as <-. cbn in Hp. apply in_app_or in Hp. destruct Hp as [Hp|Hp]; [left; apply P, Hp|right]. eexists l, _, _, _, f, b. split; [reflexivity|]. split; [left; reflexivity|exact Hp].
    + left. apply N. exists c'. auto.
  - change ((do x <- set_ops mt ops m; Ok (KSched d (fst x) items, snd x)) = Ok (o', m')) in E. apply bind_inv in E. destruct E as ([ops' m1] & E1 & [= <- <-]). cbn [fst snd] in *.
    assert (X : has_pc m l1 q \/ exists lb x i c f b, l1 = Some lb /\ In (KCond lb x i c f b) (ops_listing ops') /\ In q (used_pcs b)); [|exact X].
    clear items. revert m ops' m1 E1 H. induction IH as [|[k o] r Ho Hr IHr]; intros m ops' m1 E H; cbn in E.
    + injection E as <- <-. left. exact H.
    + apply bind_inv in E. destruct E as ([o1 m2] & E2 & E). apply bind_inv in E. destruct E as ([r1 m3] & E3 & [= <- <-]). cbn [snd] in Ho. destruct (IHr _ _ _ E3 H) as [H1|(lb & x & i & c & f & b & A & B & C)].
      * destruct (Ho _ _ _ E2 _ _ H1) as [H2|(lb & x & i & c & f & b & A & B & C)]; [left; exact H2|right]. exists lb, x, i, c, f, b. split; [exact A|]. split; [cbn; apply in_or_app; left; exact B|exact C].
      * right. exists lb, x, i, c, f, b. split; [exact A|]. split; [cbn; apply in_or_app; right; exact B|exact C].
Qed.
End S.
(** A LatchReset on a port-clock runs 4 ns (up to rounding) after the start of an acquisition with the label of a conditional that uses the port-clock; and each such acquisition has one. *)
Theorem C42_resets mt latch_id o o' : Considered latch_id o -> conditional_playback mt latch_id o = Ok o' ->
  (forall r pc, Runs o' 0 r (KLatch pc) -> exists ta la p d a k l x i c f b, Runs o' 0 ta (KLeaf la p d) /\ In a la /\ Labelled a k l /\ In (KCond l x i c f b) (listing o') /\ Uses pc b /\ ta + a_t0 a + (35 # 10000000000) <= r <= ta + a_t0 a + (45 # 10000000000)) /\
  (forall ta la p d a k l x i c f b pc, Runs o' 0 ta (KLeaf la p d) -> In a la -> Labelled a k l -> Sub (KCond l x i c f b) o' -> Uses pc b -> exists r, Runs o' 0 r (KLatch pc) /\ ta + a_t0 a + (35 # 10000000000) <= r <= ta + a_t0 a + (45 # 10000000000)).
Proof.
  intros C E. pose proof C as (Inj & (d0 & ops0 & items0 & Eo) & CN). pose proof E as E0. unfold conditional_playback in E. apply bind_inv in E. destruct E as ([o1 m] & E1 & E). apply bind_inv in E. destruct E as ([o2 rs] & E2 & E). destruct (existsb _ m); [discriminate|]. apply bind_inv in E. destruct E as (es & _ & E). apply bind_inv in E. destruct E as (act & _ & [= <-]).
  destruct (set_map_spec mt _ _ _ _ numbered_nil E1) as (_ & _ & W & Fi & _). pose proof (considered_ok _ _ _ C W) as Ok1. destruct (insert_spec _ Inj m _ _ _ _ _ Ok1 E2) as (G & _ & _ & _ & Sv & _). pose proof (insert_listing _ Inj m _ _ _ _ _ Ok1 E2) as Li. split.
  - intros r pc R. assert (Hno : ~ Runs o1 0 r (KLatch pc)). { intros R1. apply runs_sub in R1. destruct (written_sub _ _ W _ R1) as (x & Sx & Wx). inversion Wx; subst. apply (CN _ Sx). }
    destruct (g_cause _ _ _ G _ _ _ R) as [R1|(ta & l & pcs & d & a & k & lbl & R1 & Hi & L & Hp & T)]; [contradiction|]. unfold pcs_of in Hp. destruct (entry m (Some lbl)) as [e|] eqn:En; [|destruct Hp].
    destruct (set_pcs _ _ _ _ _ E1 (Some lbl) pc) as [(e' & En' & _)|(lb & x & i & c & f & b & [= <-] & Hc & Hu)]; [exists e; auto|discriminate|]. exists ta, l, pcs, d, a, k, lbl, x, i, c, f, b. split; [apply (g_fwd _ _ _ G), R1|]. split; [exact Hi|]. split; [exact L|]. rewrite Li. split; [exact Hc|]. split; [apply uses_iff, Hu|]. exact T.
  - intros ta la p d a k l x i c f b pc R Hi L Sc Hu. assert (rs = []). { subst o. inversion W; subst. cbn [depth] in E2. rewrite insert_sched in E2. apply bind_inv in E2. destruct E2 as (y & _ & [= _ <-]). reflexivity. } subst rs.
    apply (g_sub _ _ _ G) in Sc; [|exact I]. destruct (Fi _ Sc) as (e & En & _ & Inc & _). destruct (Sv 0 ta la p d a k l pc R Hi L) as [(r & T & R')|(r & _ & [])]; [unfold pcs_of; rewrite En; apply Inc, uses_iff, Hu|]. exists r. split; [exact R'|exact T].
Qed.
