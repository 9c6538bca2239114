(** C42: the settings of a conditional, and what the pass leaves as it is. *)
From Verif Require Import Base CircModel CircProps CircProps5 QSort NumericModel CondModel CondSpec CondProps CondProps2 CondProps3 CondProps4 CondProps5 CondProps6 CondProps7.
From Coq Require Import List Lia Lqa Setoid Bool.
Open Scope list_scope.
Open Scope Q_scope.

Definition ops_listing (ops : list (string * cop)) : list cop := flat_map (fun '(_, o) => listing o) ops.
Lemma listing_put ops k o o' : get ops k = Some o -> listing o' = listing o -> ops_listing (put ops k o') = ops_listing ops.
Proof. induction ops as [|[k0 o0] r IH]; cbn; [discriminate|]. destruct (String.eqb k0 k); cbn; [intros [= <-] ->; reflexivity|]. intros G E. f_equal. apply IH; assumption. Qed.
Lemma listing_new ops k o' : get ops k = None -> ops_listing (put ops k o') = ops_listing ops ++ listing o'.
Proof. induction ops as [|[k0 o0] r IH]; cbn; [intros _; apply app_nil_r|]. destruct (String.eqb k0 k); cbn; [discriminate|]. intros G. rewrite <- app_assoc. f_equal. apply IH, G. Qed.
Section Ins.
Variable latch_id : portclock -> string.
Hypothesis latch_inj : forall p q, latch_id p = latch_id q -> p = q.
Variable m : cmap.
Definition inv_l (L : list cop) (ops : list (string * cop)) : Prop := (forall k o, get ops k = Some o -> ok latch_id o) /\ (forall pc, get ops (latch_id pc) = None \/ get ops (latch_id pc) = Some (KLatch pc)) /\ ops_listing ops = L.
Lemma inv_add : forall rs L ops items, inv_l L ops -> inv_l L (fst (add_resets latch_id ops items rs)).
Proof using latch_inj.
  induction rs as [|[r p] rs IH]; intros L ops items V; [exact V|]. unfold add_resets. cbn [fold_left]. apply IH. destruct V as (A & B & <-). split; [|split].
  - intros k o. rewrite get_put. destruct (String.eqb (latch_id p) k); [intros [= <-]; apply ok_latch|apply A].
  - intros pc. rewrite get_put. destruct (String.eqb_spec (latch_id p) (latch_id pc)) as [E|E]; [apply latch_inj in E; subst; right; reflexivity|apply B].
  - destruct (B p) as [G|G]; [rewrite listing_new by exact G; apply app_nil_r|eapply listing_put; [exact G|reflexivity]].
Qed.
Lemma insert_listing : forall fuel o t o' rs, ok latch_id o -> insert_resets latch_id m fuel o t = Ok (o', rs) -> listing o' = listing o.
Proof using latch_inj.
  induction fuel as [|fuel IH]; intros o t o' rs Ho E; [discriminate|]. destruct o as [l p d|p|n b|l a i c f b|d ops items].
  - injection E as <- <-. reflexivity.
  - injection E as <- <-. reflexivity.
  - cbn [insert_resets] in E. apply bind_inv in E. destruct E as ([b' rs'] & E1 & [= <- <-]). cbn. eapply IH; [|exact E1]. intros x S. apply Ho. constructor. exact S.
  - injection E as <- <-. reflexivity.
  - rewrite insert_sched in E. apply bind_inv in E. destruct E as (out & E1 & [= <- <-]). cbn. fold (ops_listing (fst out)). fold (ops_listing ops).
    assert (V : inv_l (ops_listing ops) ops). { split; [intros k o G x S; apply Ho; econstructor; eassumption|]. split; [apply (Ho _ (S_here _))|reflexivity]. }
    assert (X : forall its ops its0 out L, inv_l L ops -> foldM (item_step latch_id m fuel) its (ops, its0) = Ok out -> inv_l L (fst out)).
    { clear - IH latch_inj. induction its as [|[a id] its IHi]; intros ops its0 out L V E; cbn [foldM] in E; [injection E as <-; exact V|]. apply bind_inv in E. destruct E as ([ops1 its1] & E1 & E). eapply IHi; [|exact E]. unfold item_step in E1. apply bind_inv in E1. destruct E1 as (o & Ei & E1). apply index_ok in Ei. apply bind_inv in E1. destruct E1 as ([o1 rs] & E2 & [= E1]). destruct V as (A & B & <-). pose proof (A _ _ Ei) as Oo. destruct (insert_spec _ latch_inj m _ _ _ _ _ Oo E2) as (_ & Oo1 & _ & _ & _ & Kl). pose proof (IH _ _ _ _ Oo E2) as Li.
      change ops1 with (fst (ops1, its1)). rewrite <- E1. apply inv_add. split; [|split].
      - intros k o0. rewrite get_put. destruct (String.eqb id k); [intros [= <-]; exact Oo1|apply A].
      - intros pc. rewrite get_put. destruct (String.eqb_spec id (latch_id pc)) as [->|N]; [|apply B]. right. destruct (B pc) as [G|G]; [congruence|]. rewrite G in Ei. injection Ei as <-. rewrite (Kl pc eq_refl). reflexivity.
      - eapply listing_put; eassumption. }
    apply (X _ _ _ _ _ V E1).
Qed.
End Ins.

(** ** The map as the operations are visited *)
Section Set_.
Variable mt : portclock -> result module_type.
Definition node_now (m : cmap) (x : cop) : Prop := node_filled mt m x /\ match x with KCond l _ i c _ _ => exists e, entry m (Some l) = Some e /\ i = ci_invert e /\ c = ci_count e | _ => True end.
Inductive Steps : cmap -> list cop -> cmap -> Prop :=
  | St_nil m : Steps m [] m
  | St_cons m x m1 L m2 : grows m m1 -> node_now m1 x -> Steps m1 L m2 -> Steps m (x :: L) m2.
Lemma steps_app m L1 m1 L2 m2 : Steps m L1 m1 -> Steps m1 L2 m2 -> Steps m (L1 ++ L2) m2.
Proof. induction 1; [auto|]. intros H2. cbn. econstructor; [eassumption|assumption|]. apply IHSteps, H2. Qed.
Lemma steps_grow m L m1 : Steps m L m1 -> grows m m1.
Proof. induction 1; [apply grows_refl|]. eapply grows_trans; eassumption. Qed.
Lemma steps_split m L1 x L2 m2 : Steps m (L1 ++ x :: L2) m2 -> exists m1, grows m m1 /\ node_now m1 x /\ Steps m1 L2 m2.
Proof. revert m. induction L1 as [|y L1 IH]; cbn; intros m H; inversion H as [|? ? m1 ? ? G N S']; subst; [eauto|]. destruct (IH _ S') as (m3 & G3 & N3 & S3). exists m3. split; [eapply grows_trans; eassumption|auto]. Qed.
Lemma set_steps : forall o m o' m', numbered m -> set_map mt o m = Ok (o', m') -> Steps m (listing o') m'.
Proof.
  induction o as [l p d|p|n b IH|l a i c f b IH|d ops items IH] using cop_ind'; intros m o' m' N E; pose proof (set_map_spec _ _ _ _ _ N E) as (N' & G' & W' & F' & _).
  - assert (X : listing o' = [o']) by (inversion W'; reflexivity). rewrite X. econstructor; [exact G'|split; [apply F'; constructor|inversion W'; exact I]|constructor].
  - injection E as <- <-. constructor.
  - cbn [set_map] in E. apply bind_inv in E. destruct E as ([b' m1] & E1 & [= <- <-]). cbn. eapply IH; eassumption.
  - cbn [set_map] in E. destruct (touch_spec m (Some l) N) as (m1 & e & Et & F & N1 & G1). rewrite Et in E. injection E as <- <-. cbn [listing]. econstructor; [exact G'| |constructor]. split; [apply F'; constructor|]. rewrite find_store. destruct (label_eqb_spec (Some l) (Some l)); [|congruence]. eexists. split; [reflexivity|]. auto.
  - rewrite set_sched in E. apply bind_inv in E. destruct E as ([ops' m1] & E1 & [= <- <-]). cbn [fst snd listing]. clear N' G' W' F' items. revert m ops' m1 N E1. induction IH as [|[k o] r Ho Hr IHr]; intros m ops' m1 N E; cbn in E.
    + injection E as <- <-. constructor.
    + apply bind_inv in E. destruct E as ([o1 m2] & E2 & E). apply bind_inv in E. destruct E as ([r1 m3] & E3 & [= <- <-]). cbn [flat_map]. eapply steps_app; [apply (Ho _ _ _ N E2)|]. eapply IHr; [|exact E3]. apply (set_map_spec _ _ _ _ _ N E2).
Qed.
End Set_.

(** A conditional that is listed after a trigger count with its label has the settings. *)
Theorem C42_settings_known mt latch_id o o' : Considered latch_id o -> conditional_playback mt latch_id o = Ok o' ->
  forall L1 la p d L2 l x i c f b L3 a, listing o' = L1 ++ KLeaf la p d :: L2 ++ KCond l x i c f b :: L3 -> Sub (KLeaf la p d) o' -> In a la ->
  (forall cond n, a_proto a = PTrigger (Some l) cond n -> mt (a_pc a) = Ok QRM -> exists v, cond = Some v /\ i = Some v /\ c = Some n) /\
  ((exists cond n, a_proto a = PTrigger (Some l) cond n) \/ (exists k, Labelled a (Some k) l) -> mt (a_pc a) = Ok QTM -> i = Some false /\ c = Some 1%Z).
Proof.
  intros C E L1 la p d L2 l x i c f b L3 a EL Sl Hi. destruct (facts _ _ _ _ C E) as [mf Fa]. destruct (f_leaf _ _ _ Fa _ _ _ Sl) as (LO & _). clear mf Fa.
  pose proof C as (Inj & _ & CN). unfold conditional_playback in E. apply bind_inv in E. destruct E as ([o1 m] & E1 & E). apply bind_inv in E. destruct E as ([o2 rs] & E2 & E). destruct (existsb _ m); [discriminate|]. apply bind_inv in E. destruct E as (es & _ & E). apply bind_inv in E. destruct E as (act & _ & [= <-]).
  destruct (set_map_spec mt _ _ _ _ numbered_nil E1) as (_ & _ & W & _ & _). pose proof (considered_ok _ _ _ C W) as Ok1. rewrite (insert_listing _ Inj m _ _ _ _ _ Ok1 E2) in EL. pose proof (set_steps _ _ _ _ _ numbered_nil E1) as St. rewrite EL in St.
  destruct (steps_split _ _ _ _ _ _ St) as (m1 & _ & [F1 _] & St1). destruct (steps_split _ _ _ _ _ _ St1) as (m2 & G & [_ (e & En & -> & ->)] & _). cbn in F1.
  assert (F : (exists k, Labelled a k l) -> acq_filled mt m2 a). { intros [k L]. assert (Ca : conditional_acquisition la = true) by (apply labelled_conditional; eauto 6). specialize (F1 Ca). rewrite Forall_forall in F1. eapply filled_grows; [exact G|]. apply F1, Hi. }
  assert (Tg : forall cond n, a_proto a = PTrigger (Some l) cond n -> exists c0, entry m2 (Some l) = Some c0 /\ (mt (a_pc a) = Ok QRM -> exists v, cond = Some v /\ ci_invert c0 = Some v /\ ci_count c0 = Some n) /\ (mt (a_pc a) = Ok QTM -> ci_invert c0 = Some false /\ ci_count c0 = Some 1%Z)).
  { intros cond n P. destruct F as (_ & B & _); [exists None; eapply L_trigger, P|]. destruct (B _ _ _ P) as (c0 & H1 & _ & H2). eauto. }
  split.
  - intros cond n P M. destruct (Tg _ _ P) as (e' & En' & H & _). rewrite En in En'. injection En' as <-. apply (H M).
  - intros [(cond & n & P)|[k L]] M.
    + destruct (Tg _ _ P) as (e' & En' & _ & H). rewrite En in En'. injection En' as <-. apply (H M).
    + destruct F as (_ & _ & D); [eauto|]. pose proof (proj1 (labelled_iff _ _ _) L) as Lk. destruct (a_proto a) as [| | |lo mi hi inv|] eqn:P; try discriminate. cbn in Lk. destruct (D _ _ _ _ _ _ eq_refl Lk) as (e' & En' & _ & _ & H). rewrite En in En'. injection En' as <-. exact H.
Qed.

(** ** What is left as it is *)
Lemma written_dur o o' : Written o o' -> dur_of o' = dur_of o.
Proof. induction 1; cbn; try reflexivity. rewrite IHWritten. reflexivity. Qed.
Lemma written_fwd ops ops' : written_ops ops ops' -> forall k o, get ops k = Some o -> exists o', get ops' k = Some o' /\ Written o o'.
Proof. induction 1 as [|k o o' r r' W _ IH]; intros k0 o0; cbn; [discriminate|]. destruct (String.eqb k k0); [intros [= <-]; eauto|apply IH]. Qed.
Lemma written_runs o t t' x : Runs o t t' x -> forall o', Written o o' -> exists x', Runs o' t t' x' /\ Written x x'.
Proof.
  induction 1 as [l p d t t' E|p t t' E|l a i c f b t t' E|n b t t' x i Hi R IH|d ops items a id o t t' x Hi G R IH]; intros o' W.
  - inversion W; subst. eexists. split; [constructor; exact E|exact W].
  - inversion W; subst. eexists. split; [constructor; exact E|exact W].
  - inversion W; subst. eexists. split; [constructor; exact E|exact W].
  - inversion W as [| |? ? b' Wb| |]; subst. destruct (IH _ Wb) as (x' & R' & Wx). exists x'. split; [|exact Wx]. eapply R_loop; [exact Hi|]. rewrite (written_dur _ _ Wb). exact R'.
  - inversion W as [| | | |? ? ops' ? Wo]; subst. destruct (written_fwd _ _ Wo _ _ G) as (o1 & G1 & W1). destruct (IH _ W1) as (x' & R' & Wx). exists x'. split; [|exact Wx]. eapply R_sched; eassumption.
Qed.
Lemma written_back o' t t' x' : Runs o' t t' x' -> forall o, Written o o' -> exists x, Runs o t t' x /\ Written x x'.
Proof.
  induction 1 as [l p d t t' E|p t t' E|l a i c f b t t' E|n b t t' x i Hi R IH|d ops items a id o t t' x Hi G R IH]; intros o0 W.
  - inversion W; subst. eexists. split; [constructor; exact E|exact W].
  - inversion W; subst. eexists. split; [constructor; exact E|exact W].
  - inversion W; subst. eexists. split; [constructor; exact E|exact W].
  - inversion W as [| |? b' ? Wb| |]; subst. destruct (IH _ Wb) as (x' & R' & Wx). exists x'. split; [|exact Wx]. eapply R_loop; [exact Hi|]. rewrite <- (written_dur _ _ Wb). exact R'.
  - inversion W as [| | | |? ops' ? ? Wo]; subst. destruct (written_get _ _ Wo _ _ G) as (o1 & G1 & W1). destruct (IH _ W1) as (x' & R' & Wx). exists x'. split; [|exact Wx]. eapply R_sched; eassumption.
Qed.
(** Only addresses and settings are written and only LatchResets are added: the same operations run at the same times. *)
Theorem C42_unchanged mt latch_id o o' : Considered latch_id o -> conditional_playback mt latch_id o = Ok o' ->
  dur_of o' = dur_of o /\
  (forall t x, Runs o 0 t x -> exists x', Runs o' 0 t x' /\ SameOp x x') /\
  (forall t x', Runs o' 0 t x' -> (exists pc, x' = KLatch pc) \/ exists x, Runs o 0 t x /\ SameOp x x').
Proof.
  intros C E. pose proof C as (Inj & _ & CN). unfold conditional_playback in E. apply bind_inv in E. destruct E as ([o1 m] & E1 & E). apply bind_inv in E. destruct E as ([o2 rs] & E2 & E). destruct (existsb _ m); [discriminate|]. apply bind_inv in E. destruct E as (es & _ & E). apply bind_inv in E. destruct E as (act & _ & [= <-]).
  destruct (set_map_spec mt _ _ _ _ numbered_nil E1) as (_ & _ & W & _ & _). pose proof (considered_ok _ _ _ C W) as Ok1. destruct (insert_spec _ Inj m _ _ _ _ _ Ok1 E2) as (G & _).
  assert (Sm : forall x x', Written x x' -> basic x -> SameOp x x') by (intros x x' [] B; try contradiction; cbn; auto).
  split; [rewrite (g_dur _ _ _ G); apply written_dur, W|]. split.
  - intros t x R. destruct (written_runs _ _ _ _ R _ W) as (x' & R' & Wx). exists x'. split; [apply (g_fwd _ _ _ G), R'|]. apply Sm; [exact Wx|]. destruct (runs_basic _ _ _ _ R) as [B|[p ->]]; [exact B|]. exfalso. apply (CN _ (runs_sub _ _ _ _ R)).
  - intros t x' R. destruct (runs_basic _ _ _ _ R) as [B|B]; [right|left; exact B]. apply (g_back _ _ _ G) in R; [|exact B]. destruct (written_back _ _ _ _ R _ W) as (x & R' & Wx). exists x. split; [exact R'|]. apply Sm; [exact Wx|]. destruct Wx; exact B || exact I.
Qed.
