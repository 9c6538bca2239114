(** C42: the schedule after the addresses are written. *)
From Verif Require Import Base CircModel CircProps CircProps5 CondModel CondSpec CondProps.
From Coq Require Import List Lia.
Open Scope list_scope.

Lemma cop_ind' (P : cop -> Prop) : (forall l p d, P (KLeaf l p d)) -> (forall p, P (KLatch p)) -> (forall n b, P b -> P (KLoop n b)) -> (forall l a i c f b, P b -> P (KCond l a i c f b)) -> (forall d ops items, Forall (fun ko => P (snd ko)) ops -> P (KSched d ops items)) -> forall o, P o.
Proof.
  intros H1 H2 H3 H4 H5. fix IH 1. intros [l p d|p|n b|l a i c f b|d ops items]; [apply H1|apply H2|apply H3, IH|apply H4, IH|apply H5].
  induction ops as [|[k o] r IHr]; constructor; [apply IH|exact IHr].
Qed.
Lemma uses_iff pc : forall o, Uses pc o <-> In pc (used_pcs o).
Proof.
  induction o as [l p d|p|n b IH|l a i c f b IH|d ops items IH] using cop_ind'; cbn.
  - split; [intros U; inversion U; assumption|apply U_leaf].
  - split; [intros U; inversion U; left; reflexivity|intros [->|[]]; constructor].
  - rewrite <- IH. split; [intros U; inversion U; assumption|apply U_loop].
  - rewrite <- IH. split; [intros U; inversion U; assumption|apply U_cond].
  - rewrite in_flat_map. rewrite Forall_forall in IH. split.
    + intros U. inversion U as [| | | |? ? ? k o Hi Uo]; subst. exists (k, o). split; [exact Hi|]. apply (IH _ Hi), Uo.
    + intros ([k o] & Hi & Hp). eapply U_sched; [exact Hi|]. apply (IH _ Hi), Hp.
Qed.
(** [o'] is [o] except for addresses and trigger settings outside the bodies of conditionals *)
Inductive Written : cop -> cop -> Prop :=
  | W_leaf l l' p d : Forall2 same_acq l l' -> Written (KLeaf l p d) (KLeaf l' p d)
  | W_latch p : Written (KLatch p) (KLatch p)
  | W_loop n b b' : Written b b' -> Written (KLoop n b) (KLoop n b')
  | W_cond l a i c a' i' c' f b : Written (KCond l a i c f b) (KCond l a' i' c' f b)
  | W_sched d ops ops' items : written_ops ops ops' -> Written (KSched d ops items) (KSched d ops' items)
with written_ops : list (string * cop) -> list (string * cop) -> Prop :=
  | WO_nil : written_ops [] []
  | WO_cons k o o' r r' : Written o o' -> written_ops r r' -> written_ops ((k, o) :: r) ((k, o') :: r').
Lemma written_get ops ops' : written_ops ops ops' -> forall k o', get ops' k = Some o' -> exists o, get ops k = Some o /\ Written o o'.
Proof. induction 1 as [|k o o' r r' W _ IH]; intros k0 o0; cbn; [discriminate|]. destruct (String.eqb k k0); [intros [= <-]; eauto|apply IH]. Qed.
Lemma written_none ops ops' : written_ops ops ops' -> forall k, get ops k = None -> get ops' k = None.
Proof. induction 1 as [|k o o' r r' W _ IH]; intros k0; cbn; [auto|]. destruct (String.eqb k k0); [discriminate|apply IH]. Qed.
Lemma same_refl l : Forall2 same_acq l l.
Proof. induction l; constructor; [split; [reflexivity|split; reflexivity]|assumption]. Qed.
Lemma written_sub o o' : Written o o' -> forall x', Sub x' o' -> exists x, Sub x o /\ Written x x'.
Proof.
  intros W x' S. revert o W. induction S as [x|n b x S IH|d ops items k o0 x G S IH]; intros o W.
  - exists o. split; [constructor|exact W].
  - inversion W as [| |? b0 ? Wb| |]; subst. destruct (IH _ Wb) as (y & Sy & Wy). exists y. split; [constructor; exact Sy|exact Wy].
  - inversion W as [| | | |? ops0 ? ? Wo]; subst. destruct (written_get _ _ Wo _ _ G) as (y & Gy & Wy). destruct (IH _ Wy) as (z & Sz & Wz). exists z. split; [econstructor; eassumption|exact Wz].
Qed.
Section Pass.
Variable mt : portclock -> result module_type.
Definition set_ops := fix go (ops : list (string * cop)) (m : cmap) : result (list (string * cop) * cmap) :=
        match ops with
        | [] => Ok ([], m)
        | (k, o) :: r => do x <- set_map mt o m; let '(o, m) := x in do y <- go r m; let '(r, m) := y in Ok ((k, o) :: r, m)
        end.
Lemma set_sched d ops items m : set_map mt (KSched d ops items) m = do x <- set_ops ops m; Ok (KSched d (fst x) items, snd x).
Proof. reflexivity. Qed.
(** the node [x] has the addresses and settings of [m] *)
Definition node_filled (m : cmap) (x : cop) : Prop :=
  match x with
  | KLeaf l _ _ => conditional_acquisition l = true -> Forall (acq_filled mt m) l
  | KCond l addr inv cnt _ b => exists c, entry m (Some l) = Some c /\ addr = Some (ci_addr c) /\ incl (used_pcs b) (ci_pcs c) /\ (forall v, inv = Some v -> ci_invert c = Some v) /\ (forall v, cnt = Some v -> ci_count c = Some v)
  | _ => True
  end.
Definition node_minimal (m : cmap) (x : cop) : Prop := match x with KLeaf l _ _ => Forall (acq_minimal m) l | _ => True end.
Definition node_blank (x : cop) : Prop := match x with KLeaf l _ _ => Forall blank l | _ => True end.
Lemma node_grows m m' x : grows m m' -> node_filled m x -> node_filled m' x.
Proof.
  intros G. destruct x as [l p d| | |l a i c f b|]; cbn; auto.
  - intros H E. eapply Forall_impl; [|exact (H E)]. intros a. apply filled_grows, G.
  - intros (e & F & A & I & V & W). destruct (G _ _ F) as (e' & F' & E' & I' & V' & W'). exists e'. split; [exact F'|]. split; [congruence|]. split; [eapply incl_tran; eassumption|auto].
Qed.
Lemma node_min_grows m m' x : grows m m' -> node_minimal m x -> node_minimal m' x.
Proof. intros G. destruct x as [l p d| | | |]; cbn; auto. intros H. eapply Forall_impl; [|exact H]. intros a. apply minimal_grows, G. Qed.
Lemma same_conditional l l' : Forall2 same_acq l l' -> conditional_acquisition l' = conditional_acquisition l.
Proof. intros [|a a' r r' (S & _) _]; cbn; [reflexivity|]. rewrite S. reflexivity. Qed.
Definition set_post (o : cop) (m : cmap) (o' : cop) (m' : cmap) : Prop :=
  numbered m' /\ grows m m' /\ Written o o' /\ (forall x, Sub x o' -> node_filled m' x) /\ ((forall x, Sub x o -> node_blank x) -> forall x, Sub x o' -> node_minimal m' x).
Lemma set_map_spec : forall o m o' m', numbered m -> set_map mt o m = Ok (o', m') -> set_post o m o' m'.
Proof.
  induction o as [l p d|p|n b IH|l a i c f b IH|d ops items IH] using cop_ind'; intros m o' m' N E.
  - cbn [set_map] in E. destruct (conditional_acquisition l) eqn:C.
    + apply bind_inv in E. destruct E as ([l' m1] & E1 & [= <- <-]). destruct (proc_acqs_spec mt _ _ _ _ N E1) as (N1 & G1 & S1 & F1 & M1). cbn [fst snd]. split; [exact N1|]. split; [exact G1|]. split; [constructor; exact S1|]. split.
      * intros x S. inversion S; subst. cbn. auto.
      * intros B x S. inversion S; subst. cbn. apply M1. apply (B _ (S_here _)).
    + injection E as <- <-. split; [exact N|]. split; [apply grows_refl|]. split; [constructor; apply same_refl|]. split; [intros x S; inversion S; subst; cbn; congruence|]. intros B x S. inversion S; subst. cbn. specialize (B _ (S_here _)). cbn in B. clear - B. induction B as [|a r [B1 B2] _ IH]; constructor; [|exact IH]. split; rewrite ?B1, ?B2; [discriminate|intros ? ? []].
  - injection E as <- <-. split; [exact N|]. split; [apply grows_refl|]. split; [constructor|]. split; [|intros _]; intros x S; inversion S; subst; exact I.
  - cbn [set_map] in E. apply bind_inv in E. destruct E as ([b' m1] & E1 & [= <- <-]). destruct (IH _ _ _ N E1) as (N1 & G1 & W1 & F1 & M1). cbn [fst snd]. split; [exact N1|]. split; [exact G1|]. split; [constructor; exact W1|]. split.
    + intros x S. inversion S; subst; [exact I|apply F1; assumption].
    + intros B x S. inversion S; subst; [exact I|apply M1; [intros y Sy; apply B; constructor; exact Sy|assumption]].
  - cbn [set_map] in E. destruct (touch_spec m (Some l) N) as (m1 & e & Et & F & N1 & G1). rewrite Et in E. injection E as <- <-.
    set (e' := {| ci_pcs := ci_pcs e ++ used_pcs b; ci_addr := ci_addr e; ci_invert := ci_invert e; ci_count := ci_count e |}).
    destruct (store_spec m1 (Some l) e' e N1 F eq_refl) as [N2 G2]; [apply incl_appl, incl_refl|auto|auto|]. split; [exact N2|]. split; [eapply grows_trans; eassumption|]. split; [constructor|]. split; [|intros _]; intros x S; inversion S; subst; [|exact I].
    cbn. exists e'. rewrite find_store. destruct (label_eqb_spec (Some l) (Some l)); [|congruence]. split; [reflexivity|]. split; [reflexivity|]. split; [apply incl_appr, incl_refl|auto].
  - rewrite set_sched in E. apply bind_inv in E. destruct E as ([ops' m1] & E1 & [= <- <-]). cbn [fst snd].
    assert (H : numbered m1 /\ grows m m1 /\ written_ops ops ops' /\ (forall k o x, get ops' k = Some o -> Sub x o -> node_filled m1 x) /\ (forall k o', get ops' k = Some o' -> exists o, get ops k = Some o /\ ((forall x, Sub x o -> node_blank x) -> forall x, Sub x o' -> node_minimal m1 x))).
    { clear items. revert m ops' m1 N E1. induction IH as [|[k o] r Ho Hr IHr]; intros m ops' m1 N E; cbn in E.
      - injection E as <- <-. split; [exact N|]. split; [apply grows_refl|]. split; [constructor|]. split; [intros ? ? ? ?; discriminate|intros ? ?; discriminate].
      - apply bind_inv in E. destruct E as ([o1 m2] & E2 & E). apply bind_inv in E. destruct E as ([r1 m3] & E3 & [= <- <-]). destruct (Ho _ _ _ N E2) as (N1 & G1 & W1 & F1 & M1). destruct (IHr _ _ _ N1 E3) as (N2 & G2 & W2 & F2 & M2).
        split; [exact N2|]. split; [eapply grows_trans; eassumption|]. split; [constructor; assumption|]. split.
        + intros k0 o0 x. cbn. destruct (String.eqb k k0); [intros [= <-] S; eapply node_grows; [exact G2|]; apply F1; exact S|apply F2].
        + intros k0 o0. cbn. destruct (String.eqb k k0); [intros [= <-]; exists o; split; [reflexivity|]; intros B x S; eapply node_min_grows; [exact G2|]; apply M1; assumption|apply M2]. }
    destruct H as (N1 & G1 & W1 & F1 & M1). split; [exact N1|]. split; [exact G1|]. split; [constructor; exact W1|]. split.
    + intros x S. inversion S; subst; [exact I|eapply F1; eassumption].
    + intros B x S. inversion S as [| |? ? ? k o1 ? G S']; subst; [exact I|]. destruct (M1 _ _ G) as (o0 & G0 & M). apply M; [|exact S']. intros y Sy. apply B. econstructor; eassumption.
Qed.
End Pass.
