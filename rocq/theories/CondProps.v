(** C42: addresses and settings of conditional playback. *)
From Verif Require Import Base CircModel CircProps CircProps5 CondModel CondSpec.
From Coq Require Import List Lia.
Open Scope list_scope.

(** ** The map of labels *)
Lemma label_eqb_spec a b : reflect (a = b) (label_eqb a b).
Proof. destruct a as [a|], b as [b|]; cbn; try (constructor; congruence). destruct (String.eqb_spec a b); constructor; congruence. Qed.
Lemma find_store m l c l' : entry (store m l c) l' = if label_eqb l l' then Some c else entry m l'.
Proof.
  induction m as [|[l0 c0] r IH]; cbn; [reflexivity|]. destruct (label_eqb_spec l0 l) as [->|N]; cbn.
  - destruct (label_eqb_spec l l'); reflexivity.
  - destruct (label_eqb_spec l0 l') as [->|N']; [|exact IH]. destruct (label_eqb_spec l l') as [->|]; [congruence|reflexivity].
Qed.
Lemma find_app m1 m2 l : entry (m1 ++ m2) l = match entry m1 l with Some c => Some c | None => entry m2 l end.
Proof. induction m1 as [|[l0 c0] r IH]; cbn; [reflexivity|]. destruct (label_eqb l0 l); [reflexivity|exact IH]. Qed.
Lemma store_keys m l c : entry m l <> None -> map fst (store m l c) = map fst m.
Proof. induction m as [|[l0 c0] r IH]; cbn; [congruence|]. destruct (label_eqb_spec l0 l) as [->|N]; cbn; [reflexivity|]. intros H. f_equal. apply IH, H. Qed.
Lemma find_in m l c : entry m l = Some c -> In (l, c) m.
Proof. induction m as [|[l0 c0] r IH]; cbn; [discriminate|]. destruct (label_eqb_spec l0 l) as [->|N]; [intros [= ->]; left; reflexivity|right; apply IH; assumption]. Qed.
Lemma find_none m l : entry m l = None <-> ~ In l (map fst m).
Proof. induction m as [|[l0 c0] r IH]; cbn; [tauto|]. destruct (label_eqb_spec l0 l) as [->|N]; [split; [discriminate|tauto]|rewrite IH; tauto]. Qed.
Lemma in_find m l c : NoDup (map fst m) -> In (l, c) m -> entry m l = Some c.
Proof. induction m as [|[l0 c0] r IH]; cbn; [tauto|]. intros H [[= -> ->]|Hi]; [destruct (label_eqb_spec l l); [reflexivity|congruence]|]. inversion H; subst. destruct (label_eqb_spec l0 l) as [->|N]; [|apply IH; assumption]. exfalso. apply H2. apply (in_map fst) in Hi. exact Hi. Qed.
(** addresses are numbered in the order of the entries; keys are unique *)
Definition numbered (m : cmap) : Prop := NoDup (map fst m) /\ map (fun '(_, c) => ci_addr c) m = map Z.of_nat (seq 1 (List.length m)).
(** [m'] has all [m] has *)
Definition grows (m m' : cmap) : Prop := forall l c, entry m l = Some c -> exists c', entry m' l = Some c' /\ ci_addr c' = ci_addr c /\ incl (ci_pcs c) (ci_pcs c') /\ (forall v, ci_invert c = Some v -> ci_invert c' = Some v) /\ (forall v, ci_count c = Some v -> ci_count c' = Some v).
Lemma grows_refl m : grows m m.
Proof. intros l c H. exists c. split; [exact H|]. split; [reflexivity|]. split; [apply incl_refl|auto]. Qed.
Lemma grows_trans m1 m2 m3 : grows m1 m2 -> grows m2 m3 -> grows m1 m3.
Proof. intros A B l c H. destruct (A l c H) as (c1 & H1 & E1 & I1 & V1 & W1). destruct (B l c1 H1) as (c2 & H2 & E2 & I2 & V2 & W2). exists c2. split; [exact H2|]. split; [congruence|]. split; [eapply incl_tran; eassumption|auto]. Qed.
Lemma touch_spec m l : numbered m -> exists m1 c, touch m l = (m1, c) /\ entry m1 l = Some c /\ numbered m1 /\ grows m m1.
Proof.
  intros [N A]. unfold touch. destruct (entry m l) as [c|] eqn:E; cbn [fst].
  - exists m, c. split; [reflexivity|]. split; [exact E|]. split; [split; assumption|apply grows_refl].
  - do 2 eexists. split; [reflexivity|]. split; [rewrite find_app, E; cbn; destruct (label_eqb_spec l l); [reflexivity|congruence]|]. split.
    + split.
      * rewrite map_app. cbn. apply find_none in E. clear A. induction (map fst m) as [|x r IH]; cbn; [constructor; [tauto|constructor]|]. inversion N; subst. constructor; [|apply IH; [assumption|intros ?; apply E; right; assumption]]. rewrite in_app_iff. intros [?|[->|[]]]; [tauto|]. apply E. left. reflexivity.
      * rewrite map_app, app_length, Nat.add_comm. cbn [List.length Nat.add]. rewrite seq_S, map_app, A. cbn. do 2 f_equal. lia.
    + intros l' c' H. exists c'. split; [rewrite find_app, H; reflexivity|]. split; [reflexivity|]. split; [apply incl_refl|auto].
Qed.
Lemma store_addrs m l c c0 : entry m l = Some c0 -> ci_addr c = ci_addr c0 -> map (fun '(_, c) => ci_addr c) (store m l c) = map (fun '(_, c) => ci_addr c) m.
Proof. induction m as [|[l0 c1] r IH]; cbn; [discriminate|]. destruct (label_eqb_spec l0 l) as [->|N]; cbn; [intros [= ->] ->; reflexivity|]. intros H E. f_equal. apply IH; assumption. Qed.
Lemma store_len m l c : entry m l <> None -> List.length (store m l c) = List.length m.
Proof. intros H. rewrite <- (map_length fst (store m l c)), store_keys, map_length; [reflexivity|exact H]. Qed.
Lemma store_spec m l c c0 : numbered m -> entry m l = Some c0 -> ci_addr c = ci_addr c0 -> incl (ci_pcs c0) (ci_pcs c) -> (forall v, ci_invert c0 = Some v -> ci_invert c = Some v) -> (forall v, ci_count c0 = Some v -> ci_count c = Some v) -> numbered (store m l c) /\ grows m (store m l c).
Proof.
  intros [N A] H E I V W. assert (Hn : entry m l <> None) by congruence. split.
  - split; [rewrite store_keys; assumption|]. rewrite (store_addrs _ _ _ _ H E), store_len by exact Hn. exact A.
  - intros l' c' H'. rewrite find_store. destruct (label_eqb_spec l l') as [->|Nl].
    + assert (c' = c0) by congruence. subst c'. exists c. auto 6.
    + exists c'. split; [exact H'|]. split; [reflexivity|]. split; [apply incl_refl|auto].
Qed.
Lemma settings_spec m l i n m' : numbered m -> settings m l i n = Ok m' -> numbered m' /\ grows m m' /\ exists c, entry m' l = Some c /\ ci_invert c = Some i /\ ci_count c = Some n.
Proof.
  intros N. unfold settings. destruct (touch_spec m l N) as (m1 & c & -> & F & N1 & G1). unfold set_invert, set_count.
  assert (S1 : forall c1 : cinfo, ci_addr c1 = ci_addr c -> ci_pcs c1 = ci_pcs c -> (forall v, ci_invert c = Some v -> ci_invert c1 = Some v) -> (forall v, ci_count c = Some v -> ci_count c1 = Some v) -> ci_invert c1 = Some i -> ci_count c1 = Some n -> Ok (store m1 l c1) = Ok m' -> numbered m' /\ grows m m' /\ exists c, entry m' l = Some c /\ ci_invert c = Some i /\ ci_count c = Some n).
  { intros c1 E1 E2 V W Ei En [= <-]. destruct (store_spec _ l c1 c N1 F E1) as [N2 G2]; [rewrite E2; apply incl_refl|exact V|exact W|]. split; [exact N2|]. split; [eapply grows_trans; eassumption|]. exists c1. rewrite find_store. destruct (label_eqb_spec l l); [auto|congruence]. }
  destruct (ci_invert c) as [w|] eqn:Ei.
  - destruct (Bool.eqb w i) eqn:B; [|discriminate]. apply Bool.eqb_prop in B. subst w. cbn [bind]. destruct (ci_count c) as [z|] eqn:Ec.
    + destruct (Z.eqb_spec z n) as [->|]; [|discriminate]. cbn [bind]. intros E. apply (S1 c); auto; congruence.
    + cbn [bind]. intros E. eapply S1; [| | | | | |exact E]; cbn; auto; congruence.
  - cbn [bind ci_count]. destruct (ci_count c) as [z|] eqn:Ec.
    + destruct (Z.eqb_spec z n) as [->|]; [|discriminate]. cbn [bind]. intros E. eapply S1; [| | | | | |exact E]; cbn; auto; congruence.
    + cbn [bind]. intros E. eapply S1; [| | | | | |exact E]; cbn; auto; congruence.
Qed.

(** ** What is written *)
(** [a] has the addresses of its labels in [m], the settings of [m] are what a trigger count needs, and nothing else of it changed *)
Definition acq_filled (mt : portclock -> result module_type) (m : cmap) (a : acq) : Prop :=
  (forall l, a_proto a = PThresholded l -> exists c, entry m l = Some c /\ a_addr a = Some (ci_addr c)) /\
  (forall l cond n, a_proto a = PTrigger l cond n -> exists c, entry m l = Some c /\ a_addr a = Some (ci_addr c) /\
     (mt (a_pc a) = Ok QRM -> exists v, cond = Some v /\ ci_invert c = Some v /\ ci_count c = Some n) /\ (mt (a_pc a) = Ok QTM -> ci_invert c = Some false /\ ci_count c = Some 1%Z)) /\
  (forall lo mi hi inv k l, a_proto a = PDual lo mi hi inv -> dual_label lo mi hi inv k = Some l -> exists c, entry m (Some l) = Some c /\ In (k, ci_addr c) (a_addrs a) /\ mt (a_pc a) = Ok QTM /\ ci_invert c = Some false /\ ci_count c = Some 1%Z).
(** addresses are only there for a reason *)
Definition acq_minimal (m : cmap) (a : acq) : Prop :=
  (forall x, a_addr a = Some x -> exists l c, entry m l = Some c /\ ci_addr c = x /\ (a_proto a = PThresholded l \/ exists cond n, a_proto a = PTrigger l cond n)) /\
  (forall k x, In (k, x) (a_addrs a) -> exists lo mi hi inv l c, a_proto a = PDual lo mi hi inv /\ dual_label lo mi hi inv k = Some l /\ entry m (Some l) = Some c /\ ci_addr c = x).
Definition blank (a : acq) : Prop := a_addr a = None /\ a_addrs a = [].
Lemma filled_grows mt m m' a : grows m m' -> acq_filled mt m a -> acq_filled mt m' a.
Proof.
  intros G (A & B & C). split; [|split].
  - intros l H. destruct (A l H) as (c & F & E). destruct (G _ _ F) as (c' & F' & E' & _). exists c'. split; [exact F'|]. rewrite E'. exact E.
  - intros l cond n H. destruct (B l cond n H) as (c & F & E & Q1 & Q2). destruct (G _ _ F) as (c' & F' & E' & _ & V & W). exists c'. split; [exact F'|]. rewrite E'. split; [exact E|]. split.
    + intros T. destruct (Q1 T) as (v & -> & U1 & U2). exists v. auto.
    + intros T. destruct (Q2 T) as [U1 U2]. auto.
  - intros lo mi hi inv k l H D. destruct (C lo mi hi inv k l H D) as (c & F & E & T & U1 & U2). destruct (G _ _ F) as (c' & F' & E' & _ & V & W). exists c'. rewrite E'. auto 8.
Qed.
Lemma minimal_grows m m' a : grows m m' -> acq_minimal m a -> acq_minimal m' a.
Proof.
  intros G [A B]. split.
  - intros x H. destruct (A x H) as (l & c & F & E & P). destruct (G _ _ F) as (c' & F' & E' & _). exists l, c'. rewrite E'. auto.
  - intros k x H. destruct (B k x H) as (lo & mi & hi & inv & l & c & P & D & F & E). destruct (G _ _ F) as (c' & F' & E' & _). exists lo, mi, hi, inv, l, c'. rewrite E'. auto.
Qed.
(** same acquisition up to what the pass writes *)
Definition same_acq (a b : acq) : Prop := a_proto a = a_proto b /\ a_t0 a = a_t0 b /\ a_pc a = a_pc b.
Lemma kind_eqb_spec a b : reflect (a = b) (kind_eqb a b).
Proof. destruct a, b; cbn; constructor; congruence. Qed.
Lemma put_kind_in d k x : In (k, x) (put_kind d k x).
Proof. induction d as [|[k0 y] r IH]; cbn; [left; reflexivity|]. destruct (kind_eqb_spec k0 k) as [->|]; [left; reflexivity|right; exact IH]. Qed.
Lemma put_kind_other d k x k' y : k' <> k -> In (k', y) (put_kind d k x) <-> In (k', y) d.
Proof. intros N. induction d as [|[k0 z] r IH]; cbn; [split; [intros [[= <- _]|[]]; congruence|intros []]|]. destruct (kind_eqb_spec k0 k) as [->|]; cbn; [split; intros [[= <- _]|H]; try congruence; right; exact H|rewrite IH; tauto]. Qed.
Lemma put_kind_at d k x y : NoDup (map fst d) -> In (k, y) (put_kind d k x) -> y = x.
Proof. induction d as [|[k0 z] r IH]; cbn; [intros _ [[= <-]|[]]; reflexivity|]. intros N. inversion N; subst. destruct (kind_eqb_spec k0 k) as [->|Nk]; cbn; [|intros [[= ? _]|H]; [congruence|apply IH; assumption]]. intros [[= <-]|H]; [reflexivity|]. exfalso. apply H1. apply (in_map fst) in H. exact H. Qed.
Lemma put_kind_nodup d k x : NoDup (map fst d) -> NoDup (map fst (put_kind d k x)).
Proof.
  induction d as [|[k0 z] r IH]; cbn; [intros _; constructor; [tauto|constructor]|]. intros N. inversion N; subst. destruct (kind_eqb_spec k0 k) as [->|Nk]; cbn; [exact N|]. constructor; [|apply IH; assumption].
  intros H. apply in_map_iff in H. destruct H as ([k1 y] & E & H). cbn in E. subst k1. apply put_kind_other in H; [|exact Nk]. apply H1. apply (in_map fst) in H. exact H.
Qed.
Section Pass.
Variable mt : portclock -> result module_type.
Lemma proc_kind_spec lo mi hi inv m a k a' m' : numbered m -> proc_kind mt lo mi hi inv (a, m) k = Ok (a', m') ->
  numbered m' /\ grows m m' /\ same_acq a a' /\ a_addr a' = a_addr a /\
  match dual_label lo mi hi inv k with
  | None => a' = a
  | Some l => exists c, entry m' (Some l) = Some c /\ a_addrs a' = put_kind (a_addrs a) k (ci_addr c) /\ mt (a_pc a) = Ok QTM /\ ci_invert c = Some false /\ ci_count c = Some 1%Z
  end.
Proof.
  intros N. unfold proc_kind. destruct (dual_label lo mi hi inv k) as [l|]; [|intros [= <- <-]; split; [exact N|]; split; [apply grows_refl|]; split; [split; [reflexivity|split; reflexivity]|auto]].
  destruct (mt (a_pc a)) as [[]|] eqn:T; cbn [bind]; try discriminate. destruct (touch_spec m (Some l) N) as (m1 & c & -> & F & N1 & G1). intros E. apply bind_inv in E. destruct E as (m2 & E2 & [= <- <-]).
  destruct (settings_spec _ _ _ _ _ N1 E2) as (N2 & G2 & c2 & F2 & V2 & W2). split; [exact N2|]. split; [eapply grows_trans; eassumption|]. split; [split; [reflexivity|split; reflexivity]|]. split; [reflexivity|]. exists c2. split; [exact F2|]. split; [|auto].
  destruct (G2 _ _ F) as (c3 & F3 & E3 & _). assert (c3 = c2) by congruence. subst c3. cbn. rewrite E3. reflexivity.
Qed.
Lemma proc_kinds lo mi hi inv : forall ks a m a' m', NoDup ks -> numbered m -> foldM (proc_kind mt lo mi hi inv) ks (a, m) = Ok (a', m') ->
  numbered m' /\ grows m m' /\ same_acq a a' /\ a_addr a' = a_addr a /\
  (forall k l, In k ks -> dual_label lo mi hi inv k = Some l -> exists c, entry m' (Some l) = Some c /\ In (k, ci_addr c) (a_addrs a') /\ mt (a_pc a) = Ok QTM /\ ci_invert c = Some false /\ ci_count c = Some 1%Z) /\
  (forall k x, ~ In k ks -> In (k, x) (a_addrs a') <-> In (k, x) (a_addrs a)) /\
  (NoDup (map fst (a_addrs a)) -> forall k x, In (k, x) (a_addrs a') -> In (k, x) (a_addrs a) \/ exists l c, dual_label lo mi hi inv k = Some l /\ entry m' (Some l) = Some c /\ ci_addr c = x).
Proof.
  induction ks as [|k ks IH]; intros a m a' m' ND N E; cbn [foldM] in E.
  - injection E as <- <-. split; [exact N|]. split; [apply grows_refl|]. split; [split; [reflexivity|split; reflexivity]|]. split; [reflexivity|]. split; [intros k l []|]. split; [intros; reflexivity|]. auto.
  - apply bind_inv in E. destruct E as ([a1 m1] & E1 & E). inversion ND as [|? ? Hk ND']; subst. destruct (proc_kind_spec _ _ _ _ _ _ _ _ _ N E1) as (N1 & G1 & (S1 & S2 & S3) & D1 & K1). destruct (IH _ _ _ _ ND' N1 E) as (N2 & G2 & (S4 & S5 & S6) & D2 & K2 & O2 & M2).
    split; [exact N2|]. split; [eapply grows_trans; eassumption|]. split; [split; [congruence|split; congruence]|]. split; [congruence|].
    split; [|split].
    + intros k0 l [<-|Hi] Hl; [|rewrite S3; apply K2; assumption]. rewrite Hl in K1. destruct K1 as (c & F & A & T & V & W). destruct (G2 _ _ F) as (c' & F' & E' & _ & V' & W'). exists c'. split; [exact F'|]. split; [apply O2; [exact Hk|]; rewrite A, E'; apply put_kind_in|]. auto.
    + intros k0 x Hn. rewrite O2 by (intros ?; apply Hn; right; assumption). destruct (dual_label lo mi hi inv k) as [l|]; [|subst a1; reflexivity]. destruct K1 as (c & _ & -> & _). apply put_kind_other. intros ->. apply Hn. left. reflexivity.
    + intros Nd k0 x Hi.
      assert (Nd1 : NoDup (map fst (a_addrs a1))) by (destruct (dual_label lo mi hi inv k) as [l|]; [|subst a1; exact Nd]; destruct K1 as (c & _ & -> & _); apply put_kind_nodup, Nd).
      destruct (M2 Nd1 _ _ Hi) as [H|H]; [|right; exact H]. destruct (dual_label lo mi hi inv k) as [l|] eqn:Hl; [|subst a1; left; exact H]. destruct K1 as (c & F & A & _). rewrite A in H. destruct (kind_eqb_spec k0 k) as [->|Nk]; [|left; apply put_kind_other in H; assumption]. apply put_kind_at in H; [|exact Nd]. subst x. right. destruct (G2 _ _ F) as (c' & F' & E' & _). exists l, c'. auto.
Qed.
Lemma proc_acq_spec m a a' m' : numbered m -> proc_acq mt m a = Ok (a', m') -> numbered m' /\ grows m m' /\ same_acq a a' /\ acq_filled mt m' a' /\ (blank a -> acq_minimal m' a').
Proof.
  intros N. assert (R : forall a, same_acq a a) by (split; [reflexivity|split; reflexivity]). unfold proc_acq. destruct (a_proto a) as [l|l|l cond n|lo mi hi inv|] eqn:P.
  - destruct (touch_spec m l N) as (m1 & c & -> & F & N1 & G1). intros [= <- <-]. split; [exact N1|]. split; [exact G1|]. split; [split; [reflexivity|split; reflexivity]|]. split; [split; [|split]; cbn; rewrite P; [intros ? [= <-]; exists c; auto|discriminate|discriminate]|]. intros [_ B]. split; cbn; [intros x [= <-]; exists l, c; auto|rewrite B; intros ? ? []].
  - intros [= <- <-]. split; [exact N|]. split; [apply grows_refl|]. split; [split; [reflexivity|split; reflexivity]|]. split; [split; [|split]; rewrite P; discriminate|]. intros [A B]. split; rewrite ?A, ?B; [discriminate|intros ? ? []].
  - destruct cond as [less|]; [|discriminate]. destruct (touch_spec m l N) as (m1 & c & -> & F & N1 & G1). cbn [a_pc with_addr].
    assert (M : forall m2, grows m1 m2 -> blank a -> acq_minimal m2 (with_addr a (ci_addr c))).
    { intros m2 G2 [_ B]. split; cbn; [|rewrite B; intros ? ? []]. intros x [= <-]. destruct (G2 _ _ F) as (c2 & F2 & E2 & _). exists l, c2. rewrite P. eauto 6. }
    destruct (mt (a_pc a)) as [[]|] eqn:T; cbn [bind]; try discriminate; intros E.
    + apply bind_inv in E. destruct E as (m2 & E2 & [= <- <-]). destruct (settings_spec _ _ _ _ _ N1 E2) as (N2 & G2 & c2 & F2 & V2 & W2). destruct (G2 _ _ F) as (c3 & F3 & E3 & _). assert (c3 = c2) by congruence. subst c3. split; [exact N2|]. split; [eapply grows_trans; eassumption|]. split; [split; [reflexivity|split; reflexivity]|]. split; [|apply M, G2]. split; [|split]; cbn; rewrite P; [discriminate| |discriminate]. intros ? ? ? [= <- <- <-]. exists c2. split; [exact F2|]. split; [congruence|]. rewrite T. split; [eauto|discriminate].
    + apply bind_inv in E. destruct E as (m2 & E2 & [= <- <-]). destruct (settings_spec _ _ _ _ _ N1 E2) as (N2 & G2 & c2 & F2 & V2 & W2). destruct (G2 _ _ F) as (c3 & F3 & E3 & _). assert (c3 = c2) by congruence. subst c3. split; [exact N2|]. split; [eapply grows_trans; eassumption|]. split; [split; [reflexivity|split; reflexivity]|]. split; [|apply M, G2]. split; [|split]; cbn; rewrite P; [discriminate| |discriminate]. intros ? ? ? [= <- <- <-]. exists c2. split; [exact F2|]. split; [congruence|]. rewrite T. split; [discriminate|auto].
    + injection E as <- <-. split; [exact N1|]. split; [exact G1|]. split; [split; [reflexivity|split; reflexivity]|]. split; [|apply M, grows_refl]. split; [|split]; cbn; rewrite P; [discriminate| |discriminate]. intros ? ? ? [= <- <- <-]. exists c. split; [exact F|]. split; [reflexivity|]. rewrite T. split; discriminate.
  - intros E. assert (ND : NoDup kinds) by (repeat constructor; cbn; intuition discriminate). destruct (proc_kinds _ _ _ _ _ _ _ _ _ ND N E) as (N2 & G2 & S & D & K & O & M). split; [exact N2|]. split; [exact G2|]. split; [exact S|]. destruct S as (S1 & S2 & S3). split.
    + split; [|split]; rewrite <- S1, P; [discriminate|discriminate|]. intros ? ? ? ? k l [= <- <- <- <-] Hl. destruct (K k l) as (c & F & A & T & V); [destruct k; cbn; auto 6|exact Hl|]. exists c. rewrite <- S3. auto.
    + intros [B1 B2]. split; [rewrite D, B1; discriminate|]. intros k x Hi. rewrite B2 in M. destruct (M (NoDup_nil _) _ _ Hi) as [[]|(l & c & H1 & H2 & H3)]. rewrite <- S1, P. exists lo, mi, hi, inv, l, c. auto.
  - intros [= <- <-]. split; [exact N|]. split; [apply grows_refl|]. split; [split; [reflexivity|split; reflexivity]|]. split; [split; [|split]; rewrite P; discriminate|]. intros [A B]. split; rewrite ?A, ?B; [discriminate|intros ? ? []].
Qed.
Lemma proc_acqs_spec : forall l m l' m', numbered m -> proc_acqs mt m l = Ok (l', m') -> numbered m' /\ grows m m' /\ Forall2 same_acq l l' /\ Forall (acq_filled mt m') l' /\ (Forall blank l -> Forall (acq_minimal m') l').
Proof.
  induction l as [|a l IH]; intros m l' m' N E; cbn [proc_acqs] in E.
  - injection E as <- <-. split; [exact N|]. split; [apply grows_refl|]. auto.
  - apply bind_inv in E. destruct E as ([a1 m1] & E1 & E). apply bind_inv in E. destruct E as ([l1 m2] & E2 & [= <- <-]). destruct (proc_acq_spec _ _ _ _ N E1) as (N1 & G1 & S1 & F1 & M1). destruct (IH _ _ _ N1 E2) as (N2 & G2 & S2 & F2 & M2). split; [exact N2|]. split; [eapply grows_trans; eassumption|]. split; [constructor; assumption|]. split; [constructor; [eapply filled_grows; eassumption|assumption]|]. intros B. inversion B; subst. constructor; [eapply minimal_grows; eauto|auto].
Qed.
End Pass.
