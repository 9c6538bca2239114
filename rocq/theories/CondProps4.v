(** C42: conditionals and acquisitions alternate, and a conditional sees the triggers of its own acquisition. *)
From Verif Require Import Base CircModel CircProps CircProps5 QSort NumericModel CondModel CondSpec CondProps CondProps2 CondProps3.
From Verif Require ClockProps.
From Coq Require Import List Lia Lqa Setoid Bool.
Open Scope list_scope.
Open Scope Q_scope.

(** ** Events *)
Definition event_of (x : cop) : option event :=
  match x with
  | KCond l _ _ _ _ _ => Some (EvCond l)
  | KLatch _ => Some EvLatch
  | KLeaf l _ _ => if conditional_acquisition l then Some (EvAcq (labels_of l)) else None
  | _ => None
  end.
Lemma mapM_concat {A B} (f : A -> result (list B)) : forall l x, mapM f l = Ok x -> (forall b, In b (List.concat x) -> exists a y, In a l /\ f a = Ok y /\ In b y) /\ (forall a, In a l -> exists y, f a = Ok y /\ incl y (List.concat x)).
Proof.
  induction l as [|a l IH]; intros x E; cbn [mapM] in E.
  - injection E as <-. split; [intros b []|intros a []].
  - destruct (f a) as [y|] eqn:Ea; [|discriminate]. destruct (mapM f l) as [z|] eqn:El; [|discriminate]. injection E as <-. destruct (IH z eq_refl) as [H1 H2]. cbn. split.
    + intros b Hb. apply in_app_or in Hb. destruct Hb as [Hb|Hb]; [exists a, y; auto|]. destruct (H1 b Hb) as (a' & y' & Ha & Hf & Hy). exists a', y'. auto.
    + intros a' [<-|Ha]; [exists y; split; [exact Ea|apply incl_appl, incl_refl]|]. destruct (H2 a' Ha) as (y' & Hf & Hy). exists y'. split; [exact Hf|apply incl_appr, Hy].
Qed.
Lemma get_events ops k : get (map (fun '(k, o) => (k, events o)) ops) k = match get ops k with Some o => Some (events o) | None => None end.
Proof. induction ops as [|[k0 o] r IH]; cbn; [reflexivity|]. destruct (String.eqb k0 k); [reflexivity|exact IH]. Qed.
Lemma events_spec : forall o t es, events o t = Ok es -> (forall t' e, In (t', e) es -> exists x, Runs o t t' x /\ event_of x = Some e) /\ (forall t' x e, Runs o t t' x -> event_of x = Some e -> exists u, In (u, e) es /\ u == t').
Proof.
  induction o as [l p d|p|n b IH|l a i c f b IH|d ops items IH] using cop_ind'; intros t es E; cbn [events] in E.
  - injection E as <-. split.
    + intros t' e H. destruct (conditional_acquisition l) eqn:C; [|contradiction]. destruct H as [[= <- <-]|[]]. exists (KLeaf l p d). split; [constructor; reflexivity|]. cbn. rewrite C. reflexivity.
    + intros t' x e R He. inversion R; subst. cbn in He. destruct (conditional_acquisition l); [|discriminate]. injection He as <-. exists t. split; [left; reflexivity|symmetry; assumption].
  - injection E as <-. split.
    + intros t' e [[= <- <-]|[]]. exists (KLatch p). split; [constructor; reflexivity|reflexivity].
    + intros t' x e R He. inversion R; subst. injection He as <-. exists t. split; [left; reflexivity|symmetry; assumption].
  - apply bind_inv in E. destruct E as (x & E & [= <-]). apply mapM_concat in E. destruct E as [E1 E2]. split.
    + intros t' e H. destruct (E1 _ H) as (i & y & Hi & Hf & Hy). apply in_seq in Hi. destruct (IH _ _ Hf) as [F _]. destruct (F _ _ Hy) as (z & Hr & He). exists z. split; [|exact He]. apply (R_loop n b t t' z (Z.of_nat i)); [lia|exact Hr].
    + intros t' z e R He. inversion R as [| | |? ? ? ? ? i Hi R'|]; subst. destruct (E2 (Z.to_nat i)) as (y & Hf & Hy); [apply in_seq; lia|]. rewrite Z2Nat.id in Hf by lia. destruct (IH _ _ Hf) as [_ F]. destruct (F _ _ _ R' He) as (u & Hu & Eu). exists u. split; [apply Hy, Hu|exact Eu].
  - injection E as <-. split.
    + intros t' e [[= <- <-]|[]]. eexists. split; [constructor; reflexivity|reflexivity].
    + intros t' x e R He. inversion R; subst. injection He as <-. exists t. split; [left; reflexivity|symmetry; assumption].
  - apply bind_inv in E. destruct E as (x & E & [= <-]). apply mapM_concat in E. destruct E as [E1 E2].
    assert (IH' : forall k o, get ops k = Some o -> forall t es, events o t = Ok es -> (forall t' e, In (t', e) es -> exists x, Runs o t t' x /\ event_of x = Some e) /\ (forall t' x e, Runs o t t' x -> event_of x = Some e -> exists u, In (u, e) es /\ u == t')).
    { clear E1 E2. induction IH as [|[k0 o0] r H _ IHr]; intros k o; cbn; [discriminate|]. destruct (String.eqb k0 k); [intros [= <-]; exact H|apply IHr]. }
    split.
    + intros t' e H. destruct (E1 _ H) as ([a id] & y & Hi & Hf & Hy). apply bind_inv in Hf. destruct Hf as (g & Hg & Hf). apply index_ok in Hg. rewrite get_events in Hg. destruct (get ops id) as [o|] eqn:G; [|discriminate]. injection Hg as <-. destruct (IH' _ _ G _ _ Hf) as [F _]. destruct (F _ _ Hy) as (z & Hr & He). exists z. split; [eapply R_sched; eassumption|exact He].
    + intros t' z e R He. inversion R as [| | | |? ? ? a id o ? ? ? Hi G R']; subst. destruct (E2 _ Hi) as (y & Hf & Hy). apply bind_inv in Hf. destruct Hf as (g & Hg & Hf). apply index_ok in Hg. rewrite get_events, G in Hg. injection Hg as <-. destruct (IH' _ _ G _ _ Hf) as [_ F]. destruct (F _ _ _ R' He) as (u & Hu & Eu). exists u. split; [apply Hy, Hu|exact Eu].
Qed.

(** ** The check *)
Definition Pending (E : list event) (l : string) : Prop := exists E1 ls E2, E = E1 ++ EvAcq ls :: E2 /\ In l ls /\ (forall ls', In (EvAcq ls') E2 -> ls' = []) /\ ~ In (EvCond l) E2.
Lemma foldM_snoc {A B} (f : B -> A -> result B) l x b : foldM f (l ++ [x]) b = do b' <- foldM f l b; f b' x.
Proof. rewrite ClockProps.foldM_app. destruct (foldM f l b) as [b'|]; cbn; [destruct (f b' x); reflexivity|reflexivity]. Qed.
Lemma pending_snoc E e l : Pending (E ++ [e]) l <-> (exists ls, e = EvAcq ls /\ In l ls) \/ (Pending E l /\ (forall ls, e = EvAcq ls -> ls = []) /\ e <> EvCond l).
Proof.
  split.
  - intros (E1 & ls & E2 & Eq & Hl & Ha & Hc). destruct (exists_last (l := EvAcq ls :: E2)) as (F & y & Ef); [discriminate|]. rewrite Ef, app_assoc in Eq. apply app_inj_tail in Eq. destruct Eq as [-> ->]. destruct F as [|z F].
    + injection Ef as <- ->. left. eauto.
    + injection Ef as <- ->. right. split; [exists E1, ls, F; split; [reflexivity|]; split; [exact Hl|]; split; [intros ls' H; apply Ha; apply in_or_app; left; exact H|intros H; apply Hc; apply in_or_app; left; exact H]|]. split; [intros ls' ->; apply Ha; apply in_or_app; right; left; reflexivity|intros ->; apply Hc; apply in_or_app; right; left; reflexivity].
  - intros [(ls & -> & Hl)|((E1 & ls & E2 & -> & Hl & Ha & Hc) & Hn & Hd)].
    + exists E, ls, []. split; [reflexivity|]. split; [exact Hl|]. split; [intros ? []|intros []].
    + exists E1, ls, (E2 ++ [e]). split; [rewrite <- app_assoc; reflexivity|]. split; [exact Hl|]. split; [intros ls' H; apply in_app_or in H; destruct H as [H|[H|[]]]; [apply Ha, H|apply Hn; exact H]|intros H; apply in_app_or in H; destruct H as [H|[H|[]]]; [apply Hc, H|congruence]].
Qed.
Lemma active_spec : forall E act, foldM check_step E [] = Ok act -> forall l, In l act <-> Pending E l.
Proof.
  intros E. induction E as [|e E IH] using rev_ind; intros act H l.
  - injection H as <-. split; [intros []|]. intros (E1 & ls & E2 & Eq & _). destruct E1; discriminate.
  - rewrite foldM_snoc in H. apply bind_inv in H. destruct H as (act0 & H0 & H). specialize (IH _ H0). rewrite pending_snoc. destruct e as [l0|ls|]; cbn [check_step] in H.
    + destruct (existsb (String.eqb l0) act0); [|discriminate]. injection H as <-. rewrite filter_In, IH, negb_true_iff, String.eqb_neq. split.
      * intros [P N]. right. split; [exact P|]. split; [discriminate|congruence].
      * intros [(ls & [=] & _)|(P & _ & N)]. split; [exact P|congruence].
    + destruct ls as [|l0 ls].
      * injection H as <-. rewrite IH. split; [intros P; right; split; [exact P|]; split; [congruence|discriminate]|]. intros [(ls & [= <-] & [])|(P & _)]. exact P.
      * destruct act0; [|discriminate]. injection H as <-. split; [intros Hl; left; eauto|]. intros [(ls' & [= <-] & Hl)|(_ & N & _)]; [exact Hl|]. specialize (N _ eq_refl). discriminate.
    + injection H as <-. rewrite IH. split; [intros P; right; split; [exact P|]; split; discriminate|]. intros [(ls & [=] & _)|(P & _)]. exact P.
Qed.
Lemma check_prefix E1 e E2 act : foldM check_step (E1 ++ e :: E2) [] = Ok act -> exists a1 a2, foldM check_step E1 [] = Ok a1 /\ check_step a1 e = Ok a2.
Proof. rewrite ClockProps.foldM_app. intros H. apply bind_inv in H. destruct H as (a1 & H1 & H). cbn [foldM] in H. apply bind_inv in H. destruct H as (a2 & H2 & _). eauto. Qed.
(** before a conditional there is an acquisition with its label *)
Lemma check_cond E1 l E2 act : foldM check_step (E1 ++ EvCond l :: E2) [] = Ok act -> Pending E1 l.
Proof. intros H. apply check_prefix in H. destruct H as (a1 & a2 & H1 & H2). apply (active_spec _ _ H1). cbn in H2. destruct (existsb (String.eqb l) a1) eqn:X; [|discriminate]. apply existsb_exists in X. destruct X as (y & Hy & Ey). apply String.eqb_eq in Ey. subst y. exact Hy. Qed.
(** between two acquisitions with labels all labels of the first are used *)
Lemma first_acq (E : list event) : (forall ls, In (EvAcq ls) E -> ls = []) \/ exists F1 ls F2, E = F1 ++ EvAcq ls :: F2 /\ ls <> [] /\ forall ls', In (EvAcq ls') F1 -> ls' = [].
Proof.
  induction E as [|e E [IH|(F1 & ls & F2 & -> & N & IH)]]; [left; intros ? []| |].
  - destruct e as [l|[|l ls]|]; [left; intros ls [?|H]; [discriminate|apply IH, H]|left; intros ls [[= <-]|H]; [reflexivity|apply IH, H]| |left; intros ls [?|H]; [discriminate|apply IH, H]]. right. exists [], (l :: ls), E. split; [reflexivity|]. split; [discriminate|intros ? []].
  - destruct e as [l|[|l ls']|]; [right; exists (EvCond l :: F1), ls, F2; split; [reflexivity|]; split; [exact N|]; intros ? [?|H]; [discriminate|apply IH, H]|right; exists (EvAcq [] :: F1), ls, F2; split; [reflexivity|]; split; [exact N|]; intros ? [[= <-]|H]; [reflexivity|apply IH, H]|right; exists [], (l :: ls'), (F1 ++ EvAcq ls :: F2); split; [reflexivity|]; split; [discriminate|intros ? []]|right; exists (EvLatch :: F1), ls, F2; split; [reflexivity|]; split; [exact N|]; intros ? [?|H]; [discriminate|apply IH, H]].
Qed.
Lemma check_acqs E1 ls E2 ls' E3 act l : foldM check_step (E1 ++ EvAcq ls :: E2 ++ EvAcq ls' :: E3) [] = Ok act -> In l ls -> ls' <> [] -> In (EvCond l) E2.
Proof.
  intros H Hl Hn. assert (C : exists F1 ls2 F2 F3, E2 ++ EvAcq ls' :: E3 = F1 ++ EvAcq ls2 :: F3 /\ ls2 <> [] /\ E2 = F1 ++ F2 /\ forall x, In (EvAcq x) F1 -> x = []).
  { destruct (first_acq E2) as [A|(F1 & ls2 & F2 & -> & N & A)].
    - exists E2, ls', [], E3. rewrite app_nil_r. auto.
    - exists F1, ls2, (EvAcq ls2 :: F2), (F2 ++ EvAcq ls' :: E3). rewrite <- app_assoc. auto. }
  destruct C as (F1 & ls2 & F2 & F3 & Eq & N2 & -> & A). rewrite Eq in H. change (EvAcq ls :: F1 ++ EvAcq ls2 :: F3) with ((EvAcq ls :: F1) ++ EvAcq ls2 :: F3) in H. rewrite app_assoc in H. apply check_prefix in H. destruct H as (a1 & a2 & H1 & H2). cbn in H2. destruct ls2 as [|x ls2]; [congruence|]. destruct a1 as [|y a1]; [|discriminate]. pose proof (active_spec _ _ H1 l) as P.
  apply in_or_app. left. destruct (in_dec (fun a b : event => ltac:(decide equality; try apply string_dec; apply list_eq_dec, string_dec)) (EvCond l) F1) as [D|D]; [exact D|]. exfalso. apply (proj2 P). exists E1, ls, F1. auto.
Qed.
