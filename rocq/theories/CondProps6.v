(** C42: the order in which conditionals and acquisitions run. *)
From Verif Require Import Base CircModel CircProps CircProps5 QSort NumericModel CondModel CondSpec CondProps CondProps2 CondProps3 CondProps4 CondProps5.
From Verif Require ClockProps.
From Coq Require Import List Lia Lqa Setoid Bool.
Open Scope list_scope.
Open Scope Q_scope.

(** what runs, with the times computed like [events] does *)
Fixpoint execs (o : cop) (t : Q) : result (list (Q * cop)) :=
  match o with
  | KSched _ ops items => let evs := map (fun '(k, o) => (k, execs o)) ops in do x <- mapM (fun '(a, id) => do f <- index evs id; f (t + a)) items; Ok (List.concat x)
  | KLoop n b => do x <- mapM (fun i => execs b (t + inject_Z (Z.of_nat i) * dur_of b)) (seq 0 (Z.to_nat n)); Ok (List.concat x)
  | _ => Ok [(t, o)]
  end.
Definition evs (l : list (Q * cop)) : list (Q * event) := flat_map (fun '(t, x) => match event_of x with Some e => [(t, e)] | None => [] end) l.
Definition ev (l : list (Q * cop)) : list event := map snd (evs l).
Lemma evs_app a b : evs (a ++ b) = evs a ++ evs b. Proof. apply flat_map_app. Qed.
Lemma ev_app a b : ev (a ++ b) = ev a ++ ev b. Proof. unfold ev. rewrite evs_app. apply map_app. Qed.
Lemma evs_concat l : evs (List.concat l) = List.concat (map evs l).
Proof. induction l as [|a l IH]; cbn; [reflexivity|]. rewrite evs_app, IH. reflexivity. Qed.
Lemma mapM_evs {A} (f : A -> result (list (Q * event))) (g : A -> result (list (Q * cop))) l : (forall a, f a = do y <- g a; Ok (evs y)) -> mapM f l = do x <- mapM g l; Ok (map evs x).
Proof. intros H. induction l as [|a l IH]; cbn [mapM]; [reflexivity|]. rewrite H, IH. destruct (g a); cbn; [|reflexivity]. destruct (mapM g l); reflexivity. Qed.
Lemma get_execs ops k : get (map (fun '(k, o) => (k, execs o)) ops) k = match get ops k with Some o => Some (execs o) | None => None end.
Proof. induction ops as [|[k0 o] r IH]; cbn; [reflexivity|]. destruct (String.eqb k0 k); [reflexivity|exact IH]. Qed.
Lemma ops_get (P : cop -> Prop) ops : Forall (fun ko => P (snd ko)) ops -> forall k o, get ops k = Some o -> P o.
Proof. induction 1 as [|[k0 o0] r H _ IH]; intros k o; cbn; [discriminate|]. destruct (String.eqb k0 k); [intros [= <-]; exact H|apply IH]. Qed.
Lemma events_execs : forall o t, events o t = do x <- execs o t; Ok (evs x).
Proof.
  induction o as [l p d|p|n b IH|l a i c f b IH|d ops items IH] using cop_ind'; intros t; cbn [events execs].
  - cbn. destruct (conditional_acquisition l); reflexivity.
  - reflexivity.
  - rewrite (mapM_evs _ (fun i => execs b (t + inject_Z (Z.of_nat i) * dur_of b))) by (intros i; apply IH). destruct (mapM _ _); cbn; [rewrite evs_concat|]; reflexivity.
  - reflexivity.
  - cbv zeta. rewrite (mapM_evs _ (fun '(a, id) => do f <- index (map (fun '(k, o) => (k, execs o)) ops) id; f (t + a))).
    + destruct (mapM _ _); cbn; [rewrite evs_concat|]; reflexivity.
    + intros [a id]. unfold index. rewrite get_events, get_execs. destruct (get ops id) as [o|] eqn:G; [|reflexivity]. cbn. exact (ops_get (fun o => forall t, events o t = do x <- execs o t; Ok (evs x)) _ IH _ _ G _).
Qed.
Lemma execs_spec : forall o t xs, execs o t = Ok xs -> (forall t' x, In (t', x) xs -> Runs o t t' x) /\ (forall t' x, Runs o t t' x -> exists u, In (u, x) xs /\ u == t').
Proof.
  induction o as [l p d|p|n b IH|l a i c f b IH|d ops items IH] using cop_ind'; intros t xs E; cbn [execs] in E.
  1, 2, 4: injection E as <-; split; [intros t' x [[= <- <-]|[]]; constructor; reflexivity|intros t' x R; inversion R; subst; exists t; split; [left; reflexivity|symmetry; assumption]].
  - apply bind_inv in E. destruct E as (x & E & [= <-]). apply mapM_concat in E. destruct E as [E1 E2]. split.
    + intros t' z H. destruct (E1 _ H) as (i & y & Hi & Hf & Hy). apply in_seq in Hi. apply (R_loop n b t t' z (Z.of_nat i)); [lia|]. apply (proj1 (IH _ _ Hf)), Hy.
    + intros t' z R. inversion R as [| | |? ? ? ? ? i Hi R'|]; subst. destruct (E2 (Z.to_nat i)) as (y & Hf & Hy); [apply in_seq; lia|]. rewrite Z2Nat.id in Hf by lia. destruct (proj2 (IH _ _ Hf) _ _ R') as (u & Hu & Eu). exists u. split; [apply Hy, Hu|exact Eu].
  - cbv zeta in E. apply bind_inv in E. destruct E as (x & E & [= <-]). apply mapM_concat in E. destruct E as [E1 E2]. pose proof (ops_get (fun o => forall t xs, execs o t = Ok xs -> (forall t' x, In (t', x) xs -> Runs o t t' x) /\ (forall t' x, Runs o t t' x -> exists u, In (u, x) xs /\ u == t')) _ IH) as IH'. split.
    + intros t' z H. destruct (E1 _ H) as ([a id] & y & Hi & Hf & Hy). apply bind_inv in Hf. destruct Hf as (g & Hg & Hf). apply index_ok in Hg. rewrite get_execs in Hg. destruct (get ops id) as [o|] eqn:G; [|discriminate]. injection Hg as <-. eapply R_sched; [exact Hi|exact G|]. apply (proj1 (IH' _ _ G _ _ Hf)), Hy.
    + intros t' z R. inversion R as [| | | |? ? ? a id o ? ? ? Hi G R']; subst. destruct (E2 _ Hi) as (y & Hf & Hy). apply bind_inv in Hf. destruct Hf as (g & Hg & Hf). apply index_ok in Hg. rewrite get_execs, G in Hg. injection Hg as <-. destruct (proj2 (IH' _ _ G _ _ Hf) _ _ R') as (u & Hu & Eu). exists u. split; [apply Hy, Hu|exact Eu].
Qed.
Lemma insertq_least t (e : event) l : (forall t' e', In (t', e') l -> t <= t') -> insertq fst (t, e) l = (t, e) :: l.
Proof. destruct l as [|[t' e'] l]; [reflexivity|]. intros H. cbn [insertq fst]. assert (Qle_bool t t' = true) as -> by (apply Qle_bool_iff; apply (H t' e'); left; reflexivity). reflexivity. Qed.
Lemma evs_in t e l : In (t, e) (evs l) -> exists x, In (t, x) l /\ event_of x = Some e.
Proof. intros H. apply in_flat_map in H. destruct H as ([t' x] & Hi & H). destruct (event_of x) eqn:E; [|contradiction]. destruct H as [[= <- <-]|[]]. eauto. Qed.
Lemma evs_insert t x l : srtq fst l -> evs (insertq fst (t, x) l) = match event_of x with Some e => insertq fst (t, e) (evs l) | None => evs l end.
Proof.
  intros S. induction l as [|[t' y] l IH]; [cbn; destruct (event_of x); reflexivity|]. destruct S as [S1 S2]. cbn [insertq fst]. destruct (Qle_bool t t') eqn:Q.
  - change (evs ((t, x) :: (t', y) :: l)) with ((match event_of x with Some e => [(t, e)] | None => [] end) ++ evs ((t', y) :: l)). destruct (event_of x) as [e|]; [|reflexivity]. symmetry. apply insertq_least. intros t2 e2 H. apply Qle_bool_iff in Q. apply evs_in in H. destruct H as (z & [[= -> ->]|H] & _); [exact Q|]. rewrite Forall_forall in S1. specialize (S1 _ H). cbn in S1. lra.
  - specialize (IH S2). change (evs ((t', y) :: insertq fst (t, x) l)) with ((match event_of y with Some e => [(t', e)] | None => [] end) ++ evs (insertq fst (t, x) l)). change (evs ((t', y) :: l)) with ((match event_of y with Some e => [(t', e)] | None => [] end) ++ evs l). rewrite IH. destruct (event_of y) as [e'|], (event_of x) as [e|]; try reflexivity. cbn. rewrite Q. reflexivity.
Qed.
Lemma evs_sort l : sortq fst (evs l) = evs (sortq fst l).
Proof. induction l as [|[t x] l IH]; [reflexivity|]. rewrite sortq_cons, evs_insert by apply sortq_srt. change (evs ((t, x) :: l)) with ((match event_of x with Some e => [(t, e)] | None => [] end) ++ evs l). destruct (event_of x) as [e|]; [|exact IH]. cbn [app]. rewrite sortq_cons, IH. reflexivity. Qed.
Lemma ev_split S E1 e E2 : ev S = E1 ++ e :: E2 -> exists S1 t x S2, S = S1 ++ (t, x) :: S2 /\ ev S1 = E1 /\ event_of x = Some e /\ ev S2 = E2.
Proof.
  revert E1. induction S as [|[t x] S IH]; intros E1 H; [destruct E1; discriminate|]. unfold ev in H. change (evs ((t, x) :: S)) with ((match event_of x with Some e => [(t, e)] | None => [] end) ++ evs S) in H. rewrite map_app in H. fold (ev S) in H. destruct (event_of x) as [e'|] eqn:X; cbn in H.
  - destruct E1 as [|e1 E1]; cbn in H; injection H as -> H.
    + exists [], t, x, S. auto.
    + destruct (IH _ H) as (S1 & u & y & S2 & -> & H1 & H2 & H3). exists ((t, x) :: S1), u, y, S2. split; [reflexivity|]. split; [|auto]. unfold ev. cbn. rewrite X. cbn. fold (evs S1). fold (ev S1). rewrite H1. reflexivity.
  - destruct (IH _ H) as (S1 & u & y & S2 & -> & H1 & H2 & H3). exists ((t, x) :: S1), u, y, S2. split; [reflexivity|]. split; [|auto]. unfold ev. cbn. rewrite X. exact H1.
Qed.
Lemma ev_cons t x S : ev ((t, x) :: S) = opt_list (event_of x) ++ ev S.
Proof. unfold ev. cbn. destruct (event_of x); reflexivity. Qed.
Lemma ev_in S e : In e (ev S) <-> exists t x, In (t, x) S /\ event_of x = Some e.
Proof.
  induction S as [|[t x] S IH]; [cbn; split; [intros []|intros (? & ? & [] & _)]|]. rewrite ev_cons, in_app_iff, IH. split.
  - intros [H|(u & y & H & E)]; [|exists u, y; split; [right; exact H|exact E]]. destruct (event_of x) eqn:X; [|contradiction]. destruct H as [->|[]]. exists t, x. split; [left; reflexivity|exact X].
  - intros (u & y & [[= -> ->]|H] & E); [left; rewrite E; left; reflexivity|right; eauto].
Qed.

(** ** The order of what runs *)
(** [S]: what runs, in the order of time *)
Record Timeline (o : cop) (S : list (Q * cop)) : Prop := {
  t_sorted : srtq fst S;
  t_sound : forall t x, In (t, x) S -> Runs o 0 t x;
  t_complete : forall t x, Runs o 0 t x -> exists u, In (u, x) S /\ u == t;
  t_check : exists act, foldM check_step (ev S) [] = Ok act }.
Lemma timeline o : (exists es act, events o 0 = Ok es /\ check es = Ok act) -> exists S, Timeline o S.
Proof.
  intros (es & act & E & C). rewrite events_execs in E. apply bind_inv in E. destruct E as (xs & E & [= <-]). destruct (execs_spec _ _ _ E) as [H1 H2]. exists (sortq fst xs). constructor.
  - apply sortq_srt.
  - intros t x H. apply H1. apply sortq_In in H. exact H.
  - intros t x R. destruct (H2 _ _ R) as (u & Hu & Eu). exists u. split; [apply sortq_In, Hu|exact Eu].
  - exists act. unfold check in C. rewrite evs_sort in C. exact C.
Qed.
(** an acquisition operation that activates labels *)
Definition Activates (x : cop) (ls : list string) : Prop := event_of x = Some (EvAcq ls) /\ ls <> [].
Lemma cond_after o S S1 tc l ad i c f b S2 : Timeline o S -> S = S1 ++ (tc, KCond l ad i c f b) :: S2 ->
  exists K1 ta x ls K2, S1 = K1 ++ (ta, x) :: K2 /\ Activates x ls /\ In l ls /\ (forall t y ls', In (t, y) K2 -> ~ Activates y ls') /\ (forall t ad i c f b, ~ In (t, KCond l ad i c f b) K2).
Proof.
  intros T ->. destruct (t_check _ _ T) as [act A]. rewrite ev_app, ev_cons in A. cbn [event_of opt_list app] in A. apply check_cond in A. destruct A as (E1 & ls & E2 & Eq & Hl & Ha & Hc). destruct (ev_split _ _ _ _ Eq) as (K1 & ta & x & K2 & -> & _ & X & <-). exists K1, ta, x, ls, K2. split; [reflexivity|]. split; [split; [exact X|intros ->; destruct Hl]|]. split; [exact Hl|]. split.
  - intros t y ls' Hi [Y N]. apply N, Ha. apply ev_in. eauto.
  - intros t ad' i' c' f' b' Hi. apply Hc. apply ev_in. eexists _, _. split; [exact Hi|reflexivity].
Qed.
Lemma cond_between o S J1 t x ls J2 ta y ls' J3 l : Timeline o S -> S = J1 ++ (t, x) :: J2 ++ (ta, y) :: J3 -> Activates x ls -> Activates y ls' -> In l ls -> exists tc ad i c f b, In (tc, KCond l ad i c f b) J2.
Proof.
  intros T -> [X _] [Y N] Hl. destruct (t_check _ _ T) as [act A]. rewrite ev_app, ev_cons, X, ev_app, ev_cons, Y in A. cbn [opt_list app] in A. pose proof (check_acqs _ _ _ _ _ _ _ A Hl N) as H. apply ev_in in H. destruct H as (tc & z & Hi & Z). destruct z as [la p d|p| |lz ad i c f b|]; cbn in Z; try discriminate; [destruct (conditional_acquisition la); discriminate|]. injection Z as ->. eauto 8.
Qed.
