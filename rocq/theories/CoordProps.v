(** C34: the instrument coordinator starts what was prepared. *)
From Verif Require Import Base CoordModel.
Open Scope Z_scope.

(** ** Specification *)
Definition is_prepare (c : call) : bool := match c with Prepare _ _ => true | _ => false end.
(** the instructions a component was given last *)
Definition loaded (c : string) (tr : list event) : option Z := fold_left (fun cur ev => match ev with EPrepare c' a => if String.eqb c c' then Some a else cur | _ => cur end) tr None.
Definition no_failure : string -> option exn := fun _ => None.

Lemma mem_In s l : mem s l = true <-> In s l.
Proof. unfold mem. rewrite existsb_exists. split; [intros (x & Hx & E); apply String.eqb_eq in E; subst; exact Hx|intros H; exists s; split; [exact H|apply String.eqb_refl]]. Qed.
Lemma component_name_inj a b : component_name a = component_name b -> a = b. Proof. unfold component_name. cbn. intros [= H]. exact H. Qed.

(** ** Sessions *)
Lemma session_app s l1 : forall l2, session s (l1 ++ l2) = let '(s1, e1) := session s l1 in let '(s2, e2) := session s1 l2 in (s2, e1 ++ e2).
Proof.
  revert s. induction l1 as [|c l1 IH]; intros s l2; cbn [app session]; [destruct (session s l2); reflexivity|]. destruct (step s c) as [[s1 ev] e]. rewrite IH. destruct (session s1 l1) as [s2 ev2]. destruct (session s2 l2) as [s3 ev3]. rewrite app_assoc. reflexivity.
Qed.
Lemma step_compiled s c s' ev e : step s c = (s', ev, e) -> is_prepare c = false -> compiled s' = compiled s.
Proof.
  destruct c as [n ok|n|cs f|f|f|f d]; cbn [step is_prepare]; intros H Hp; try discriminate.
  - destruct (mem n _); [injection H as <- _ _; reflexivity|]. destruct ok; injection H as <- _ _; reflexivity.
  - destruct (mem n _); injection H as <- _ _; reflexivity.
  - destruct (start s f). injection H as <- _ _. reflexivity.
  - destruct (stop s f). injection H as <- _ _. reflexivity.
  - destruct (retrieve s f d) as [? []]; injection H as <- _ _; reflexivity.
Qed.
Lemma session_compiled h : forall s, forallb (fun c => negb (is_prepare c)) h = true -> compiled (fst (session s h)) = compiled s.
Proof.
  induction h as [|c h IH]; intros s H; [reflexivity|]. cbn [forallb] in H. apply andb_true_iff in H. destruct H as [H1 H2]. cbn [session]. destruct (step s c) as [[s1 ev] e] eqn:E. specialize (IH s1 H2). destruct (session s1 h). cbn [fst] in *.
  rewrite IH. eapply step_compiled; [exact E|]. apply negb_true_iff, H1.
Qed.
Definition no_load (tr : list event) : Prop := forall c a, ~ In (EPrepare c a) tr.
Lemma loop_events {A} (P : event -> Prop) body (l : list A) : (forall x, In x l -> forall ev, In ev (fst (body x)) -> P ev) -> forall ev, In ev (fst (loop body l)) -> P ev.
Proof.
  induction l as [|x l IH]; intros H ev; cbn [loop]; [intros []|]. specialize (H x (or_introl eq_refl)) as Hx. destruct (body x) as [e1 o1]. cbn [fst] in Hx. assert (IH' : forall ev, In ev (fst (loop body l)) -> P ev) by (apply IH; intros; eapply H; [right; eassumption|eassumption]).
  destruct o1; [apply Hx|]. destruct (loop body l) as [e2 o2]. cbn [fst] in *. rewrite in_app_iff. intros [Hi|Hi]; auto.
Qed.
Lemma gather_events s f d : forall l acc ev, In ev (fst (gather s f d l acc)) -> exists c, ev = ERetrieve c.
Proof.
  induction l as [|[i a] l IH]; intros acc ev; cbn [gather]; [intros []|]. destruct (get_component s _) as [c|e]; [|intros []]. destruct (f c); [intros [<-|[]]; eauto|].
  destruct (match d c with Some d0 => merge acc d0 | None => Ok acc end) as [acc'|e]; [|intros [<-|[]]; eauto]. specialize (IH acc'). destruct (gather s f d l acc') as [ev' res]. cbn [fst] in *. intros [<-|Hi]; eauto.
Qed.
Lemma step_no_load s c s' ev e : step s c = (s', ev, e) -> is_prepare c = false -> no_load ev.
Proof.
  intros H Hp. assert (Hnil : no_load []) by (intros ? ? []).
  assert (Hst : forall f, no_load (fst (start s f))).
  { intros f c' a. unfold start. destruct (compiled s); [|intros []]. intros Hi. refine (loop_events (fun ev => ev <> EPrepare c' a) _ _ _ _ Hi eq_refl).
    intros x _ ev' Hev. destruct (mem x _); [|destruct Hev]. destruct Hev as [<-|[]]. discriminate. }
  assert (Hsp : forall g f, (forall x c' a, g x <> EPrepare c' a) -> no_load (fst (loop (fun c0 => on_component (g c0) (f c0)) (components s)))).
  { intros g f Hg c' a Hi. refine (loop_events (fun ev => ev <> EPrepare c' a) _ _ _ _ Hi eq_refl). intros x _ ev' [<-|[]]. apply Hg. }
  destruct c as [n ok|n|cs f|f|f|f d]; cbn [step is_prepare] in *; try discriminate.
  - destruct (mem n _); [injection H as _ <- _; exact Hnil|]. destruct ok; injection H as _ <- _; exact Hnil.
  - destruct (mem n _); injection H as _ <- _; exact Hnil.
  - specialize (Hst f). destruct (start s f). injection H as _ <- _. exact Hst.
  - specialize (Hsp EStop f). unfold stop in H. destruct (loop _ _). injection H as _ <- _. apply Hsp. discriminate.
  - unfold retrieve in H. destruct (compiled s) as [cs|]; [|injection H as _ <- _; exact Hnil]. specialize (Hsp EWait no_failure). unfold wait_done, no_failure in *. destruct (loop _ _) as [ev1 e1]. cbn [fst] in Hsp.
    destruct e1; [injection H as _ <- _; apply Hsp; discriminate|]. pose proof (gather_events s f d (instrs cs) []) as Hg. destruct (gather s f d (instrs cs) []) as [ev2 res]. cbn [fst] in Hg.
    assert (Hall : no_load (ev1 ++ ev2)); [|injection H as _ <- _; exact Hall]. intros c' a Hi. apply in_app_or in Hi. destruct Hi as [Hi|Hi]; [eapply Hsp; [discriminate|exact Hi]|apply Hg in Hi; destruct Hi; discriminate].
Qed.
Lemma session_no_load h : forall s, forallb (fun c => negb (is_prepare c)) h = true -> no_load (snd (session s h)).
Proof.
  induction h as [|c h IH]; intros s H; [intros ? ? []|]. cbn [forallb] in H. apply andb_true_iff in H. destruct H as [H1 H2]. cbn [session]. destruct (step s c) as [[s1 ev] e] eqn:E. specialize (IH s1 H2). destruct (session s1 h). cbn [snd] in *.
  intros c' a Hi. apply in_app_or in Hi. destruct Hi as [Hi|Hi]; [|apply (IH c' a Hi)]. eapply step_no_load; [exact E|apply negb_true_iff, H1|exact Hi].
Qed.
Lemma loaded_app c tr1 tr2 : no_load tr2 -> loaded c (tr1 ++ tr2) = loaded c tr1.
Proof.
  intros H. unfold loaded. rewrite fold_left_app. generalize (fold_left (fun cur ev => match ev with EPrepare c' a => if String.eqb c c' then Some a else cur | _ => cur end) tr1 None). revert H. induction tr2 as [|ev tr2 IH]; intros H o; [reflexivity|].
  cbn [fold_left]. destruct ev as [c' a| | | |]; [exfalso; apply (H c' a); left; reflexivity|apply IH; intros c' a Hi; apply (H c' a); right; exact Hi..].
Qed.

(** a successful prepare has given every component its instructions *)
Lemma prepare_loads s cs f s' ev : prepare s cs f = (s', ev, None) -> compiled s' = Some cs /\ components s' = components s /\ valid cs = true /\
  ev = map (fun '(i, a) => EPrepare (component_name i) a) (instrs cs) /\ (forall i a, In (i, a) (instrs cs) -> In (component_name i) (components s)).
Proof.
  unfold prepare. destruct (valid cs); cbn [negb]; [|discriminate]. destruct (loop _ (instrs cs)) as [ev' e'] eqn:E. intros [= <- -> ->]. cbn [compiled components]. repeat split; try reflexivity; cbn [components] in *.
  - revert ev E. induction (instrs cs) as [|[i a] l IH]; intros ev; cbn [loop map]; [intros [= <-]; reflexivity|]. unfold get_component at 1. cbn [components]. destruct (mem (component_name i) (components s)); [|discriminate]. unfold on_component at 1.
    destruct (f (component_name i)); [discriminate|]. destruct (loop _ l) as [ev2 e2]. intros [= <- ->]. rewrite (IH ev2 eq_refl). reflexivity.
  - revert ev E. induction (instrs cs) as [|[i' a'] l IH]; intros ev; cbn [loop]; [intros _ ? ? []|]. unfold get_component at 1. cbn [components]. destruct (mem (component_name i') (components s)) eqn:Em; [|discriminate]. unfold on_component at 1.
    destruct (f (component_name i')); [discriminate|]. destruct (loop _ l) as [ev2 e2]. intros [= _ ->] i a [[= <- <-]|Hi]; [apply mem_In, Em|eapply IH; [reflexivity|exact Hi]].
Qed.
Lemma loaded_prepares tr i a l : NoDup (map fst l) -> In (i, a) l -> loaded (component_name i) (tr ++ map (fun '(i, a) => EPrepare (component_name i) a) l) = Some a.
Proof.
  intros Hn Hi. unfold loaded. rewrite fold_left_app. generalize (fold_left (fun cur ev => match ev with EPrepare c' a => if String.eqb (component_name i) c' then Some a else cur | _ => cur end) tr None). clear tr.
  assert (Hno : forall l o, ~ In i (map fst l) -> fold_left (fun cur ev => match ev with EPrepare c' a => if String.eqb (component_name i) c' then Some a else cur | _ => cur end) (map (fun '(i, a) => EPrepare (component_name i) a) l) o = o).
  { clear. induction l as [|[i' a'] l IH]; intros o H; [reflexivity|]. cbn [map fold_left]. destruct (String.eqb_spec (component_name i) (component_name i')) as [E|_]; [apply component_name_inj in E; subst; exfalso; apply H; left; reflexivity|]. apply IH. intros Hi. apply H. right. exact Hi. }
  induction l as [|[i' a'] l IH]; intros o; [destruct Hi|]. cbn [map fst] in Hn. inversion Hn as [|? ? Hni Hn']; subst. cbn [map fold_left]. destruct Hi as [[= -> ->]|Hi]; [rewrite String.eqb_refl; apply Hno, Hni|apply IH; assumption].
Qed.
Lemma loop_start used f : (forall c, f c = None) -> forall l, loop (fun c => if mem c used then on_component (EStart c) (f c) else ([], None)) l = (map EStart (filter (fun c => mem c used) l), None).
Proof. intros Hf. induction l as [|c l IH]; [reflexivity|]. cbn [loop filter]. destruct (mem c used); rewrite IH; [unfold on_component; rewrite Hf|]; reflexivity. Qed.

(** ** C34, first part: before any prepare, start and retrieve_acquisition raise ValueError and touch no component, after every history *)
Theorem C34_unprepared : forall h f d, forallb (fun c => negb (is_prepare c)) h = true ->
  step (fst (session init h)) (Start f) = (fst (session init h), [], Some ValueError) /\ step (fst (session init h)) (Retrieve f d) = (fst (session init h), [], Some ValueError).
Proof. intros h f d Hh. pose proof (session_compiled h init Hh) as E. cbn [init compiled] in E. cbn [step]. unfold start, retrieve. rewrite E. split; reflexivity. Qed.

(** second part: after any history in which the last call of prepare succeeded, start starts exactly those components, in the order in which they are registered, that the schedule has instructions for,
    and each of them holds the instructions of that schedule *)
Theorem C34_start_partial : forall h1 cs f h2, snd (step (fst (session init h1)) (Prepare cs f)) = None -> NoDup (map fst (instrs cs)) -> forallb (fun c => negb (is_prepare c)) h2 = true ->
  let s := fst (session init (h1 ++ Prepare cs f :: h2)) in let tr := snd (session init (h1 ++ Prepare cs f :: h2)) in
  exists started, step s (Start no_failure) = (s, map EStart started, None) /\
    started = filter (fun c => existsb (fun '(i, _) => String.eqb c (component_name i)) (instrs cs)) (components s) /\
    (forall c, In c started -> exists i a, In (i, a) (instrs cs) /\ c = component_name i /\ loaded c tr = Some a) /\
    (forall i a, In (i, a) (instrs cs) -> In (component_name i) (components s) -> In (component_name i) started).
Proof.
  intros h1 cs f h2 Hok Hn Hh2. cbn zeta. rewrite session_app. destruct (session init h1) as [s1 e1] eqn:E1. cbn [fst] in Hok. cbn [step session] in *. destruct (prepare s1 cs f) as [[s2 e2] o2] eqn:Ep. cbn [snd] in Hok. subst o2.
  destruct (prepare_loads _ _ _ _ _ Ep) as (Hc & Hcomp & Hv & -> & Hin). pose proof (session_compiled h2 s2 Hh2) as Hc3. pose proof (session_no_load h2 s2 Hh2) as Hl3. destruct (session s2 h2) as [s3 e3]. cbn [fst snd] in *.
  unfold start. rewrite Hc3, Hc. set (used := map (fun '(i, _) => component_name i) (instrs cs)).
  assert (Hused : forall c, mem c used = existsb (fun '(i, _) => String.eqb c (component_name i)) (instrs cs)).
  { intros c. unfold used, mem. clear. induction (instrs cs) as [|[i a] l IH]; [reflexivity|]. cbn [map existsb]. rewrite IH. reflexivity. }
  exists (filter (fun c => mem c used) (components s3)). rewrite (loop_start used no_failure) by reflexivity. split; [reflexivity|]. split; [apply filter_ext; exact Hused|]. split.
  - intros c Hcin. apply filter_In in Hcin. destruct Hcin as [_ Hm]. apply mem_In in Hm. unfold used in Hm. apply in_map_iff in Hm. destruct Hm as ([i a] & <- & Hi). exists i, a. split; [exact Hi|]. split; [reflexivity|].
    rewrite app_assoc. rewrite loaded_app by exact Hl3. apply loaded_prepares; assumption.
  - intros i a Hi Hpres. apply filter_In. split; [exact Hpres|]. apply mem_In. unfold used. apply in_map_iff. exists (i, a). auto.
Qed.
(** if a component raises while starting, those registered before it have been started, those after it have not *)
Theorem C34_start_failing : forall s cs f, compiled s = Some cs -> exists started rest, let wanted := filter (fun c => existsb (fun '(i, _) => String.eqb c (component_name i)) (instrs cs)) (components s) in
  wanted = started ++ rest /\ fst (start s f) = map EStart started /\
  match snd (start s f) with None => rest = [] /\ Forall (fun c => f c = None) started | Some e => exists pre c, started = pre ++ [c] /\ f c = Some e /\ Forall (fun c => f c = None) pre end.
Proof.
  intros s cs f Hc. unfold start. rewrite Hc. set (used := map (fun '(i, _) => component_name i) (instrs cs)).
  assert (Hused : forall c, existsb (fun '(i, _) => String.eqb c (component_name i)) (instrs cs) = mem c used).
  { intros c. unfold used, mem. clear. induction (instrs cs) as [|[i a] l IH]; [reflexivity|]. cbn [map existsb]. rewrite IH. reflexivity. }
  cbn zeta. rewrite (filter_ext _ _ Hused). induction (components s) as [|c l IH]; cbn [filter loop]; [exists [], []; repeat split; constructor|]. destruct (mem c used).
  - unfold on_component at 1 3. destruct (f c) as [e|] eqn:Ef.
    + exists [c], (filter (fun c => mem c used) l). cbn [fst snd]. split; [reflexivity|]. split; [reflexivity|]. exists [], c. repeat split; [exact Ef|constructor].
    + destruct IH as (st & rest & H1 & H2 & H3). exists (c :: st), rest. destruct (loop _ l) as [ev o]. cbn [fst snd] in *. split; [rewrite H1; reflexivity|]. split; [rewrite H2; reflexivity|].
      destruct o as [e|]; [destruct H3 as (pre & x & -> & Hx & Hf); exists (c :: pre), x; repeat split; [exact Hx|constructor; assumption]|]. destruct H3 as [H3 H4]. split; [exact H3|constructor; assumption].
  - destruct IH as (st & rest & H1 & H2 & H3). exists st, rest. destruct (loop _ l) as [ev o]. cbn [fst snd app] in *. auto.
Qed.

(** components are registered once, in the order in which they were added *)
Lemma remove_first_spec c l : NoDup l -> remove_first c l = filter (fun x => negb (String.eqb c x)) l.
Proof.
  induction 1 as [|x l Hx Hn IH]; [reflexivity|]. cbn [remove_first filter]. destruct (String.eqb_spec c x) as [->|Hne]; cbn [negb]; [|rewrite IH; reflexivity]. symmetry. clear - Hx. induction l as [|y l IH]; [reflexivity|]. cbn [filter].
  destruct (String.eqb_spec x y) as [->|_]; [exfalso; apply Hx; left; reflexivity|]. cbn [negb]. f_equal. apply IH. intros H. apply Hx. right. exact H.
Qed.
Theorem C34_components : forall h, let s := fst (session init h) in NoDup (components s) /\
  (forall c, step s (Add c true) = (if mem c (components s) then (s, [], Some ValueError) else ({| components := components s ++ [c]; compiled := compiled s; last_sched := last_sched s |}, [], None))) /\
  (forall c s' ev, step s (Remove c) = (s', ev, None) -> In c (components s) /\ ~ In c (components s') /\ components s' = filter (fun x => negb (String.eqb c x)) (components s)) /\
  (forall c s' ev e, step s c = (s', ev, e) -> match c with Add _ _ => e <> None | Remove _ => e <> None | _ => True end -> components s' = components s).
Proof.
  intros h s. assert (Hnd : NoDup (components s)).
  { unfold s. assert (G : forall h s, NoDup (components s) -> NoDup (components (fst (session s h)))); [|apply G; constructor]. clear. induction h as [|c h IH]; intros s Hs; [exact Hs|]. cbn [session]. destruct (step s c) as [[s1 ev] e] eqn:E. specialize (IH s1). destruct (session s1 h). cbn [fst] in *. apply IH.
    destruct c as [n ok|n|cs f|f|f|f d]; cbn [step] in E.
    - destruct (mem n (components s)) eqn:Em; [injection E as <- _ _; exact Hs|]. destruct ok; injection E as <- _ _; [|exact Hs]. cbn [components]. apply NoDup_rev in Hs. rewrite <- (rev_involutive (components s ++ [n])). apply NoDup_rev. rewrite rev_app_distr. cbn. constructor; [|exact Hs].
      rewrite <- in_rev. intros H. apply mem_In in H. congruence.
    - destruct (mem n (components s)); injection E as <- _ _; [|exact Hs]. cbn [components]. rewrite remove_first_spec by exact Hs. apply NoDup_filter, Hs.
    - unfold prepare in E. destruct (negb (valid cs)); [injection E as <- _ _; exact Hs|]. destruct (loop _ _). injection E as <- _ _. exact Hs.
    - destruct (start s f). injection E as <- _ _. exact Hs.
    - destruct (stop s f). injection E as <- _ _. exact Hs.
    - destruct (retrieve s f d) as [? []]; injection E as <- _ _; exact Hs. }
  split; [exact Hnd|]. split; [reflexivity|]. split.
  - intros c s' ev. cbn [step]. destruct (mem c (components s)) eqn:Em; [|discriminate]. intros [= <- _]. cbn [components]. rewrite remove_first_spec by exact Hnd. split; [apply mem_In, Em|]. split; [|reflexivity].
    rewrite filter_In. rewrite String.eqb_refl. intros [_ H]. discriminate.
  - intros c s' ev e E He. destruct c as [n ok|n|cs f|f|f|f d]; cbn [step] in E.
    + destruct (mem n (components s)); [injection E as <- _ _; reflexivity|]. destruct ok; injection E as <- _ <-; [congruence|reflexivity].
    + destruct (mem n (components s)); injection E as <- _ <-; [congruence|reflexivity].
    + unfold prepare in E. destruct (negb (valid cs)); [injection E as <- _ _; reflexivity|]. destruct (loop _ _). injection E as <- _ _. reflexivity.
    + destruct (start s f). injection E as <- _ _. reflexivity.
    + destruct (stop s f). injection E as <- _ _. reflexivity.
    + destruct (retrieve s f d) as [? []]; injection E as <- _ _; reflexivity.
Qed.

(** retrieve_acquisition returns all data of the components of the schedule, and never two values for the same acquisition channel and index *)
Definition data_of (d : string -> option dataset) (x : string * Z) : dataset := match d (component_name (fst x)) with Some v => v | None => [] end.
Theorem C34_retrieve : forall s cs d, compiled s = Some cs -> (forall i a, In (i, a) (instrs cs) -> In (component_name i) (components s)) ->
  let clash := exists l1 x l2 p q, instrs cs = l1 ++ x :: l2 /\ In p (flat_map (data_of d) l1) /\ In q (data_of d x) /\ fst p = fst q in
  (~ clash /\ snd (retrieve s no_failure d) = Ok (flat_map (data_of d) (instrs cs))) \/ (clash /\ snd (retrieve s no_failure d) = Err RuntimeError).
Proof.
  intros s cs d Hc Hin. cbn zeta. unfold retrieve. rewrite Hc.
  assert (Hw : snd (wait_done s (fun _ => None)) = None) by (clear Hin; unfold wait_done; induction (components s) as [|c l IH]; [reflexivity|]; cbn [loop on_component]; destruct (loop _ l); exact IH).
  destruct (wait_done s (fun _ => None)) as [ev o]. cbn [snd] in Hw. subst o.
  assert (G : forall l2 l1, (forall i a, In (i, a) l2 -> In (component_name i) (components s)) -> let acc := flat_map (data_of d) l1 in
    let clash := exists m1 x m2 p q, l2 = m1 ++ x :: m2 /\ In p (acc ++ flat_map (data_of d) m1) /\ In q (data_of d x) /\ fst p = fst q in
    (~ clash /\ snd (gather s no_failure d l2 acc) = Ok (acc ++ flat_map (data_of d) l2)) \/ (clash /\ snd (gather s no_failure d l2 acc) = Err RuntimeError)).
  { induction l2 as [|[i a] l2 IH]; intros l1 Hl2; cbn zeta; cbn [gather flat_map].
    - left. split; [|rewrite app_nil_r; reflexivity]. intros (m1 & x & m2 & p & q & E & _). destruct m1; discriminate.
    - unfold get_component. rewrite (proj2 (mem_In _ _) (Hl2 i a (or_introl eq_refl))). change (no_failure (component_name i)) with (@None exn). cbv iota beta.
      assert (Hm : match d (component_name i) with Some d0 => merge (flat_map (data_of d) l1) d0 | None => Ok (flat_map (data_of d) l1) end =
        if existsb (fun x => existsb (same_pos x) (flat_map (data_of d) l1)) (data_of d (i, a)) then Err RuntimeError else Ok (flat_map (data_of d) l1 ++ data_of d (i, a))).
      { generalize (flat_map (data_of d) l1). intros acc. unfold data_of. cbn [fst]. destruct (d (component_name i)); [reflexivity|]. cbn [existsb]. rewrite app_nil_r. reflexivity. }
      assert (Hsp : forall p q : Z * Z * Q, same_pos p q = true <-> fst p = fst q).
      { intros [[a1 b1] c1] [[a2 b2] c2]. unfold same_pos. cbn. rewrite andb_true_iff, !Z.eqb_eq. split; [intros [-> ->]; reflexivity|intros [= -> ->]; auto]. }
      match type of Hm with _ = ?R => match goal with |- context [match ?M with Ok _ => _ | Err _ => _ end] => change (M = R) in Hm; rewrite Hm end end. destruct (existsb _ (data_of d (i, a))) eqn:Ex.
      + right. split; [|reflexivity]. apply existsb_exists in Ex. destruct Ex as (q & Hq & Ex). apply existsb_exists in Ex. destruct Ex as (p & Hp & Ex). apply Hsp in Ex.
        exists [], (i, a), l2, p, q. cbn [app flat_map]. rewrite app_nil_r. auto.
      + specialize (IH (l1 ++ [(i, a)]) (fun i' a' H => Hl2 i' a' (or_intror H))). cbn zeta in IH. rewrite flat_map_app in IH. cbn [flat_map] in IH. rewrite app_nil_r in IH.
        destruct (gather s no_failure d l2 (flat_map (data_of d) l1 ++ data_of d (i, a))) as [ev2 res]. cbn [snd] in *. destruct IH as [[H1 H2]|[H1 H2]]; [left|right].
        * split; [|rewrite H2, <- app_assoc; reflexivity]. intros (m1 & x & m2 & p & q & E & Hp & Hq & Epq). destruct m1 as [|y m1].
          -- injection E as <- <-. cbn [flat_map] in Hp. rewrite app_nil_r in Hp. assert (Ht : existsb (fun x => existsb (same_pos x) (flat_map (data_of d) l1)) (data_of d (i, a)) = true); [|congruence].
             apply existsb_exists. exists q. split; [exact Hq|]. apply existsb_exists. exists p. split; [exact Hp|]. apply Hsp. auto.
          -- injection E as <- ->. apply H1. exists m1, x, m2, p, q. cbn [flat_map] in Hp. rewrite <- app_assoc. auto.
        * split; [|exact H2]. destruct H1 as (m1 & x & m2 & p & q & -> & Hp & Hq & Epq). exists ((i, a) :: m1), x, m2, p, q. cbn [app flat_map]. rewrite <- app_assoc in Hp. auto. }
  specialize (G (instrs cs) [] Hin). cbn zeta in G. cbn [flat_map app] in G. destruct (gather s no_failure d (instrs cs) []) as [ev2 res]. cbn [snd] in *. exact G.
Qed.

(** last_schedule returns the last schedule that prepare accepted as a compiled schedule (also if a component then raised), and raises ValueError before that *)
Definition accepted (c : call) : option csched := match c with Prepare cs _ => if valid cs then Some cs else None | _ => None end.
Theorem C34_last_schedule : forall h, last_schedule (fst (session init h)) = match fold_left (fun cur c => match accepted c with Some cs => Some cs | None => cur end) h None with Some cs => Ok cs | None => Err ValueError end.
Proof.
  intros h. unfold last_schedule. assert (G : forall h s, last_sched (fst (session s h)) = fold_left (fun cur c => match accepted c with Some cs => Some cs | None => cur end) h (last_sched s)); [|rewrite G; reflexivity].
  clear h. induction h as [|c h IH]; intros s; [reflexivity|]. cbn [session fold_left]. destruct (step s c) as [[s1 ev] e] eqn:E. specialize (IH s1). destruct (session s1 h) as [s2 ev2]. cbn [fst] in *. rewrite IH. f_equal.
  destruct c as [n ok|n|cs f|f|f|f d]; cbn [step accepted] in *.
  - destruct (mem n (components s)); [injection E as <- _ _; reflexivity|]. destruct ok; injection E as <- _ _; reflexivity.
  - destruct (mem n (components s)); injection E as <- _ _; reflexivity.
  - unfold prepare in E. destruct (valid cs); cbn [negb] in E; [|injection E as <- _ _; reflexivity]. destruct (loop _ _). injection E as <- _ _. reflexivity.
  - destruct (start s f). injection E as <- _ _. reflexivity.
  - destruct (stop s f). injection E as <- _ _. reflexivity.
  - destruct (retrieve s f d) as [? []]; injection E as <- _ _; reflexivity.
Qed.
(** stop reaches every registered component, in order; a component that raises keeps the later ones running *)
Theorem C34_stop : forall s f, exists stopped rest, components s = stopped ++ rest /\ fst (stop s f) = map EStop stopped /\
  match snd (stop s f) with None => rest = [] /\ Forall (fun c => f c = None) stopped | Some e => exists pre c, stopped = pre ++ [c] /\ f c = Some e /\ Forall (fun c => f c = None) pre end.
Proof.
  intros s f. unfold stop. induction (components s) as [|c l IH]; cbn [loop]; [exists [], []; repeat split; constructor|]. unfold on_component at 1 3. destruct (f c) as [e|] eqn:Ef.
  - exists [c], l. repeat split. exists [], c. repeat split; [exact Ef|constructor].
  - destruct IH as (st & rest & H1 & H2 & H3). exists (c :: st), rest. destruct (loop _ l) as [ev o]. cbn [fst snd] in *. split; [rewrite H1; reflexivity|]. split; [cbn; rewrite H2; reflexivity|].
    destruct o as [e|]; [destruct H3 as (pre & x & -> & Hx & Hf); exists (c :: pre), x; repeat split; [exact Hx|constructor; assumption]|]. destruct H3 as [H3 H4]. split; [exact H3|constructor; assumption].
Qed.
(** retrieve_acquisition first waits for every registered component, then asks only those of the schedule for data *)
Theorem C34_retrieve_waits : forall s cs f d, compiled s = Some cs -> exists l, fst (retrieve s f d) = map EWait (components s) ++ map ERetrieve l /\ exists rest, map (fun x => component_name (fst x)) (instrs cs) = l ++ rest.
Proof.
  intros s cs f d Hc. unfold retrieve. rewrite Hc. assert (Hw : wait_done s (fun _ => None) = (map EWait (components s), None)).
  { unfold wait_done. induction (components s) as [|c l IH]; [reflexivity|]. cbn [loop on_component map]. rewrite IH. reflexivity. }
  rewrite Hw. clear Hw. assert (G : forall l acc, exists m rest, fst (gather s f d l acc) = map ERetrieve m /\ map (fun x : string * Z => component_name (fst x)) l = m ++ rest).
  { induction l as [|[i a] l IH]; intros acc; cbn [gather map fst]; [exists [], []; split; reflexivity|]. unfold get_component. destruct (mem (component_name i) (components s)); [|exists [], (component_name i :: map (fun x : string * Z => component_name (fst x)) l); split; reflexivity].
    destruct (f (component_name i)); [exists [component_name i], (map (fun x : string * Z => component_name (fst x)) l); split; reflexivity|]. destruct (match d (component_name i) with Some d0 => merge acc d0 | None => Ok acc end) as [acc'|e]; [|exists [component_name i], (map (fun x : string * Z => component_name (fst x)) l); split; reflexivity].
    destruct (IH acc') as (m & rest & H1 & H2). exists (component_name i :: m), rest. destruct (gather s f d l acc') as [ev res]. cbn [fst] in *. split; [cbn; rewrite H1; reflexivity|cbn [map fst app]; f_equal; exact H2]. }
  destruct (G (instrs cs) []) as (m & rest & H1 & H2). destruct (gather s f d (instrs cs) []) as [ev2 res]. cbn [fst] in *. exists m. split; [rewrite H1; reflexivity|eauto].
Qed.

(** ** Where it fails *)
Definition ab : list call := [Add "ic_A" true; Add "ic_B" true].
Definition S1 : csched := {| valid := true; instrs := [("A", 1); ("B", 1)]%string |}.
Definition S2 : csched := {| valid := true; instrs := [("A", 2); ("C", 2); ("B", 2)]%string |}.
(** a prepare that raises (no component for C) leaves the coordinator able to start: A runs the new program and B the one of the previous schedule *)
Theorem C34_failed_prepare_starts_mixture : let h := ab ++ [Prepare S1 no_failure; Prepare S2 no_failure] in
  snd (step (fst (session init (ab ++ [Prepare S1 no_failure]))) (Prepare S2 no_failure)) = Some KeyError /\
  step (fst (session init h)) (Start no_failure) = (fst (session init h), [EStart "ic_A"; EStart "ic_B"], None) /\ loaded "ic_A" (snd (session init h)) = Some 2 /\ loaded "ic_B" (snd (session init h)) = Some 1.
Proof. repeat split; vm_compute; reflexivity. Qed.
(** even something that is not a compiled schedule, refused with TypeError, replaces the prepared schedule: start then silently does nothing *)
Theorem C34_invalid_prepare_start_silent : let h := ab ++ [Prepare S1 no_failure; Prepare {| valid := false; instrs := [] |} no_failure] in
  step (fst (session init h)) (Start no_failure) = (fst (session init h), [], None).
Proof. vm_compute. reflexivity. Qed.
(** a component removed after prepare is silently left out *)
Theorem C34_removed_component_skipped : let h := ab ++ [Prepare S1 no_failure; Remove "ic_B"] in step (fst (session init h)) (Start no_failure) = (fst (session init h), [EStart "ic_A"], None).
Proof. vm_compute. reflexivity. Qed.
Example C34_start_ex : snd (step (fst (session init ab)) (Prepare S1 no_failure)) = None /\ NoDup (map fst (instrs S1)).
Proof. split; [vm_compute; reflexivity|]. repeat constructor; cbn; intuition discriminate. Qed.
Example C34_retrieve_ex : snd (retrieve (fst (session init (ab ++ [Prepare S1 no_failure]))) no_failure (fun c => if String.eqb c "ic_A" then Some [(0, 0, 1%Q); (1, 0, 2%Q)] else Some [(1, 1, 3%Q)])) = Ok [(0, 0, 1%Q); (1, 0, 2%Q); (1, 1, 3%Q)].
Proof. vm_compute. reflexivity. Qed.
Print Assumptions C34_start_partial.
Print Assumptions C34_retrieve.
