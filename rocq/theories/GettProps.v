(** Lemmas on the methods of ScheduleGettable *)
From Verif Require Import Base CoordModel CoordProps GettModel GettSpec.
Local Open Scope Z_scope.

Lemma bindM_ok {A B} (x : M A) (f : A -> M B) w w' b : bindM x f w = (w', Ok b) -> exists w1 a, x w = (w1, Ok a) /\ f a w1 = (w', Ok b).
Proof. unfold bindM. destruct (x w) as [w1 [a|e]] eqn:E; intros H; [eauto|discriminate H]. Qed.
Lemma bindM_err {A B} (x : M A) (f : A -> M B) w w' e : bindM x f w = (w', Err e) -> x w = (w', Err e) \/ exists w1 a, x w = (w1, Ok a) /\ f a w1 = (w', Err e).
Proof. unfold bindM. destruct (x w) as [w1 [a|e']] eqn:E; intros H; [eauto|]. injection H as -> ->. auto. Qed.
Lemma view_ok {A} (f : world -> A) w w' a : view f w = (w', Ok a) -> w' = w /\ a = f w.
Proof. unfold view. intros [= <- <-]. auto. Qed.
Lemma lift_ok {A} (r : result A) w w' a : lift r w = (w', Ok a) -> w' = w /\ r = Ok a.
Proof. unfold lift. intros [= <- <-]. auto. Qed.
Lemma on_coord_ok {A} (f : coord -> coord * list event * result A) w w' a : on_coord f w = (w', Ok a) ->
  exists s ev, f (w_coord w) = (s, ev, Ok a) /\ w' = {| w_params := w_params w; w_config := w_config w; w_reps := w_reps w; w_coord := s; w_log := w_log w ++ ev; w_gets := w_gets w |}.
Proof. unfold on_coord. destruct (f (w_coord w)) as [[s ev] r]. intros [= <- ->]. eauto. Qed.

Lemma evaluate_ok w kw vals : evaluate_parameter_dict (w_params w) kw = Ok vals <-> current_kwargs w kw vals.
Proof.
  unfold evaluate_parameter_dict, current_kwargs. revert vals. induction kw as [|[k v] kw IH]; intros vals; cbn [mapM].
  - split; [intros [= <-]; constructor|intros H; inversion H; reflexivity].
  - split.
    + intros H. unfold bind at 1 in H. destruct v as [x|p].
      * unfold bind in H. destruct (mapM _ kw) as [ys|] eqn:E; [|discriminate H]. injection H as <-. constructor; [cbn; auto|apply IH; reflexivity].
      * unfold bind at 1 in H. destruct (w_params w p) as [[x|]|] eqn:Ep; try discriminate H. unfold bind in H. destruct (mapM _ kw) as [ys|] eqn:E; [|discriminate H]. injection H as <-. constructor; [cbn; auto|apply IH; reflexivity].
    + intros H. inversion H as [|? [k' x] ? ys [H1 H2] H3]; subst. cbn in H1, H2. apply IH in H3. destruct v as [c|p]; cbn [bind]; [subst; rewrite H3; reflexivity|]. rewrite H2. cbn [bind]. rewrite H3. subst. reflexivity.
Qed.

Lemma used_mem cs c : used cs c = mem c (map (fun '(n, _) => component_name n) (instrs cs)).
Proof. unfold used, mem. induction (instrs cs) as [|[n a] l IH]; [reflexivity|]. cbn [existsb map]. rewrite IH. reflexivity. Qed.
Lemma used_in cs c : used cs c = true <-> exists n a, In (n, a) (instrs cs) /\ c = component_name n.
Proof.
  unfold used. rewrite existsb_exists. split.
  - intros ([n a] & Hi & E). apply String.eqb_eq in E. eauto.
  - intros (n & a & Hi & ->). exists (n, a). split; [exact Hi|apply String.eqb_refl].
Qed.

Lemma loop_none {A} (ev : A -> event) (f : A -> option exn) : forall l evs, loop (fun c => on_component (ev c) (f c)) l = (evs, None) -> evs = map ev l.
Proof.
  induction l as [|c l IH]; intros evs; cbn [loop map]; [intros [= <-]; reflexivity|]. unfold on_component at 1. destruct (f c); [discriminate|]. destruct (loop _ l) as [ev2 e2]. intros [= <- ->]. rewrite (IH ev2 eq_refl). reflexivity.
Qed.
Lemma start_ok s f evs : start s f = (evs, None) -> exists cs, compiled s = Some cs /\ evs = map EStart (filter (used cs) (components s)).
Proof.
  unfold start. destruct (compiled s) as [cs|]; [|discriminate]. intros H. exists cs. split; [reflexivity|]. revert evs H. induction (components s) as [|c l IH]; intros evs; cbn [loop filter]; [intros [= <-]; reflexivity|].
  rewrite <- (used_mem cs c). destruct (used cs c); [unfold on_component at 1; destruct (f c); [discriminate|]|]; destruct (loop _ l) as [ev2 e2]; intros [= <- ->]; cbn [map app]; rewrite (IH ev2 eq_refl); reflexivity.
Qed.
Definition one (data : string -> option dataset) (x : string * Z) : dataset := match data (component_name (fst x)) with Some d => d | None => [] end.
Lemma gather_ok s f data : forall l acc evs d, gather s f data l acc = (evs, Ok d) ->
  evs = map (fun '(n, _) => ERetrieve (component_name n)) l /\ d = acc ++ flat_map (one data) l /\ (forall n a, In (n, a) l -> In (component_name n) (components s)).
Proof.
  induction l as [|[n a] l IH]; intros acc evs d; cbn [gather]; [intros [= <- <-]; cbn; rewrite app_nil_r; repeat split; intros ? ? []|].
  unfold get_component. destruct (mem (component_name n) (components s)) eqn:Em; [|discriminate]. destruct (f (component_name n)); [discriminate|].
  destruct (match data (component_name n) with Some d0 => merge acc d0 | None => Ok acc end) as [acc'|] eqn:Ea; [|discriminate]. destruct (gather s f data l acc') as [ev r] eqn:Eg. intros [= <- ->]. specialize (IH acc' ev d Eg). destruct IH as (-> & -> & H3).
  split; [reflexivity|]. split.
  - cbn [flat_map]. unfold one at 2. cbn [fst]. destruct (data (component_name n)) as [d0|]; [|injection Ea as <-; reflexivity]. unfold merge in Ea. destruct (existsb _ d0); [discriminate Ea|]. injection Ea as <-. rewrite app_assoc. reflexivity.
  - intros n' a' [[= <- <-]|Hi]; [apply mem_In, Em|eapply H3, Hi].
Qed.
Lemma retrieve_ok s f data evs d cs : compiled s = Some cs -> retrieve s f data = (evs, Ok d) ->
  evs = map EWait (components s) ++ map (fun '(n, _) => ERetrieve (component_name n)) (instrs cs) /\ d = flat_map (one data) (instrs cs) /\ (forall n a, In (n, a) (instrs cs) -> In (component_name n) (components s)).
Proof.
  unfold retrieve. intros ->. destruct (wait_done s _) as [ev e] eqn:Ew. destruct e; [discriminate|]. unfold wait_done in Ew. apply (loop_none EWait (fun _ => None)) in Ew. subst ev. destruct (gather _ _ _ _ _) as [ev2 r] eqn:Eg. intros [= <- ->]. apply gather_ok in Eg. destruct Eg as (-> & -> & H). auto.
Qed.

Lemma ran_fst c tr : forall a b, fst (fold_left (ran_step c) tr (a, b)) = fold_left (fun cur ev => match ev with EPrepare c' x => if String.eqb c c' then Some x else cur | _ => cur end) tr a.
Proof. induction tr as [|ev tr IH]; intros a b; [reflexivity|]. cbn [fold_left]. destruct ev as [c' x|c'| | |]; cbn [ran_step fst snd]; try apply IH; destruct (String.eqb c c'); apply IH. Qed.
Lemma ran_started c tr l : In c l -> ran c (tr ++ map EStart l) = loaded c tr.
Proof.
  intros Hi. unfold ran, loaded. rewrite fold_left_app. destruct (fold_left (ran_step c) tr (None, None)) as [a b] eqn:E. pose proof (ran_fst c tr None None) as Hf. rewrite E in Hf. cbn [fst] in Hf. rewrite <- Hf. clear Hf E.
  assert (G : forall l b, (b = a \/ In c l) -> fold_left (ran_step c) (map EStart l) (a, b) = (a, a)).
  { clear. induction l as [|x l IH]; intros b H; cbn [map fold_left ran_step fst snd]; [destruct H as [-> |[]]; reflexivity|]. destruct (String.eqb_spec c x) as [->|Hne]; apply IH; [auto|]. destruct H as [H|[H|H]]; [auto|congruence|auto]. }
  rewrite G by auto. reflexivity.
Qed.

(** ** compile *)
Lemma compile_ok i w w' cs : compile i w = (w', Ok cs) -> exists s, g_func (w_gets w i) (g_evaluated (w_gets w i)) (w_reps w) = Ok s /\ w_config w (g_debug (w_gets w i)) s = Ok cs /\
  w' = fst (put_gettable i (with_compiled (w_gets w i) (Some cs)) w).
Proof.
  unfold compile, self, assign. intros H. apply bindM_ok in H. destruct H as (w1 & g & H1 & H). apply view_ok in H1. destruct H1 as [-> ->]. apply bindM_ok in H. destruct H as (w1 & reps & H1 & H). apply view_ok in H1. destruct H1 as [-> ->].
  apply bindM_ok in H. destruct H as (w1 & s & H1 & H). apply lift_ok in H1. destruct H1 as [-> Hs]. apply bindM_ok in H. destruct H as (w1 & cfg & H1 & H). apply view_ok in H1. destruct H1 as [-> ->].
  apply bindM_ok in H. destruct H as (w1 & cs' & H1 & H). apply lift_ok in H1. destruct H1 as [-> Hc]. cbn in H. injection H as <- <-. exists s. unfold call_function in Hs. destruct (existsb _ _); [discriminate Hs|]. auto.
Qed.
Lemma compile_err i w w' e : compile i w = (w', Err e) -> w' = w.
Proof. unfold compile, self, assign, bindM, view, lift. cbn. destruct (call_function (w_gets w i) (w_reps w)) as [s|]; [|intros [= <- _]; reflexivity]. destruct (w_config w (g_debug (w_gets w i)) s); [intros H; discriminate H|intros [= <- _]; reflexivity]. Qed.

(** ** initialize *)
Lemma initialize_ok i h w w' : initialize i h w = (w', Ok tt) -> exists cs,
  compiled_now w i (g_debug (w_gets w i)) cs /\ (forall j, g_kwargs (w_gets w' j) = g_kwargs (w_gets w j) /\ g_func (w_gets w' j) = g_func (w_gets w j) /\ g_always (w_gets w' j) = g_always (w_gets w j) /\ g_debug (w_gets w' j) = g_debug (w_gets w j)) /\
  (forall j, j <> i -> w_gets w' j = w_gets w j) /\ current_kwargs w (g_kwargs (w_gets w i)) (g_evaluated (w_gets w' i)) /\ g_inited (w_gets w' i) = true /\ g_compiled (w_gets w' i) = Some cs /\
  compiled (w_coord w') = Some cs /\ components (w_coord w') = components (w_coord w) /\ w_log w' = w_log w ++ upload cs /\
  (forall n a, In (n, a) (instrs cs) -> In (component_name n) (components (w_coord w))) /\ w_params w' = w_params w /\ w_config w' = w_config w /\ w_reps w' = w_reps w.
Proof.
  unfold initialize. intros H. apply bindM_ok in H. destruct H as (w1 & g & H1 & H). apply view_ok in H1. destruct H1 as [-> ->]. apply bindM_ok in H. destruct H as (w1 & params & H1 & H). apply view_ok in H1. destruct H1 as [-> ->].
  apply bindM_ok in H. destruct H as (w1 & vals & H1 & H). apply lift_ok in H1. destruct H1 as [-> Hv]. apply evaluate_ok in Hv. apply bindM_ok in H. destruct H as (w1 & [] & H1 & H). cbn in H1. injection H1 as <-.
  apply bindM_ok in H. destruct H as (w1 & cs & H1 & H). apply compile_ok in H1. destruct H1 as (s & Hs & Hc & ->). cbn in Hs, Hc. rewrite Nat.eqb_refl in Hs, Hc. cbn in Hs, Hc.
  apply bindM_ok in H. destruct H as (w1 & [] & H1 & H). apply on_coord_ok in H1. destruct H1 as (s' & ev & H1 & ->). cbn [put_gettable fst w_coord] in H1. destruct (prepare (w_coord w) cs (h_prepare h)) as [[s1 ev1] e1] eqn:Ep. injection H1 as -> -> H1. destruct e1; [discriminate H1|].
  apply prepare_loads in Ep. destruct Ep as (P1 & P2 & P3 & P4 & P5). unfold assign, self, bindM, view, put_gettable in H. cbn in H. injection H as <-. cbn. exists cs.
  split; [exists vals, s; auto|]. split; [intros j; destruct (Nat.eqb_spec j i) as [->|Hj]; rewrite ?Nat.eqb_refl; repeat split|]. split; [intros j Hj; apply Nat.eqb_neq in Hj; rewrite ?Hj; cbn; rewrite ?Hj; reflexivity|].
  rewrite !Nat.eqb_refl. cbn. repeat split; auto. rewrite P4. reflexivity.
Qed.
