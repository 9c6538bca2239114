(** C56: what the data returned by ScheduleGettable.get() come from *)
From Verif Require Import Base CoordModel CoordProps GettModel GettSpec GettProps.
Local Open Scope Z_scope.

Definition add_log (w : world) (ev : list event) : world :=
  {| w_params := w_params w; w_config := w_config w; w_reps := w_reps w; w_coord := w_coord w; w_log := w_log w ++ ev; w_gets := w_gets w |}.
Lemma get_ok i h w w' d : get i h w = (w', Ok d) -> exists w1 cs,
  let w0 := add_log w (map EStop (components (w_coord w))) in
  (if negb (g_inited (w_gets w i)) || g_always (w_gets w i) then initialize i h w0 = (w1, Ok tt) else w1 = w0) /\
  g_compiled (w_gets w1 i) <> None /\ compiled (w_coord w1) = Some cs /\ w' = add_log w1 (execution (components (w_coord w1)) cs) /\
  (forall n a, In (n, a) (instrs cs) -> In (component_name n) (components (w_coord w1))) /\
  d = flat_map (one (fun c => h_measure h c (ran c (w_log w1 ++ map EStart (filter (used cs) (components (w_coord w1))))))) (instrs cs) /\ d <> [].
Proof.
  unfold get. intros H. apply bindM_ok in H. destruct H as (w0 & [] & H0 & H). apply on_coord_ok in H0. destruct H0 as (s & ev & H0 & ->). destruct (stop_allowing (w_coord w) (h_stop0 h)) as [ev0 e0] eqn:Es. injection H0 as <- <- H0. destruct e0; [discriminate H0|]. apply loop_none in Es. subst ev0.
  fold (add_log w (map EStop (components (w_coord w)))) in H. apply bindM_ok in H. destruct H as (w0 & g & Hg & H). apply view_ok in Hg. destruct Hg as [-> ->].
  apply bindM_ok in H. destruct H as (w1 & [] & Hi & H). apply bindM_ok in H. destruct H as (w2 & g & Hg & H). apply view_ok in Hg. destruct Hg as [-> ->].
  destruct (g_compiled (w_gets w1 i)) as [cs0|] eqn:Ec; [|discriminate H]. apply bindM_ok in H. destruct H as (w2 & [] & H2 & H). apply on_coord_ok in H2. destruct H2 as (s & ev & H2 & ->).
  destruct (start (w_coord w1) (h_start h)) as [ev2 e2] eqn:Est. injection H2 as <- <- H2. destruct e2; [discriminate H2|]. apply start_ok in Est. destruct Est as (cs & Hcs & ->).
  apply bindM_ok in H. destruct H as (w2 & log & H3 & H). apply view_ok in H3. destruct H3 as [-> ->]. cbn [w_log] in H. apply bindM_ok in H. destruct H as (w2 & d' & H3 & H). apply on_coord_ok in H3. cbn [w_coord w_log w_params w_config w_reps w_gets] in H3. destruct H3 as (s & ev & H3 & ->).
  destruct (retrieve _ _ _) as [ev3 r3] eqn:Er. injection H3 as <- <- ->. apply (retrieve_ok _ _ _ _ _ cs Hcs) in Er. destruct Er as (-> & -> & Hin).
  apply bindM_ok in H. destruct H as (w2 & [] & H4 & H). apply on_coord_ok in H4. cbn [w_coord w_log w_params w_config w_reps w_gets] in H4. destruct H4 as (s & ev & H4 & ->). destruct (stop (w_coord w1) (h_stop h)) as [ev4 e4] eqn:Es. injection H4 as <- <- H4. destruct e4; [discriminate H4|]. apply loop_none in Es. subst ev4.
  exists w1, cs. cbn zeta. split; [|split; [congruence|split; [exact Hcs|]]].
  - change (w_gets w i) with (w_gets (add_log w (map EStop (components (w_coord w)))) i). destruct (negb _ || _); [exact Hi|]. unfold ret in Hi. injection Hi as <-. reflexivity.
  - destruct (flat_map _ (instrs cs)) as [|x d''] eqn:Ed; [discriminate H|]. injection H as <- <-. split; [|split; [exact Hin|]].
    + unfold add_log, execution. rewrite <- !app_assoc. reflexivity.
    + split; [reflexivity|discriminate].
Qed.

Lemma flat_one measure ran' cs : (forall n a, In (n, a) (instrs cs) -> ran' (component_name n) = Some a) -> flat_map (one (fun c => measure c (ran' c))) (instrs cs) = data_from measure cs.
Proof.
  unfold data_from. intros H. induction (instrs cs) as [|[n a] l IH]; [reflexivity|]. cbn [flat_map]. rewrite IH by (intros n' a' Hi; apply H; right; exact Hi). unfold one. cbn [fst]. rewrite (H n a) by (left; reflexivity). reflexivity.
Qed.
Lemma compiled_now_log w ev i b cs : compiled_now (add_log w ev) i b cs <-> compiled_now w i b cs.
Proof. reflexivity. Qed.

(** ** With always_initialize (the default) or at the first get(): the data are those of the schedule that the schedule function gives for the parameter values, repetitions and configuration of now,
    executed by the hardware; whatever happened before (the world is arbitrary) *)
Theorem C56_get_fresh : forall w i h w' d, g_always (w_gets w i) = true \/ g_inited (w_gets w i) = false -> get i h w = (w', Ok d) ->
  exists cs, compiled_now w i (g_debug (w_gets w i)) cs /\ (is_dict cs -> d = data_from (h_measure h) cs) /\ d <> [] /\
  w_log w' = w_log w ++ map EStop (components (w_coord w)) ++ upload cs ++ execution (components (w_coord w)) cs /\
  (forall n a, In (n, a) (instrs cs) -> In (component_name n) (components (w_coord w))) /\
  g_compiled (w_gets w' i) = Some cs /\ current_kwargs w (g_kwargs (w_gets w i)) (g_evaluated (w_gets w' i)).
Proof.
  intros w i h w' d Hm H. apply get_ok in H. destruct H as (w1 & cs & Hi & Hc & Hcs & -> & Hin & -> & Hd). cbn zeta in Hi. replace (negb (g_inited (w_gets w i)) || g_always (w_gets w i))%bool with true in Hi by (destruct Hm as [-> | ->]; [rewrite orb_true_r|]; reflexivity).
  apply initialize_ok in Hi. destruct Hi as (cs' & I1 & I2 & I3 & I4 & I5 & I6 & I7 & I8 & I9 & I10 & _). rewrite I7 in Hcs. injection Hcs as ->. exists cs. cbn [add_log w_gets w_log w_coord w_params w_config w_reps] in *.
  split; [exact I1|]. split; [|split; [exact Hd|]].
  - intros Hn. apply (flat_one (h_measure h) (fun c => ran c (w_log w1 ++ map EStart (filter (used cs) (components (w_coord w1)))))). intros n a Ha. rewrite ran_started.
    + rewrite I9. rewrite <- app_assoc. rewrite app_assoc. apply loaded_prepares; assumption.
    + apply filter_In. split; [rewrite I8; eapply I10; exact Ha|apply used_in; eauto].
  - rewrite I9, I8, <- !app_assoc. repeat split; auto.
Qed.

(** ** Without always_initialize: the data are those of the schedule compiled when the gettable was last initialized *)
(* what must stay true in between *)
Definition holding (i : nat) (cs : csched) (w : world) : Prop :=
  g_inited (w_gets w i) = true /\ g_always (w_gets w i) = false /\ g_compiled (w_gets w i) <> None /\ compiled (w_coord w) = Some cs /\ forall n a, In (n, a) (instrs cs) -> loaded (component_name n) (w_log w) = Some a.
Lemma no_load_app a b : no_load a -> no_load b -> no_load (a ++ b).
Proof. intros H1 H2 c x Hi. apply in_app_or in Hi. destruct Hi as [Hi|Hi]; [eapply H1|eapply H2]; exact Hi. Qed.
Lemma on_coord_holding {A} i cs w (f : coord -> coord * list event * result A) : holding i cs w ->
  (let '(s, ev, _) := f (w_coord w) in compiled s = compiled (w_coord w) /\ no_load ev) -> holding i cs (fst (on_coord f w)).
Proof.
  intros (H1 & H2 & H3 & H4 & H5) Hf. unfold on_coord. destruct (f (w_coord w)) as [[s ev] r]. destruct Hf as [Hs He]. cbn [fst]. unfold holding. cbn [w_gets w_coord w_log]. repeat split; auto; [congruence|]. intros n a Ha. rewrite loaded_app by exact He. auto.
Qed.
Lemma loop_no_load {A} (ev : A -> event) (f : A -> option exn) : (forall x c a, ev x <> EPrepare c a) -> forall l, no_load (fst (loop (fun c => on_component (ev c) (f c)) l)).
Proof.
  intros H l c a Hi. apply (loop_events (fun e => e <> EPrepare c a) (fun c => on_component (ev c) (f c)) l) in Hi; [congruence|]. intros x _ e He. cbn in He. destruct He as [<-|[]]. apply H.
Qed.
Lemma bindM_holding {A B} i cs (x : M A) (f : A -> M B) w : holding i cs (fst (x w)) -> (forall a w1, x w = (w1, Ok a) -> holding i cs w1 -> holding i cs (fst (f a w1))) -> holding i cs (fst (bindM x f w)).
Proof. unfold bindM. destruct (x w) as [w1 [a|e]]; cbn [fst]; intros H1 H2; [apply H2; auto|exact H1]. Qed.
Lemma start_no_load s f : no_load (fst (start s f)).
Proof. pose proof (step_no_load s (Start f) s (fst (start s f)) (snd (start s f))) as H. apply H; [cbn; destruct (start s f); reflexivity|reflexivity]. Qed.
Lemma retrieve_no_load s f d : no_load (fst (retrieve s f d)).
Proof. pose proof (step_no_load s (Retrieve f d) s (fst (retrieve s f d)) (match snd (retrieve s f d) with Err e => Some e | Ok _ => None end)) as H. apply H; [cbn; destruct (retrieve s f d); reflexivity|reflexivity]. Qed.
Lemma get_holding i cs h w : holding i cs w -> holding i cs (fst (get i h w)).
Proof.
  intros H. unfold get. apply bindM_holding.
  - apply on_coord_holding; [exact H|]. unfold stop_allowing. pose proof (loop_no_load EStop (fun c => match h_stop0 h c with StopFails e => Some e | _ => None end) ltac:(discriminate) (components (w_coord w))) as E. destruct (loop _ _). auto.
  - intros [] w0 _ H0. apply bindM_holding; [exact H0|]. intros g w1 Hg H1. apply view_ok in Hg. destruct Hg as [-> ->]. destruct H0 as (A1 & A2 & A3). rewrite A1, A2. cbn [negb orb]. apply bindM_holding; [exact H1|]. intros [] w1 Hr _. unfold ret in Hr. injection Hr as <-.
    apply bindM_holding; [exact H1|]. intros g w1 Hg _. apply view_ok in Hg. destruct Hg as [-> ->]. destruct (g_compiled (w_gets w0 i)); [|exact H1]. apply bindM_holding.
    + apply on_coord_holding; [exact H1|]. pose proof (start_no_load (w_coord w0) (h_start h)) as E. destruct (start _ _). auto.
    + intros [] w1 _ H2. apply bindM_holding; [exact H2|]. intros log w2 Hl _. apply view_ok in Hl. destruct Hl as [-> ->]. apply bindM_holding.
      * apply on_coord_holding; [exact H2|]. pose proof (retrieve_no_load (w_coord w1) (h_retrieve h) (fun c => h_measure h c (ran c (w_log w1)))) as E. destruct (retrieve _ _ _). auto.
      * intros d w2 _ H3. apply bindM_holding.
        -- apply on_coord_holding; [exact H3|]. unfold stop. pose proof (loop_no_load EStop (h_stop h) ltac:(discriminate) (components (w_coord w2))) as E. destruct (loop _ _). auto.
        -- intros [] w3 _ H4. destruct d; exact H4.
Qed.
Lemma compile_holding i cs j w : holding i cs w -> holding i cs (fst (compile j w)).
Proof.
  intros H. destruct (compile j w) as [w' [c|e]] eqn:E; [|apply compile_err in E; subst; exact H]. apply compile_ok in E. destruct E as (s & _ & _ & ->). destruct H as (H1 & H2 & H3 & H4 & H5). unfold holding. cbn. destruct (Nat.eqb_spec i j) as [->|]; cbn; repeat split; auto; discriminate.
Qed.
Lemma act_holding i cs w a : holding i cs w -> leaves i a = true -> holding i cs (act w a).
Proof.
  intros H Ha. destruct a as [p v|f|n|j b|j k|c|j|j h|j h|j h]; cbn [leaves] in Ha; cbn [act]; try discriminate Ha; try exact H.
  - unfold assign, self, bindM, view, put_gettable. cbn. destruct H as (H1 & H2 & H3 & H4 & H5). unfold holding. cbn. apply negb_true_iff, Nat.eqb_neq in Ha. destruct (Nat.eqb_spec i j); [congruence|]. repeat split; auto.
  - unfold assign, self, bindM, view, put_gettable. cbn. destruct H as (H1 & H2 & H3 & H4 & H5). unfold holding. cbn. destruct (Nat.eqb_spec i j) as [->|]; cbn; repeat split; auto.
  - apply on_coord_holding; [exact H|]. assert (Hp : is_prepare c = false) by (destruct c; try reflexivity; discriminate Ha). destruct (step (w_coord w) c) as [[s ev] e] eqn:E. split; [eapply step_compiled; eassumption|eapply step_no_load; eassumption].
  - apply compile_holding, H.
  - apply Nat.eqb_eq in Ha. subst. apply get_holding, H.
Qed.
Lemma history_holding i cs l : forall w, holding i cs w -> forallb (leaves i) l = true -> holding i cs (history w l).
Proof.
  unfold history. induction l as [|a l IH]; intros w H Hl; [exact H|]. cbn [forallb] in Hl. apply andb_true_iff in Hl. destruct Hl as [Ha Hl]. cbn [fold_left]. apply IH; [apply act_holding; assumption|exact Hl].
Qed.
Lemma holding_get i cs w h w' d : holding i cs w -> get i h w = (w', Ok d) -> d = data_from (h_measure h) cs /\ d <> [] /\
  w_log w' = w_log w ++ map EStop (components (w_coord w)) ++ execution (components (w_coord w)) cs.
Proof.
  intros (H1 & H2 & H3 & H4 & H5) H. apply get_ok in H. destruct H as (w1 & cs' & Hi & Hc & Hcs & -> & Hin & -> & Hd). cbn zeta in Hi. rewrite H1, H2 in Hi. cbn [negb orb] in Hi. subst w1. cbn [add_log w_coord w_log] in *. rewrite H4 in Hcs. injection Hcs as <-.
  split; [|split; [exact Hd|rewrite <- !app_assoc; reflexivity]]. apply (flat_one (h_measure h) (fun c => ran c ((w_log w ++ map EStop (components (w_coord w))) ++ map EStart (filter (used cs) (components (w_coord w)))))). intros n a Ha. rewrite ran_started.
  - rewrite loaded_app; [apply H5, Ha|]. intros c x Hx. apply in_map_iff in Hx. destruct Hx as (? & ? & _). discriminate.
  - apply filter_In. split; [eapply Hin; exact Ha|apply used_in; eauto].
Qed.

(** initialize() succeeded in world [w0], then anything happened that uploads nothing else: get() runs what was compiled at that initialization, and uploads nothing *)
Theorem C56_get_once : forall w0 i h0 w1 between h w' d, initialize i h0 w0 = (w1, Ok tt) -> g_always (w_gets w0 i) = false -> forallb (leaves i) between = true ->
  get i h (history w1 between) = (w', Ok d) ->
  exists cs, compiled_now w0 i (g_debug (w_gets w0 i)) cs /\ (is_dict cs -> d = data_from (h_measure h) cs /\
    exists comps, w_log w' = w_log (history w1 between) ++ map EStop comps ++ execution comps cs).
Proof.
  intros w0 i h0 w1 between h w' d Hi Ha Hb Hg. apply initialize_ok in Hi. destruct Hi as (cs & I1 & I2 & I3 & I4 & I5 & I6 & I7 & I8 & I9 & I10 & _). exists cs. split; [exact I1|]. intros Hn.
  assert (Hh : holding i cs w1).
  { unfold holding. destruct (I2 i) as (_ & _ & E & _). rewrite I5, E, I6, I7. repeat split; auto; [discriminate|]. intros n a Hin. rewrite I9. apply loaded_prepares; assumption. }
  apply (history_holding i cs between) in Hh; [|exact Hb]. apply (holding_get i cs _ h _ _ Hh) in Hg. destruct Hg as (E1 & E2 & E3). split; [exact E1|]. eauto.
Qed.
(** the same when the initialization was the one of an earlier get() *)
Theorem C56_get_again : forall w0 i h0 w1 d0 between h w' d, get i h0 w0 = (w1, Ok d0) -> g_inited (w_gets w0 i) = false -> g_always (w_gets w0 i) = false -> forallb (leaves i) between = true ->
  get i h (history w1 between) = (w', Ok d) ->
  exists cs, compiled_now w0 i (g_debug (w_gets w0 i)) cs /\ (is_dict cs -> d0 = data_from (h_measure h0) cs /\ d = data_from (h_measure h) cs /\
    exists comps, w_log w' = w_log (history w1 between) ++ map EStop comps ++ execution comps cs).
Proof.
  intros w0 i h0 w1 d0 between h w' d H0 Hin Ha Hb Hg. pose proof H0 as H0'. apply get_ok in H0. destruct H0 as (wi & cs' & Hi & Hc & Hcs & Ew1 & _ & _ & _). rewrite Hin in Hi. cbn [negb orb] in Hi.
  apply C56_get_fresh in H0'; [|auto]. destruct H0' as (cs & F1 & F2 & F3 & F4 & F5 & F6 & F7). exists cs. split; [exact F1|]. intros Hn.
  apply initialize_ok in Hi. destruct Hi as (cs2 & I1 & I2 & I3 & I4 & I5 & I6 & I7 & I8 & I9 & I10 & _). assert (E : cs2 = cs) by (rewrite Ew1 in F6; cbn [add_log w_gets] in F6; congruence). subst cs2. assert (E : cs' = cs) by congruence. subst cs'.
  assert (Hh : holding i cs w1).
  { subst w1. destruct (I2 i) as (_ & _ & E & _). cbn in E. unfold holding. cbn [add_log w_gets w_coord w_log]. repeat split; [exact I5|congruence|congruence|exact I7|]. intros n a Hia. rewrite loaded_app; [rewrite I9; apply loaded_prepares; assumption|].
    unfold execution. intros c x Hx. repeat (apply in_app_or in Hx; destruct Hx as [Hx|Hx]); apply in_map_iff in Hx; destruct Hx as (y & Hy & _); try discriminate Hy. destruct y. discriminate Hy. }
  apply (history_holding i cs between) in Hh; [|exact Hb]. apply (holding_get i cs _ h _ _ Hh) in Hg. destruct Hg as (E1 & E2 & E3). split; [apply F2, Hn|]. split; [exact E1|]. eauto.
Qed.
