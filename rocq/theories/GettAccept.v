(** C56: when get() succeeds, and further failures *)
From Verif Require Import Base CoordModel CoordProps GettModel GettSpec GettProps GettThms GettErr GettExample.
Local Open Scope Z_scope.

(** an initialization that fails does not make the gettable count as initialized: the next get() initializes *)
Theorem C56_failed_first : forall w i h w' e, initialize i h w = (w', Err e) -> g_inited (w_gets w' i) = g_inited (w_gets w i).
Proof.
  intros w i h w' e. unfold initialize, self, assign, bindM, view, lift. cbn - [compile]. destruct (evaluate_parameter_dict (w_params w) (g_kwargs (w_gets w i))) as [vals|e0]; [|intros [= <- _]; reflexivity].
  match goal with |- context [compile i ?W] => set (w1 := W) end. assert (E1 : g_inited (w_gets w1 i) = g_inited (w_gets w i)) by (unfold w1; cbn; rewrite Nat.eqb_refl; reflexivity).
  destruct (compile i w1) as [w2 [cs|e1]] eqn:Ec; [|apply compile_err in Ec; subst w2; intros [= <- _]; exact E1]. apply compile_ok in Ec. destruct Ec as (s & _ & _ & ->). unfold on_coord. cbn [put_gettable fst w_coord]. destruct (prepare _ cs (h_prepare h)) as [[s1 ev1] [e1|]]; [|cbn; intros H; discriminate H]. cbn. intros [= <- _]. cbn. rewrite !Nat.eqb_refl. reflexivity.
Qed.
(** a component that cannot be stopped: get() raises its error, after stopping those before it, and does nothing else (unless the error is an AttributeError) *)
Theorem C56_stop_error : forall w i h pre c post e, components (w_coord w) = pre ++ c :: post -> (forall x e', In x pre -> h_stop0 h x <> StopFails e') -> h_stop0 h c = StopFails e ->
  get i h w = (add_log w (map EStop (pre ++ [c])), Err e).
Proof.
  intros w i h pre c post e Hc Hp He. rewrite get_split. unfold stop_allowing. rewrite Hc.
  assert (G : loop (fun c => on_component (EStop c) match h_stop0 h c with StopFails e => Some e | _ => None end) (pre ++ c :: post) = (map EStop (pre ++ [c]), Some e)).
  { clear Hc. induction pre as [|x pre IH]; cbn [app loop map].
    - unfold on_component at 1. rewrite He. reflexivity.
    - unfold on_component at 1. rewrite IH by (intros; apply Hp; right; assumption). destruct (h_stop0 h x) as [| |e'] eqn:Ex; [reflexivity|reflexivity|destruct (Hp x e' (or_introl eq_refl) Ex)]. }
  rewrite G. reflexivity.
Qed.

(** hardware that works: nothing fails, except that stopping a component which was never prepared may raise AttributeError *)
Definition works (h : hw) : Prop := (forall c e, h_stop0 h c <> StopFails e) /\ (forall c, h_prepare h c = None) /\ (forall c, h_start h c = None) /\ (forall c, h_retrieve h c = None) /\ (forall c, h_stop h c = None).
(** no two instruments give a value for the same acquisition channel and index *)
Definition apart (measure : string -> option Z -> option dataset) (cs : csched) : Prop :=
  forall l1 x l2 p q, instrs cs = l1 ++ x :: l2 -> In p (flat_map (fun '(n, a) => match measure (component_name n) (Some a) with Some d => d | None => [] end) l1) ->
    In q (match measure (component_name (fst x)) (Some (snd x)) with Some d => d | None => [] end) -> fst p <> fst q.
Lemma loop_fine {A} (ev : A -> event) (f : A -> option exn) l : (forall x, f x = None) -> loop (fun c => on_component (ev c) (f c)) l = (map ev l, None).
Proof. intros H. induction l as [|x l IH]; [reflexivity|]. cbn [loop map]. unfold on_component at 1. rewrite H, IH. reflexivity. Qed.
Lemma prepare_fine s cs f : valid cs = true -> (forall c, f c = None) -> (forall n a, In (n, a) (instrs cs) -> In (component_name n) (components s)) ->
  prepare s cs f = ({| components := components s; compiled := Some cs; last_sched := Some cs |}, upload cs, None).
Proof.
  intros Hv Hf Hin. unfold prepare, upload. rewrite Hv. cbn [negb]. assert (G : loop (fun '(i, args) => match get_component {| components := components s; compiled := Some cs; last_sched := Some cs |} (component_name i) with
    | Err e => ([], Some e) | Ok c => on_component (EPrepare c args) (f c) end) (instrs cs) = (map (fun '(n, a) => EPrepare (component_name n) a) (instrs cs), None)); [|rewrite G; reflexivity].
  assert (G : forall l, (forall n a, In (n, a) l -> In (component_name n) (components s)) -> loop (fun '(i, args) => match get_component {| components := components s; compiled := Some cs; last_sched := Some cs |} (component_name i) with
    | Err e => ([], Some e) | Ok c => on_component (EPrepare c args) (f c) end) l = (map (fun '(n, a) => EPrepare (component_name n) a) l, None)); [|apply G, Hin].
  induction l as [|[n a] l IH]; intros Hl; [reflexivity|]. cbn [loop map]. unfold get_component at 1. cbn [components]. rewrite (proj2 (mem_In _ _) (Hl n a (or_introl eq_refl))). unfold on_component at 1. rewrite Hf, IH; [reflexivity|]. intros n' a' Hi. apply (Hl n' a'). right. exact Hi.
Qed.
Lemma initialize_fine i h w cs : compiled_now w i (g_debug (w_gets w i)) cs -> existsb (fun '(k, _) => String.eqb k "repetitions") (g_kwargs (w_gets w i)) = false -> valid cs = true -> (forall c, h_prepare h c = None) ->
  (forall n a, In (n, a) (instrs cs) -> In (component_name n) (components (w_coord w))) -> exists w', initialize i h w = (w', Ok tt).
Proof.
  intros (vals & s & Hv & Hs & Hc) Hr Hval Hf Hin. unfold initialize, self, assign, bindM, view, lift. cbn - [compile prepare]. pose proof (proj2 (evaluate_ok _ _ _) Hv) as Hv'. rewrite Hv'. unfold compile, self, assign, bindM, view, lift, call_function. cbn - [prepare]. rewrite Nat.eqb_refl. cbn - [prepare].
  assert (E : existsb (fun '(k, _) => String.eqb k "repetitions") vals = false).
  { clear - Hv Hr. unfold current_kwargs in Hv. induction Hv as [|[k v] [k' x] kw vals [Hk _] _ IH]; [reflexivity|]. cbn [fst] in Hk. subst k'. cbn [existsb] in *. apply orb_false_iff in Hr. destruct Hr as [Hr1 Hr2]. rewrite Hr1, IH by exact Hr2. reflexivity. }
  rewrite E, Hs, Hc. unfold on_coord. cbn - [prepare]. rewrite prepare_fine by assumption. cbn. eexists. reflexivity.
Qed.
Lemma retrieve_any_fine s d f g : (forall c, f c = None) -> (forall c, g c = None) -> retrieve s f d = retrieve s g d.
Proof.
  intros Hf Hg. unfold retrieve. destruct (compiled s) as [cs|]; [|reflexivity]. destruct (wait_done s (fun _ => None)) as [ev [e|]]; [reflexivity|]. assert (G : forall l acc, gather s f d l acc = gather s g d l acc); [|rewrite G; reflexivity].
  induction l as [|[n a] l IH]; intros acc; [reflexivity|]. cbn [gather]. destruct (get_component s (component_name n)) as [c|]; [|reflexivity]. rewrite Hf, Hg. destruct (match d c with Some d0 => merge acc d0 | None => Ok acc end); [rewrite IH|]; reflexivity.
Qed.
(** ** get() succeeds: when the schedule function and the compiler give a schedule for the values of now, all its instruments are registered, the hardware works, and it measures something without conflict *)
Theorem C56_get_succeeds : forall w i h cs, g_always (w_gets w i) = true \/ g_inited (w_gets w i) = false -> compiled_now w i (g_debug (w_gets w i)) cs ->
  existsb (fun '(k, _) => String.eqb k "repetitions") (g_kwargs (w_gets w i)) = false -> valid cs = true -> is_dict cs -> (forall n a, In (n, a) (instrs cs) -> In (component_name n) (components (w_coord w))) ->
  works h -> apart (h_measure h) cs -> data_from (h_measure h) cs <> [] -> exists w', get i h w = (w', Ok (data_from (h_measure h) cs)).
Proof.
  intros w i h cs Hm Hnow Hrep Hval Hd Hin (W1 & W2 & W3 & W4 & W5) Hap Hne.
  assert (Hget : exists w' d, get i h w = (w', Ok d)).
  { rewrite get_split. replace (negb (g_inited (w_gets w i)) || g_always (w_gets w i))%bool with true by (destruct Hm as [-> | ->]; [rewrite orb_true_r|]; reflexivity).
    unfold stop_allowing. rewrite loop_fine by (intros c; destruct (h_stop0 h c) as [| |e] eqn:Ec; [reflexivity|reflexivity|destruct (W1 c e Ec)]). cbn zeta.
    destruct (initialize_fine i h (add_log w (map EStop (components (w_coord w)))) cs Hnow Hrep Hval W2 Hin) as [w1 Ei]. rewrite Ei. apply initialize_ok in Ei. destruct Ei as (cs' & I1 & I2 & I3 & I4 & I5 & I6 & I7 & I8 & I9 & I10 & _).
    assert (cs' = cs). { destruct I1 as (v1 & s1 & X1 & X2 & X3), Hnow as (v2 & s2 & Y1 & Y2 & Y3). assert (v1 = v2) by (eapply current_kwargs_fun; [exact X1|exact Y1]). subst. cbn in X2, X3. congruence. } subst cs'.
    unfold after_init, self, bindM, view. rewrite I6. unfold on_coord at 1. assert (Est : start (w_coord w1) (h_start h) = (map EStart (filter (used cs) (components (w_coord w1))), None)).
    { unfold start. rewrite I7. rewrite loop_start by exact W3. do 2 f_equal. apply filter_ext. intros c. symmetry. apply used_mem. }
    rewrite Est. cbn [outcome w_log]. unfold on_coord at 1. cbn [w_coord w_log]. rewrite (retrieve_any_fine _ _ _ no_failure W4) by reflexivity. set (data := fun c => h_measure h c (ran c (w_log w1 ++ map EStart (filter (used cs) (components (w_coord w1)))))).
    assert (Hran : forall n a, In (n, a) (instrs cs) -> data (component_name n) = h_measure h (component_name n) (Some a)).
    { intros n a Ha. unfold data. rewrite ran_started; [|apply filter_In; split; [rewrite I8; eapply I10; exact Ha|apply used_in; eauto]]. rewrite I9. unfold upload. rewrite (loaded_prepares _ n a); auto. }
    destruct (C34_retrieve (w_coord w1) cs data I7) as [[_ Hr]|[Hcl _]].
    - intros n a Ha. rewrite I8. eapply Hin, Ha.
    - destruct (retrieve (w_coord w1) no_failure data) as [ev r]. cbn [snd] in Hr. subst r. unfold on_coord. cbn [w_coord]. unfold stop. rewrite loop_fine by exact W5. cbn [outcome].
      assert (E : flat_map (data_of data) (instrs cs) = data_from (h_measure h) cs).
      { unfold data_from. clear - Hran. induction (instrs cs) as [|[n a] l IH]; [reflexivity|]. cbn [flat_map]. rewrite IH by (intros n' a' Hi; apply Hran; right; exact Hi). unfold data_of. cbn [fst]. rewrite (Hran n a) by (left; reflexivity). reflexivity. }
      rewrite E. destruct (data_from (h_measure h) cs) as [|x d]; [congruence|]. unfold ret. eauto.
    - exfalso. destruct Hcl as (l1 & x & l2 & p & q & El & Hp & Hq & Epq). apply (Hap l1 x l2 p q El); [|
        destruct x as [n a]; cbn [fst snd]; unfold data_of in Hq; cbn [fst] in Hq; rewrite (Hran n a) in Hq by (rewrite El; apply in_or_app; right; left; reflexivity); exact Hq|exact Epq].
      assert (Hsub : forall n a, In (n, a) l1 -> data (component_name n) = h_measure h (component_name n) (Some a)) by (intros n a Ha; apply Hran; rewrite El; apply in_or_app; left; exact Ha).
      clear - Hp Hsub. induction l1 as [|[n a] l1 IH]; [exact Hp|]. cbn [flat_map] in *. apply in_app_or in Hp. apply in_or_app. destruct Hp as [Hp|Hp]; [left|right; apply IH; [exact Hp|intros n' a' Hi; apply Hsub; right; exact Hi]].
      unfold data_of in Hp. cbn [fst] in Hp. rewrite (Hsub n a) in Hp by (left; reflexivity). exact Hp. }
  destruct Hget as (w' & d & Hg). exists w'. rewrite Hg. pose proof (C56_get_fresh w i h w' d Hm Hg) as (cs' & F1 & F2 & _).
  assert (cs' = cs). { destruct F1 as (v1 & s1 & X1 & X2 & X3), Hnow as (v2 & s2 & Y1 & Y2 & Y3). assert (v1 = v2) by (eapply current_kwargs_fun; [exact X1|exact Y1]). subst. congruence. } subst cs'. rewrite F2 by exact Hd. reflexivity.
Qed.
Local Open Scope string_scope.
Example C56_succeeds_case : let w := history (world0 true) start0 in let cs := {| valid := true; instrs := [("A", 1); ("B", 1)] |} in
  works hw0 /\ apart (h_measure hw0) cs /\ is_dict cs /\ data_from (h_measure hw0) cs <> [] /\ (forall n a, In (n, a) (instrs cs) -> In (component_name n) (components (w_coord w))) /\ compiled_now w 0 (g_debug (w_gets w 0)) cs.
Proof.
  split; [repeat split; discriminate|]. split.
  - intros l1 x l2 p q E Hp Hq Epq. cbn in E. destruct l1 as [|y [|z l1]]; [destruct Hp| |destruct l1; discriminate E]. injection E as <- <- _. cbn in Hp, Hq. destruct Hp as [<-|[]], Hq as [<-|[]]. discriminate Epq.
  - split; [|split; [discriminate|split]].
    + unfold is_dict. cbn. repeat constructor; cbn; intuition discriminate.
    + intros n a [[= <- <-]|[[= <- <-]|[]]]; vm_compute; auto.
    + exists [("amp", 1)], 1. split; [apply evaluate_ok|split]; vm_compute; reflexivity.
Qed.
