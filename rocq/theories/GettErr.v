(** C56: what happens when something fails, and the diagnostics report *)
From Verif Require Import Base CoordModel CoordProps GettModel GettSpec GettProps GettThms.
Local Open Scope Z_scope.

Definition no_start (l : list event) : Prop := forall c, ~ In (EStart c) l.
Lemma no_start_app a b : no_start a -> no_start b -> no_start (a ++ b).
Proof. intros H1 H2 c Hi. apply in_app_or in Hi. destruct Hi as [Hi|Hi]; [eapply H1|eapply H2]; exact Hi. Qed.
Lemma no_start_map {A} (f : A -> event) l : (forall x c, f x <> EStart c) -> no_start (map f l).
Proof. intros H c Hi. apply in_map_iff in Hi. destruct Hi as (x & Hx & _). eapply H, Hx. Qed.
Lemma prepare_no_start s cs f : no_start (snd (fst (prepare s cs f))).
Proof.
  unfold prepare. destruct (valid cs); cbn [negb]; [|intros c []]. destruct (loop _ (instrs cs)) as [ev e] eqn:E. cbn [fst snd]. intros c Hi.
  assert (Hi' : In (EStart c) (fst (loop (fun '(i, args) => match get_component {| components := components s; compiled := Some cs; last_sched := Some cs |} (component_name i) with | Err e => ([], Some e) | Ok c => on_component (EPrepare c args) (f c) end) (instrs cs)))) by (rewrite E; exact Hi).
  apply (loop_events (fun e => e <> EStart c)) in Hi'; [congruence|]. intros [n a] _ e' He. destruct (get_component _ _); cbn in He; [destruct He as [<-|[]]; discriminate|destruct He].
Qed.
Lemma prepare_components s cs f : components (fst (fst (prepare s cs f))) = components s.
Proof. unfold prepare. destruct (valid cs); cbn [negb]; [|reflexivity]. destruct (loop _ _). reflexivity. Qed.

Local Opaque compile.
(* what initialize can have done, whether it returns or raises *)
Lemma initialize_any i h w w' r : initialize i h w = (w', r) ->
  w_params w' = w_params w /\ w_config w' = w_config w /\ w_reps w' = w_reps w /\ components (w_coord w') = components (w_coord w) /\
  (g_kwargs (w_gets w' i) = g_kwargs (w_gets w i) /\ g_func (w_gets w' i) = g_func (w_gets w i) /\ g_always (w_gets w' i) = g_always (w_gets w i) /\ g_debug (w_gets w' i) = g_debug (w_gets w i)) /\
  (exists l, w_log w' = w_log w ++ l /\ no_start l) /\
  (g_compiled (w_gets w' i) = g_compiled (w_gets w i) \/ exists cs, g_compiled (w_gets w' i) = Some cs /\ compiled_now w i (g_debug (w_gets w i)) cs) /\
  (g_evaluated (w_gets w' i) = g_evaluated (w_gets w i) \/ current_kwargs w (g_kwargs (w_gets w i)) (g_evaluated (w_gets w' i))).
Proof.
  unfold initialize, self, assign, bindM, view, lift. cbn. destruct (evaluate_parameter_dict (w_params w) (g_kwargs (w_gets w i))) as [vals|e] eqn:Ev.
  - apply evaluate_ok in Ev. match goal with |- context [compile i ?W] => set (w1 := W) end. destruct (compile i w1) as [w2 [cs|e]] eqn:Ec.
    + apply compile_ok in Ec. destruct Ec as (s & Hs & Hc & ->). cbn in Hs, Hc. rewrite Nat.eqb_refl in Hs, Hc. cbn in Hs, Hc. assert (Hnow : compiled_now w i (g_debug (w_gets w i)) cs) by (exists vals, s; auto).
      unfold on_coord. cbn. pose proof (prepare_no_start (w_coord w) cs (h_prepare h)) as Hns. pose proof (prepare_components (w_coord w) cs (h_prepare h)) as Hco. destruct (prepare (w_coord w) cs (h_prepare h)) as [[s1 ev1] e1]. cbn in Hns, Hco. destruct e1; cbn; intros [= <- <-]; cbn; rewrite !Nat.eqb_refl; cbn; rewrite ?Nat.eqb_refl; cbn; repeat split; eauto.
    + apply compile_err in Ec. subst w2. intros [= <- <-]. unfold w1. cbn. rewrite Nat.eqb_refl. cbn. repeat split; auto. exists []. rewrite app_nil_r. split; [reflexivity|intros c []].
  - intros [= <- <-]. repeat split; auto. exists []. rewrite app_nil_r. split; [reflexivity|intros c []].
Qed.

Local Transparent compile.
(** ** After a successful get(), no registered component is left running *)
Lemma running_stops c comps tr : In c comps -> running c (tr ++ map EStop comps) = false.
Proof.
  intros Hi. unfold running. rewrite fold_left_app. generalize (fold_left (fun r ev => match ev with EStart c' => if String.eqb c c' then true else r | EStop c' => if String.eqb c c' then false else r | _ => r end) tr false). revert Hi.
  assert (G : forall l b, (b = false \/ In c l) -> fold_left (fun r ev => match ev with EStart c' => if String.eqb c c' then true else r | EStop c' => if String.eqb c c' then false else r | _ => r end) (map EStop l) b = false).
  { induction l as [|x l IH]; intros b H; cbn [map fold_left]; [destruct H as [-> |[]]; reflexivity|]. destruct (String.eqb_spec c x); apply IH; [auto|]. destruct H as [H|[H|H]]; [auto|congruence|auto]. }
  intros Hi b. apply G. auto.
Qed.
Theorem C56_stopped : forall w i h w' d c, get i h w = (w', Ok d) -> In c (components (w_coord w)) -> running c (w_log w') = false.
Proof.
  intros w i h w' d c H Hc. apply get_ok in H. destruct H as (w1 & cs & Hi & _ & _ & -> & _). cbn [add_log w_log]. unfold execution. rewrite !app_assoc. apply running_stops.
  destruct (negb _ || _) in Hi; [apply initialize_ok in Hi; destruct Hi as (? & _ & _ & _ & _ & _ & _ & _ & -> & _); exact Hc|subst w1; exact Hc].
Qed.

(** ** Nothing is started unless the whole current schedule was uploaded: in a get() that initializes, whether it returns or raises and whatever fails *)
Lemma loop_prefix {A} (ev : A -> event) (f : A -> option exn) (P : event -> Prop) : (forall x, P (ev x)) -> forall l, Forall P (fst (loop (fun c => on_component (ev c) (f c)) l)).
Proof. intros H. induction l as [|c l IH]; cbn [loop]; [constructor|]. unfold on_component at 1. destruct (f c); [constructor; [apply H|constructor]|]. destruct (loop _ l). cbn in *. constructor; [apply H|exact IH]. Qed.
Lemma stop_allowing_any s f : (exists e, snd (stop_allowing s f) = Some e /\ no_start (fst (stop_allowing s f))) \/ stop_allowing s f = (map EStop (components s), None).
Proof.
  unfold stop_allowing. pose proof (loop_prefix EStop (fun c => match f c with StopFails e => Some e | _ => None end) (fun e => forall c, e <> EStart c) ltac:(discriminate) (components s)) as H. destruct (loop _ _) as [ev [e|]] eqn:E; [left|right; apply loop_none in E; subst; reflexivity]. exists e. split; [reflexivity|]. intros c Hi. rewrite Forall_forall in H. exact (H _ Hi c eq_refl).
Qed.
Lemma start_any s f cs : compiled s = Some cs -> forall c, In (EStart c) (fst (start s f)) -> used cs c = true /\ In c (components s).
Proof.
  unfold start. intros ->. induction (components s) as [|x l IH]; intros c; cbn [loop]; [intros []|]. rewrite <- (used_mem cs x). destruct (used cs x) eqn:Eu; [unfold on_component at 1; destruct (f x)|]; cbn.
  - intros [[= ->]|[]]. auto.
  - destruct (loop _ l) as [ev e] eqn:E. cbn. intros [[= ->]|Hi]; [auto|]. destruct (IH c Hi). auto.
  - destruct (loop _ l) as [ev e] eqn:E. cbn. intros Hi. destruct (IH c Hi). auto.
Qed.
Lemma retrieve_no_start s f d : no_start (fst (retrieve s f d)).
Proof.
  unfold retrieve. destruct (compiled s) as [cs|]; [|intros c []]. pose proof (loop_prefix EWait (fun _ => None) (fun e => forall c, e <> EStart c) ltac:(discriminate) (components s)) as H. unfold wait_done. destruct (loop _ _) as [ev [e|]]; cbn [fst] in *; [intros c Hi; rewrite Forall_forall in H; exact (H _ Hi c eq_refl)|].
  pose proof (gather_events s f d (instrs cs) []) as Hg. destruct (gather _ _ _ _ _) as [ev2 r]. cbn [fst] in *. apply no_start_app; [intros c Hi; rewrite Forall_forall in H; exact (H _ Hi c eq_refl)|]. intros c Hi. apply Hg in Hi. destruct Hi. discriminate.
Qed.
Definition after_init (i : nat) (h : hw) : M dataset :=
  run g <- self i;;
  match g_compiled g with
  | None => raise RuntimeError
  | Some _ =>
      on_coord (fun s => let '(ev, e) := start s (h_start h) in (s, ev, outcome e));;;
      run log <- view w_log;;
      run d <- on_coord (fun s => let '(ev, r) := retrieve s (h_retrieve h) (fun c => h_measure h c (ran c log)) in (s, ev, r));;
      on_coord (fun s => let '(ev, e) := stop s (h_stop h) in (s, ev, outcome e));;;
      match d with [] => raise RuntimeError | _ => ret d end
  end.
(* the second half of get: only the log changes, and only components of the prepared schedule are started *)
Lemma after_init_any i h w w' r : after_init i h w = (w', r) -> exists l, w' = add_log w l /\ forall c, In (EStart c) l -> exists cs, compiled (w_coord w) = Some cs /\ used cs c = true /\ In c (components (w_coord w)).
Proof.
  unfold after_init, self, bindM, view, on_coord. cbn. destruct (g_compiled (w_gets w i)) as [c0|]; [|unfold raise; intros [= <- <-]; exists []; unfold add_log; rewrite app_nil_r; destruct w; split; [reflexivity|intros c []]].
  assert (Hst : forall c, In (EStart c) (fst (start (w_coord w) (h_start h))) -> exists cs, compiled (w_coord w) = Some cs /\ used cs c = true /\ In c (components (w_coord w))).
  { intros c Hi. destruct (compiled (w_coord w)) as [cs|] eqn:Ec; [exists cs; split; [reflexivity|eapply start_any; eassumption]|]. unfold start in Hi. rewrite Ec in Hi. destruct Hi. }
  destruct (start (w_coord w) (h_start h)) as [ev1 [e1|]]; cbn [outcome fst] in *; [intros [= <- <-]; exists ev1; split; [reflexivity|exact Hst]|]. cbn.
  match goal with |- context [retrieve (w_coord w) ?F ?D] => pose proof (retrieve_no_start (w_coord w) F D) as Hr; destruct (retrieve (w_coord w) F D) as [ev2 [d|e2]] end; cbn [fst] in Hr.
  - pose proof (loop_prefix EStop (h_stop h) (fun e => forall c, e <> EStart c) ltac:(discriminate) (components (w_coord w))) as Hs. unfold stop. destruct (loop _ _) as [ev3 e3]. cbn [fst] in Hs. intros H. exists (ev1 ++ ev2 ++ ev3). split.
    + unfold add_log. rewrite !app_assoc. destruct e3 as [e3|]; cbn [outcome] in H; [injection H as <- <-; reflexivity|]. destruct d; unfold raise, ret in H; injection H as <- <-; reflexivity.
    + intros c Hi. apply in_app_or in Hi. destruct Hi as [Hi|Hi]; [auto|]. apply in_app_or in Hi. destruct Hi as [Hi|Hi]; [destruct (Hr c Hi)|]. rewrite Forall_forall in Hs. destruct (Hs _ Hi c eq_refl).
  - intros [= <- <-]. exists (ev1 ++ ev2). split; [unfold add_log; rewrite app_assoc; reflexivity|]. intros c Hi. apply in_app_or in Hi. destruct Hi as [Hi|Hi]; [auto|destruct (Hr c Hi)].
Qed.
Lemma get_split i h w : get i h w = match stop_allowing (w_coord w) (h_stop0 h) with
  | (ev, Some e) => (add_log w ev, Err e)
  | (ev, None) => let w0 := add_log w ev in if negb (g_inited (w_gets w i)) || g_always (w_gets w i) then match initialize i h w0 with (w1, Ok _) => after_init i h w1 | (w1, Err e) => (w1, Err e) end else after_init i h w0 end.
Proof.
  unfold get, after_init. unfold on_coord at 1. unfold bindM at 1. destruct (stop_allowing (w_coord w) (h_stop0 h)) as [ev [e|]]; cbn [outcome]; [reflexivity|]. fold (add_log w ev). cbn zeta. unfold self at 1, view at 1, bindM at 1. cbv beta iota. change (w_gets (add_log w ev) i) with (w_gets w i).
  unfold bindM at 1. destruct (negb _ || _); [|reflexivity]. destruct (initialize i h (add_log w ev)) as [w1 [[]|e]]; reflexivity.
Qed.
Theorem C56_start_needs_upload : forall w i h w' r, g_always (w_gets w i) = true \/ g_inited (w_gets w i) = false -> get i h w = (w', r) ->
  exists l, w_log w' = w_log w ++ l /\ (no_start l \/ exists cs rest, compiled_now w i (g_debug (w_gets w i)) cs /\ l = map EStop (components (w_coord w)) ++ upload cs ++ rest /\ forall c, In (EStart c) rest -> used cs c = true /\ In c (components (w_coord w))).
Proof.
  intros w i h w' r Hm H. rewrite get_split in H. replace (negb (g_inited (w_gets w i)) || g_always (w_gets w i))%bool with true in H by (destruct Hm as [-> | ->]; [rewrite orb_true_r|]; reflexivity).
  destruct (stop_allowing_any (w_coord w) (h_stop0 h)) as [(e & He & Hn)|E].
  - destruct (stop_allowing _ _) as [ev o]. cbn in He, Hn. subst o. injection H as <- <-. exists ev. split; [reflexivity|left; exact Hn].
  - rewrite E in H. cbn zeta in H. destruct (initialize i h _) as [w1 [[]|e]] eqn:Ei.
    + apply initialize_ok in Ei. destruct Ei as (cs & I1 & I2 & I3 & I4 & I5 & I6 & I7 & I8 & I9 & I10 & _). apply after_init_any in H. destruct H as (l & -> & Hl). cbn [add_log w_log w_coord] in *. rewrite I9, <- !app_assoc. eexists. split; [reflexivity|]. right. exists cs, l. split; [exact I1|]. split; [reflexivity|].
      intros c Hc. destruct (Hl c Hc) as (cs' & E1 & E2 & E3). rewrite I7 in E1. injection E1 as <-. rewrite I8 in E3. auto.
    + injection H as <- <-. apply initialize_any in Ei. destruct Ei as (_ & _ & _ & _ & _ & (l & El & Hl) & _). cbn [add_log w_log] in El. rewrite El, <- app_assoc. eexists. split; [reflexivity|]. left. apply no_start_app; [apply no_start_map; discriminate|exact Hl].
Qed.

(** ** A parameter without a value: get() raises TypeError; the components have only been stopped, and neither the gettable nor the coordinator has changed *)
Theorem C56_params_none : forall w i h, g_always (w_gets w i) = true \/ g_inited (w_gets w i) = false -> (forall c e, h_stop0 h c <> StopFails e) ->
  (forall k p, In (k, Param p) (g_kwargs (w_gets w i)) -> exists v, w_params w p = Ok v) -> (exists k p, In (k, Param p) (g_kwargs (w_gets w i)) /\ w_params w p = Ok None) ->
  get i h w = (add_log w (map EStop (components (w_coord w))), Err TypeError).
Proof.
  intros w i h Hm Hs Hok (k & p & Hi & Hp). rewrite get_split. replace (negb (g_inited (w_gets w i)) || g_always (w_gets w i))%bool with true by (destruct Hm as [-> | ->]; [rewrite orb_true_r|]; reflexivity).
  assert (E : stop_allowing (w_coord w) (h_stop0 h) = (map EStop (components (w_coord w)), None)).
  { unfold stop_allowing. induction (components (w_coord w)) as [|c l IH]; [reflexivity|]. cbn [loop]. unfold on_component at 1. destruct (h_stop0 h c) as [| |e] eqn:Ec; [| |destruct (Hs c e Ec)]; rewrite IH; reflexivity. }
  rewrite E. cbn zeta. assert (Ev : evaluate_parameter_dict (w_params w) (g_kwargs (w_gets w i)) = Err TypeError).
  { clear - Hok Hi Hp. unfold evaluate_parameter_dict. revert Hok Hi. induction (g_kwargs (w_gets w i)) as [|[k' v] kw IH]; intros Hok Hi; [destruct Hi|]. cbn [mapM]. destruct v as [x|q].
    - destruct Hi as [Hi|Hi]; [discriminate Hi|]. cbn [bind]. rewrite IH; [reflexivity|intros k0 p0 H0; eapply Hok; right; exact H0|exact Hi].
    - destruct (Hok k' q (or_introl eq_refl)) as [[v|] Hv]; rewrite Hv; cbn [bind]; [|reflexivity]. destruct Hi as [Hi|Hi]; [injection Hi as <- <-; congruence|]. rewrite IH; [reflexivity|intros k0 p0 H0; eapply Hok; right; exact H0|exact Hi]. }
  unfold initialize, self, view, bindM, lift. cbn. rewrite Ev. reflexivity.
Qed.

(** ** The diagnostics report *)
Lemma get_any i h w w' r : get i h w = (w', r) -> g_debug (w_gets w' i) = g_debug (w_gets w i) /\ g_func (w_gets w' i) = g_func (w_gets w i) /\ w_reps w' = w_reps w /\
  (g_compiled (w_gets w' i) = g_compiled (w_gets w i) \/ exists cs, g_compiled (w_gets w' i) = Some cs /\ compiled_now w i (g_debug (w_gets w i)) cs) /\
  (g_evaluated (w_gets w' i) = g_evaluated (w_gets w i) \/ current_kwargs w (g_kwargs (w_gets w i)) (g_evaluated (w_gets w' i))).
Proof.
  rewrite get_split. destruct (stop_allowing _ _) as [ev [e|]]; [intros [= <- <-]; repeat split; auto|]. cbn zeta. destruct (negb _ || _).
  - destruct (initialize i h (add_log w ev)) as [w1 r1] eqn:Ei. apply initialize_any in Ei. destruct Ei as (_ & _ & I3 & _ & (_ & K2 & _ & K4) & _ & I7 & I8). cbn [add_log w_gets w_reps] in *. change (compiled_now (add_log w ev)) with (compiled_now w) in I7. change (current_kwargs (add_log w ev)) with (current_kwargs w) in I8. destruct r1 as [[]|e]; [intros H|intros [= <- <-]; auto].
    apply after_init_any in H. destruct H as (l & -> & _). auto.
  - intros H. apply after_init_any in H. destruct H as (l & -> & _). repeat split; auto.
Qed.
Lemma current_kwargs_fun w kw v1 v2 : current_kwargs w kw v1 -> current_kwargs w kw v2 -> v1 = v2.
Proof. intros H1 H2. apply evaluate_ok in H1, H2. congruence. Qed.

(** a report: the compiled schedule in it, if any, is compiled from the values, repetitions and configuration of now (never one of an earlier call), the data, if any, are those of that schedule,
    and unless the initialization failed, the keyword arguments are the current values and the schedule is the one that was compiled *)
Theorem C56_report : forall w i h w' rep, with_report i h w = (w', Ok rep) ->
  (forall cs, r_compiled rep = Some cs -> compiled_now w i true cs) /\
  (forall d, r_data rep = Some d -> exists cs, r_compiled rep = Some cs /\ (is_dict cs -> d = data_from (h_measure h) cs)) /\
  (r_type rep <> failed_initialization -> current_kwargs w (g_kwargs (w_gets w i)) (r_kwargs rep) /\ r_reps rep = w_reps w /\
     exists cs, r_compiled rep = Some cs /\ g_func (w_gets w i) (r_kwargs rep) (r_reps rep) = Ok (r_schedule rep) /\ w_config w true (r_schedule rep) = Ok cs) /\
  (r_type rep = failed_initialization -> r_data rep = None /\ r_error rep <> None /\ exists l, w_log w' = w_log w ++ l /\ no_start l) /\
  ((r_type rep = completed_exp \/ r_type rep = failed_hw_log_retrieval) <-> r_data rep <> None) /\ (r_data rep = None <-> r_error rep <> None) /\
  ((r_type rep = completed_exp \/ r_type rep = failed_exp) -> h_logs h = true) /\ ((r_type rep = failed_connection_to_hw \/ r_type rep = failed_hw_log_retrieval) -> h_logs h = false).
Proof.
  intros w i h w' rep H. unfold with_report in H. apply bindM_ok in H. destruct H as (w1 & [] & E & H). cbn in E. injection E as <-. apply bindM_ok in H. destruct H as (w1 & [] & E & H). cbn in E. injection E as <-.
  match type of H with _ ?W = _ => set (w0 := W) in H end.
  assert (Hnow : forall cs, compiled_now w0 i true cs <-> compiled_now w i true cs) by (intros cs; unfold compiled_now, w0; cbn; rewrite !Nat.eqb_refl; reflexivity).
  assert (G0 : g_debug (w_gets w0 i) = true /\ g_compiled (w_gets w0 i) = None /\ g_kwargs (w_gets w0 i) = g_kwargs (w_gets w i) /\ g_func (w_gets w0 i) = g_func (w_gets w i)) by (unfold w0; cbn; rewrite !Nat.eqb_refl; repeat split).
  destruct G0 as (D0 & C0 & K0 & F0). apply bindM_ok in H. destruct H as (w1 & init & E & H). unfold attempt in E. destruct (initialize i h w0) as [wi ri] eqn:Ei. injection E as <- <-.
  pose proof Ei as Ei'. apply initialize_any in Ei'. destruct Ei' as (A1 & A2 & A3 & A4 & (A5 & A6 & A7 & A8) & A9 & A10 & A11). rewrite D0, ?C0 in *. rewrite K0 in *. rewrite F0 in *.
  destruct ri as [[]|e].
  - apply initialize_ok in Ei. destruct Ei as (cs & I1 & I2 & I3 & I4 & I5 & I6 & I7 & I8 & I9 & I10 & I11 & I12 & I13). rewrite D0 in I1. rewrite K0 in I4.
    apply bindM_ok in H. destruct H as (w2 & data & E & H). unfold attempt in E. destruct (get i h wi) as [wg rg] eqn:Eg. injection E as <- <-. apply bindM_ok in H. destruct H as (w2 & g & E & H). apply view_ok in E. destruct E as [-> ->]. apply bindM_ok in H. destruct H as (w2 & reps & E & H). apply view_ok in E. destruct E as [-> ->].
    apply bindM_ok in H. destruct H as (w2 & s & E & H). apply lift_ok in E. destruct E as [-> Es]. unfold ret in H. injection H as <- <-. cbn [r_type r_kwargs r_reps r_schedule r_compiled r_data r_error].
    pose proof Eg as Eg'. apply get_any in Eg'. destruct Eg' as (B1 & B2 & B3 & B4 & B5). rewrite A5 in B5. change (current_kwargs wi) with (fun kw v => current_kwargs wi kw v) in B5.
    assert (Hcur : forall kw v, current_kwargs wi kw v <-> current_kwargs w kw v) by (intros kw v; unfold current_kwargs; rewrite A1; reflexivity).
    assert (Hev : current_kwargs w (g_kwargs (w_gets w i)) (g_evaluated (w_gets wg i))) by (destruct B5 as [B5|B5]; [rewrite B5; apply I4|apply Hcur; exact B5]).
    assert (Hnow' : forall cs, compiled_now wi i true cs <-> compiled_now w i true cs).
    { intros cs'. rewrite <- Hnow. unfold compiled_now. rewrite A5, A6, A2, A3, K0, F0. split; intros (vals & s' & H1 & H2 & H3); exists vals, s'; (split; [|split]; [|exact H2|exact H3]); [apply Hcur in H1; exact H1|apply Hcur; exact H1]. }
    assert (Hc : exists c, g_compiled (w_gets wg i) = Some c /\ compiled_now w i true c).
    { rewrite A8 in B4. destruct B4 as [B4|(c & B4 & B4')]; [exists cs; rewrite B4, I6; split; [reflexivity|apply Hnow, I1]|exists c; split; [exact B4|apply Hnow', B4']]. }
    destruct Hc as (c & Hc & Hcn). rewrite Hc.
    split; [intros cs' [= <-]; exact Hcn|]. split; [|split; [|split; [|split; [|split; [|split]]]]].
    + intros d Hd. destruct rg as [d'|]; [|discriminate Hd]. injection Hd as ->. exists c. split; [reflexivity|]. intros Hn. pose proof Eg as Eg2. apply get_ok in Eg. destruct Eg as (wx & cx & X1 & X2 & X3 & -> & X5 & X6 & X7). cbn [add_log w_gets] in Hc. cbn zeta in X1. rewrite I5 in X1. cbn [negb orb] in X1.
      destruct (g_always (w_gets wi i)) eqn:Eal.
      * apply C56_get_fresh in Eg2; [|auto]. destruct Eg2 as (cz & Z1 & Z2 & _ & _ & _ & Z6 & _). cbn [add_log w_gets] in Z6. assert (cz = c) by congruence. subst cz. auto.
      * subst wx. cbn [add_log w_gets] in Hc. rewrite I6 in Hc. injection Hc as <-. eapply holding_get; [|exact Eg2]. unfold holding. rewrite I5, Eal, I6, I7, I9. repeat split; auto; [discriminate|]. intros n a Hia. apply loaded_prepares; assumption.
    + intros _. split; [exact Hev|]. rewrite B3, A3. split; [reflexivity|]. exists c. split; [reflexivity|]. destruct Hcn as (vals & s' & N1 & N2 & N3). assert (vals = g_evaluated (w_gets wg i)) by (eapply current_kwargs_fun; eassumption). subst vals.
      unfold call_function in Es. destruct (existsb _ _); [discriminate Es|]. rewrite B2, A6, B3, A3 in Es. change (w_reps w0) with (w_reps w) in *. rewrite N2 in Es. injection Es as <-. split; [exact N2|exact N3].
    + intros Hf. destruct rg; destruct (h_logs h); discriminate Hf.
    + destruct rg; destruct (h_logs h); split; intros Hx; try discriminate; auto; try (destruct Hx as [Hx|Hx]; discriminate Hx); exfalso; apply Hx; reflexivity.
    + destruct rg; split; intros Hx; try discriminate; try reflexivity. exfalso; apply Hx; reflexivity.
    + destruct rg; destruct (h_logs h); intros [Hx|Hx]; try discriminate Hx; reflexivity.
    + destruct rg; destruct (h_logs h); intros [Hx|Hx]; try discriminate Hx; reflexivity.
  - apply bindM_ok in H. destruct H as (w2 & data & E & H). unfold ret in E. injection E as <- <-. apply bindM_ok in H. destruct H as (w2 & g & E & H). apply view_ok in E. destruct E as [-> ->]. apply bindM_ok in H. destruct H as (w2 & reps & E & H). apply view_ok in E. destruct E as [-> ->].
    apply bindM_ok in H. destruct H as (w2 & s & E & H). apply lift_ok in E. destruct E as [-> Es]. unfold ret in H. injection H as <- <-. cbn [r_type r_kwargs r_reps r_schedule r_compiled r_data r_error].
    split; [intros cs Hcs; destruct A10 as [A10|(c & A10 & A10')]; [congruence|]; rewrite A10 in Hcs; injection Hcs as <-; apply Hnow, A10'|].
    split; [intros d Hd; discriminate Hd|]. split; [intros Hx; destruct (Hx eq_refl)|]. split; [intros _; split; [reflexivity|]; split; [discriminate|]; exact A9|].
    split; [split; [intros [Hx|Hx]; discriminate Hx|intros Hx; destruct (Hx eq_refl)]|]. split; [split; [discriminate|reflexivity]|]. split; intros [Hx|Hx]; discriminate Hx.
Qed.
