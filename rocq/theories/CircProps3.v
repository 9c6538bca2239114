(** C40: nothing is left at the gate level; compiling again changes nothing; shared operations. *)
From Verif Require Import Base TimingModel TableModel CircModel CircSpec CircProps CircProps2.
From Coq Require Import List Arith Lia.
Open Scope string_scope.
Open Scope list_scope.
Open Scope Q_scope.

Section ind.
  Variable P : gop -> Prop.
  Hypothesis HL : forall id l, P (GLeaf id l).
  Hypothesis HA : forall c d, P (GAsm c d).
  Hypothesis HLo : forall n b, P b -> P (GLoop n b).
  Hypothesis HC : forall u b, P b -> P (GCond u b).
  Hypothesis HP : forall e m g r b, P b -> P (GComp e m g r b).
  Hypothesis HS : forall own d r n ops ss, Forall (fun x => P (snd x)) ops -> P (GSched own d r n ops ss).
  Fixpoint gop_ind' (o : gop) : P o :=
    match o with
    | GLeaf id l => HL id l
    | GAsm c d => HA c d
    | GLoop n b => HLo n b (gop_ind' b)
    | GCond u b => HC u b (gop_ind' b)
    | GComp e m g r b => HP e m g r b (gop_ind' b)
    | GSched own d r n ops ss => HS own d r n ops ss ((fix go (l : list (string * gop)) : Forall (fun x => P (snd x)) l := match l with [] => Forall_nil _ | x :: r => @Forall_cons _ (fun x => P (snd x)) x r (gop_ind' (snd x)) (go r) end) ops)
    end.
End ind.

(** ** Nothing is left at the gate level *)
Lemma within_trans o x y : Within o x -> Within x y -> Within o y.
Proof. induction 1; intros Hy; [exact Hy| | | |]; try (constructor; auto; fail). eapply W_sched; [eassumption|auto]. Qed.
Lemma device_level_sched own d r n ops ss : (forall k x, In (k, x) ops -> device_level x) <-> device_level (GSched own d r n ops ss).
Proof.
  split.
  - intros H x Hx. inversion Hx; subst; [exact I|]. eapply H; eassumption.
  - intros H k x Hk y Hy. apply H. eapply W_sched; eassumption.
Qed.
Lemma extended_nonempty l devs : (exists d id x, In d devs /\ d = GLeaf id x /\ ~ empty x) -> ~ empty (extended l devs).
Proof.
  intros (d & id & x & Hin & -> & Hx) [Hp Ha]. cbn in Hp, Ha. apply app_eq_nil in Hp, Ha. destruct Hp as [_ Hp], Ha as [_ Ha]. apply Hx. split.
  - destruct (pulses x) as [|p ps] eqn:E; [reflexivity|]. exfalso. assert (Hi : In p (flat_map (fun d => fst (info_of d)) devs)) by (apply in_flat_map; eexists; split; [exact Hin|]; cbn; rewrite E; left; reflexivity). rewrite Hp in Hi. exact Hi.
  - destruct (acqs x) as [|p ps] eqn:E; [reflexivity|]. exfalso. assert (Hi : In p (flat_map (fun d => snd (info_of d)) devs)) by (apply in_flat_map; eexists; split; [exact Hin|]; cbn; rewrite E; left; reflexivity). rewrite Ha in Hi. exact Hi.
Qed.
Lemma without_delay_level o : device_level o -> device_level (without_delay o).
Proof. destruct o; try (intros H; exact H). cbn. intros H. rewrite <- device_level_sched in H |- *. exact H. Qed.
Lemma inner_level parts : (forall p, In p parts -> device_level p) -> device_level (inner_schedule parts).
Proof.
  intros H. apply device_level_sched. intros k x Hx. apply in_combine_r in Hx. apply in_map_iff in Hx. destruct Hx as (p & <- & Hp). apply without_delay_level, H, Hp.
Qed.
Lemma leaf_level id l : ~ empty l -> device_level (GLeaf id l).
Proof. intros H x Hx. inversion Hx; subst. exact H. Qed.
(** If every factory makes pulses, acquisitions or a schedule, and every gate names an element, then the compiled circuit contains no gate-level operation at any depth. *)
Theorem C40_device_level : forall cfg over o o', productive cfg -> gates_act o -> Device cfg over o o' -> device_level o'.
Proof.
  intros cfg over o o' Hp Ho HD.
  enough (HH : (forall over o o', Device cfg over o o' -> gates_act o -> device_level o') /\
    (forall over ops ops', DeviceOps cfg over ops ops' -> (forall k x, In (k, x) ops -> gates_act x) -> forall k x, In (k, x) ops' -> device_level x) /\
    (forall over id l g dev o', Becomes cfg over id l g dev o' -> (is_schedule dev /\ gates_act dev) \/ (exists id l, dev = GLeaf id l /\ ~ empty l) -> device_level o') /\
    (forall over g i qs plain subs, Parts cfg over g i qs plain subs -> (forall p, In p plain -> exists id l, p = GLeaf id l /\ ~ empty l) /\ (forall s, In s subs -> device_level s) /\ (qs <> [] -> plain <> [] \/ subs <> []))).
  { destruct HH as [HH _]. eapply HH; eassumption. }
  clear HD Ho o o' over. apply (Device_mut cfg).
  - intros over own d r n ops ops' ss _ IH Ho. apply device_level_sched. apply IH. intros k x Hk id l g Hx. apply (Ho id l g). eapply W_sched; eassumption.
  - intros over n b b' _ IH Ho x Hx. inversion Hx; subst; [exact I|]. eapply IH; [|eassumption]. intros id l g Hl. apply (Ho id l g), W_loop, Hl.
  - intros over n b b' _ IH Ho x Hx. inversion Hx; subst; [exact I|]. eapply IH; [|eassumption]. intros id l g Hl. apply (Ho id l g), W_cond, Hl.
  - intros over qs m g r b b' max grid rate _ _ IH Ho x Hx. inversion Hx; subst; [exact I|]. eapply IH; [|eassumption]. intros id l g' Hl. apply (Ho id l g'), W_comp, Hl.
  - intros over m g r b b' _ IH Ho x Hx. inversion Hx; subst; [exact I|]. eapply IH; [|eassumption]. intros id l g' Hl. apply (Ho id l g'), W_comp, Hl.
  - intros over c d _ x Hx. inversion Hx; subst. exact I.
  - intros over id l Hl _. apply leaf_level, Hl.
  - intros over id l g q c dev o' _ _ _ Hon (f & kw & Hf & _ & _ & E) _ IH _. apply IH. eapply Hp; [eapply on_element_configured, Hon|exact Hf|exact E].
  - intros over id l g a b el c dev o' _ _ _ _ _ Hon (f & kw & Hf & _ & _ & E) _ IH _. apply IH. eapply Hp; [eapply on_edge_configured, Hon|exact Hf|exact E].
  - intros over id l g plain subs He Hg _ _ _ (I1 & I2 & I3) Ho. assert (Hl : plain <> [] -> device_level (GLeaf id (extended l plain))).
    { intros Hne. apply leaf_level. apply extended_nonempty. destruct plain as [|p plain]; [contradiction|]. destruct (I1 p (or_introl eq_refl)) as (i & x & -> & Hx). eexists _, i, x. split; [left; reflexivity|auto]. }
    specialize (Ho id l g (W_self _) He Hg). destruct subs as [|s subs]; [destruct (I3 Ho) as [H|H]; [apply Hl, H|contradiction]|].
    apply inner_level. intros p Hin. apply in_app_or in Hin. destruct Hin as [Hin|Hin]; [|apply I2, Hin]. destruct plain as [|x plain]; [destruct Hin|]. destruct Hin as [<-|[]]. apply Hl. discriminate.
  - intros over _ k x [].
  - intros over k x x' r r' _ IH1 _ IH2 Ho k0 y [Hy|Hy]; [injection Hy as <- <-; apply IH1; eapply Ho; left; reflexivity|eapply IH2; [|exact Hy]; intros k1 z Hz; eapply Ho; right; exact Hz].
  - intros over id l g dev o' Hs _ IH [[_ Hd]|(i & x & -> & _)]; [apply IH, Hd|]. destruct Hs as (? & ? & ? & ? & ? & ? & ?). discriminate.
  - intros over id l g dev Hs [[Hd _]|(i & x & -> & Hx)]; [contradiction|]. apply leaf_level, extended_nonempty. eexists _, i, x. split; [left; reflexivity|auto].
  - intros over g i. split; [intros p []|]. split; [intros s []|]. intros H. contradiction.
  - intros over g i q qs c dev plain subs Hon (f & kw & Hf & _ & _ & E) Hs _ (I1 & I2 & _). split; [|split; [exact I2|intros _; left; discriminate]]. intros p [<-|Hin]; [|apply I1, Hin]. destruct (Hp c f kw dev (on_element_configured _ _ _ _ Hon) Hf E) as [[H _]|H]; [contradiction|exact H].
  - intros over g i q qs c dev o' plain subs Hon (f & kw & Hf & _ & _ & E) Hs _ IH _ (I1 & I2 & _). split; [exact I1|]. split; [|intros _; right; discriminate]. intros s [<-|Hin]; [|apply I2, Hin]. apply IH. destruct (Hp c f kw dev (on_element_configured _ _ _ _ Hon) Hf E) as [[_ H]|(i0 & x & -> & _)]; [exact H|]. destruct Hs as (? & ? & ? & ? & ? & ? & ?). discriminate.
Qed.
(** Compiling a device-level circuit again, with any configuration and overrides, changes nothing. *)
Theorem C40_idempotent : forall cfg over o, device_level o -> Device cfg over o o.
Proof.
  intros cfg over o. revert over. induction o as [id l|c d|n b IH|u b IH|e m g r b IH|own d r n ops ss IH] using gop_ind'; intros over H.
  - apply D_done. exact (H _ (W_self _)).
  - constructor.
  - constructor. apply IH. intros x Hx. apply H, W_loop, Hx.
  - constructor. apply IH. intros x Hx. apply H, W_cond, Hx.
  - destruct e as [qs|]; [destruct (H _ (W_self _))|]. constructor. apply IH. intros x Hx. apply H, W_comp, Hx.
  - constructor. rewrite <- device_level_sched in H. revert H. induction IH as [|[k x] ops Hx _ IHo]; intros H; constructor.
    + apply Hx. eapply H. left. reflexivity.
    + apply IHo. intros k' y Hy. eapply H. right. exact Hy.
Qed.

(** ** Shared operations *)
Lemma merged_nil {A} (d : dict A) : merged [] d = d.
Proof. unfold merged. cbn [replaced map app]. induction d as [|[k v] d IH]; [reflexivity|]. cbn [filter]. cbn. f_equal. exact IH. Qed.
Section shared.
  Variables (cfg : devcfg) (over : dict val) (root : gop).
  Hypothesis Hu : unordered cfg.
  Hypothesis Hc : consistent root.
  Hypothesis Hm : unmixed cfg over root.
  Hypothesis Ho : no_schedule_overrides root.
  (** what is known of an operation that has been reached: it is unchanged, or it is the compiled operation *)
  Definition reached (st : store) : Prop := forall i l', current st i = Some l' -> exists l, Within root (GLeaf (Some i) l) /\ empty l /\ (l' = l \/ Device cfg over (GLeaf (Some i) l) (GLeaf (Some i) l')).
  Lemma c2d_sched f ov dev o' : is_sched dev = true -> c2d f cfg ov dev = Ok o' -> is_sched o' = true.
  Proof. destruct dev; try discriminate. intros _. destruct f; [discriminate|]. cbn [c2d]. destruct (mapM _ ops); [|discriminate]. intros [= <-]. reflexivity. Qed.
  Lemma attach_data f ov id l dev o' : attach (c2d f cfg) ov id l dev = Ok o' -> (match o' with GLeaf _ l' => l' | _ => l end) = l \/ o' = GLeaf id (match o' with GLeaf _ l' => l' | _ => l end).
  Proof. unfold attach. destruct (is_sched dev) eqn:E; [|intros [= <-]; right; reflexivity]. intros H. apply c2d_sched in H; [|exact E]. destruct o'; try discriminate. left. reflexivity. Qed.
  (** the data of the operation after compiling it *)
  Lemma gate_data fuel i l r : Within root (GLeaf (Some i) l) -> empty l -> gate_to_device (c2d fuel cfg) cfg over (Some i) l = Ok r -> snd r = l \/ fst r = GLeaf (Some i) (snd r).
  Proof.
    intros Hw He E. pose proof E as E0. unfold gate_to_device in E. destruct (l_gate l) as [g|] eqn:Hg; [|discriminate].
    assert (HM : multiplexed (c2d fuel cfg) cfg (merged (own_overrides g) over) (Some i) l g = Ok r -> snd r = l \/ fst r = GLeaf (Some i) (snd r)).
    { unfold multiplexed. destruct (mux (c2d fuel cfg) cfg _ g 0 (elems g) l false []) as [[[l' flag] subs]|] eqn:Em; [|discriminate]. cbn [bind]. destruct (mux_sound _ _ _ _ (fun ov x y => C40_sound fuel cfg ov x y) _ _ _ _ _ _ _ _ Em) as (plain & new & P & -> & Hs & ->). cbn [app] in Hs. subst new. destruct subs as [|s subs]; intros [= <-]; cbn [fst snd]; [right; reflexivity|]. left. destruct (Hm i l g plain (s :: subs) Hw He Hg P) as [->|]; [apply extended_nil|discriminate]. }
    assert (HS : forall x, (do o <- x; Ok (o, match o with GLeaf _ l' => l' | _ => l end)) = Ok r -> (forall o', x = Ok o' -> (match o' with GLeaf _ l' => l' | _ => l end) = l \/ o' = GLeaf (Some i) (match o' with GLeaf _ l' => l' | _ => l end)) -> snd r = l \/ fst r = GLeaf (Some i) (snd r)).
    { intros x Ex H. destruct x as [o'|]; [|discriminate]. cbn [bind] in Ex. injection Ex as <-. cbn [fst snd]. apply H. reflexivity. }
    destruct (elems g) as [|a [|b [|c rest]]].
    - exact (HM E).
    - eapply HS; [exact E|]. intros o' Eo. unfold single in Eo. repeat match type of Eo with bind ?e _ = _ => destruct e; [|discriminate]; cbn [bind] in Eo end. eapply attach_data, Eo.
    - destruct (index (elements cfg) a) as [el|]; [|discriminate]. cbn [bind] in E. destruct (has el (gtype g)); [exact (HM E)|]. eapply HS; [exact E|]. intros o' Eo. unfold two in Eo. repeat match type of Eo with bind ?e _ = _ => destruct e; [|discriminate]; cbn [bind] in Eo end. eapply attach_data, Eo.
    - exact (HM E).
  Qed.
  Lemma extended_empty l devs : empty l -> empty (extended l devs) -> extended l devs = l.
  Proof. intros [H1 H2] [H3 H4]. destruct l as [g p a], (extended {| l_gate := g; pulses := p; acqs := a |} devs) as [g' p' a'] eqn:E. cbn in *. subst. injection E as <- _ _. reflexivity. Qed.
  Lemma device_leaf_empty i l l' : empty l -> Device cfg over (GLeaf (Some i) l) (GLeaf (Some i) l') -> empty l' -> l' = l.
  Proof.
    intros He D He'. inversion D; subst.
    - reflexivity.
    - match goal with H : Becomes _ _ _ _ _ _ _ |- _ => inversion H; subst end; [|apply extended_empty; assumption]. match goal with H : is_schedule _ |- _ => destruct H as (? & ? & ? & ? & ? & ? & ->) end. match goal with H : Device _ _ (GSched _ _ _ _ _ _) _ |- _ => inversion H end.
    - match goal with H : Becomes _ _ _ _ _ _ _ |- _ => inversion H; subst end; [|apply extended_empty; assumption]. match goal with H : is_schedule _ |- _ => destruct H as (? & ? & ? & ? & ? & ? & ->) end. match goal with H : Device _ _ (GSched _ _ _ _ _ _) _ |- _ => inversion H end.
    - destruct subs; [|match goal with H : inner_schedule _ = _ |- _ => discriminate H end]. match goal with H : GLeaf _ _ = GLeaf _ _ |- _ => injection H as H end. subst. apply extended_empty; assumption.
  Qed.
  Lemma reached_put i l r fuel st : Within root (GLeaf (Some i) l) -> empty l -> gate_to_device (c2d fuel cfg) cfg over (Some i) l = Ok r -> reached st -> reached ((i, snd r) :: st).
  Proof.
    intros Hw He E R j l' Ej. cbn [current] in Ej. destruct (Nat.eqb_spec i j) as [<-|_]; [|apply R, Ej]. injection Ej as <-. exists l. split; [exact Hw|]. split; [exact He|]. destruct (gate_data _ _ _ _ Hw He E) as [H|H]; [left; exact H|right]. rewrite <- H. eapply gate_sound; [|exact He|exact E]. intros ov x y. apply C40_sound.
  Qed.
  Lemma leaf_obj fuel st id l o' st' : Within root (GLeaf id l) -> reached st -> c2d_obj fuel cfg over st (GLeaf id l) = Ok (o', st') -> Device cfg over (GLeaf id l) o' /\ reached st'.
  Proof.
    intros Hw R. cbn [c2d_obj].
    set (cur := match id with Some i => match current st i with Some x => x | None => l end | None => l end). intros E.
    assert (Hcur : cur = l \/ exists i, id = Some i /\ empty l /\ Device cfg over (GLeaf (Some i) l) (GLeaf (Some i) cur)).
    { subst cur. destruct id as [i|]; [|left; reflexivity]. destruct (current st i) as [x|] eqn:Ex; [|left; reflexivity]. destruct (R i x Ex) as (y & Hy & He & Hd). rewrite (Hc i l y Hw Hy). destruct Hd as [->|Hd]; [left; reflexivity|right; eauto]. }
    destruct (empty_dec cur) as [Hec|Hec].
    - assert (Hl : cur = l) by (destruct Hcur as [H|(i & -> & He & Hd)]; [exact H|eapply device_leaf_empty; eassumption]). rewrite Hl in *. destruct Hec as [Hp Ha]. rewrite Hp, Ha in E. destruct (gate_to_device (c2d fuel cfg) cfg over id l) as [r|] eqn:Er; [|discriminate]. cbn [bind] in E. injection E as <- <-. split; [eapply gate_sound; [|split; assumption|exact Er]; intros ov x y; apply C40_sound|]. destruct id as [i|]; [|exact R]. eapply reached_put; [exact Hw|split; assumption|exact Er|exact R].
    - assert (E' : Ok (GLeaf id cur, st) = Ok (o', st')) by (destruct (pulses cur) eqn:Hp; [destruct (acqs cur) eqn:Ha; [exfalso; apply Hec; split; assumption|exact E]|exact E]). injection E' as <- <-. split; [|exact R]. destruct Hcur as [H|(i & -> & _ & Hd)]; [rewrite H in *; apply D_done, Hec|exact Hd].
  Qed.
  Definition go_obj fuel ov := fix go (l : list (string * gop)) (st : store) : result (list (string * gop) * store) :=
    match l with [] => Ok ([], st) | (k, x) :: l' => do p <- c2d_obj fuel cfg ov st x; let '(x', st) := p in do q <- go l' st; let '(l'', st) := q in Ok ((k, x') :: l'', st) end.
  Lemma obj_sched fuel st own d r n ops ss : c2d_obj fuel cfg over st (GSched own d r n ops ss) = do out <- go_obj fuel (merged own over) ops st; let '(ops', st) := out in Ok (GSched own d r n ops' ss, st).
  Proof. reflexivity. Qed.
  Lemma obj_sound fuel : forall o st o' st', Within root o -> reached st -> c2d_obj fuel cfg over st o = Ok (o', st') -> Device cfg over o o' /\ reached st'.
  Proof.
    induction o as [id l|c d|n b IH|u b IH|e m g r b IH|own d r n ops ss IH] using gop_ind'; intros st o' st' Hw R E.
    - eapply leaf_obj; eassumption.
    - injection E as <- <-. split; [constructor|exact R].
    - cbn [c2d_obj] in E. destruct (c2d_obj fuel cfg over st b) as [[b' s]|] eqn:Eb; [|discriminate]. injection E as <- <-. apply IH in Eb; [|eapply within_trans; [exact Hw|apply W_loop, W_self]|exact R]. destruct Eb. split; [constructor|]; assumption.
    - cbn [c2d_obj] in E. destruct (c2d_obj fuel cfg over st b) as [[b' s]|] eqn:Eb; [|discriminate]. injection E as <- <-. apply IH in Eb; [|eapply within_trans; [exact Hw|apply W_cond, W_self]|exact R]. destruct Eb. split; [constructor|]; assumption.
    - cbn [c2d_obj] in E. assert (Hb : Within root b) by (eapply within_trans; [exact Hw|apply W_comp, W_self]). destruct e as [qs|].
      + destruct (foldM (comp_step cfg) qs _) as [[[max grid] rate]|] eqn:Ef; [|discriminate]. cbn [bind] in E. destruct (c2d_obj fuel cfg over st b) as [[b' s]|] eqn:Eb; [|discriminate]. injection E as <- <-. apply IH in Eb; [|exact Hb|exact R]. destruct Eb. split; [econstructor|]; eassumption.
      + destruct (c2d_obj fuel cfg over st b) as [[b' s]|] eqn:Eb; [|discriminate]. injection E as <- <-. apply IH in Eb; [|exact Hb|exact R]. destruct Eb. split; [constructor|]; assumption.
    - rewrite obj_sched in E. assert (own = []) by (eapply Ho; exact Hw). subst own. rewrite merged_nil in E. destruct (go_obj fuel over ops st) as [[ops' s]|] eqn:Eo; [|discriminate]. cbn [bind] in E. injection E as <- <-.
      assert (Hin : forall k x, In (k, x) ops -> Within root x) by (intros k x Hk; eapply within_trans; [exact Hw|eapply W_sched; [exact Hk|apply W_self]]). clear Hw.
      enough (H : DeviceOps cfg over ops ops' /\ reached s) by (destruct H as [H1 H2]; split; [constructor; rewrite merged_nil; exact H1|exact H2]).
      revert st ops' s R Eo. induction IH as [|[k x] ops Hx _ IHo]; intros st ops' s R Eo; cbn [go_obj] in Eo; [injection Eo as <- <-; split; [constructor|exact R]|].
      destruct (c2d_obj fuel cfg over st x) as [[x' s1]|] eqn:Ex; [|discriminate]. cbn [bind] in Eo. match type of Eo with bind ?e _ = _ => destruct e as [[r' s2]|] eqn:Er; [|discriminate] end. cbn [bind] in Eo. injection Eo as <- <-. apply Hx in Ex; [|eapply Hin; left; reflexivity|exact R]. destruct Ex as [D1 R1]. apply IHo in Er; [|intros k' y Hy; eapply Hin; right; exact Hy|exact R1]. destruct Er. split; [constructor|]; assumption.
  Qed.
  Lemma leaf_obj_ok id l o' : Within root (GLeaf id l) -> Device cfg over (GLeaf id l) o' -> exists n, forall fuel, (n <= fuel)%nat -> forall st, reached st -> exists st', c2d_obj fuel cfg over st (GLeaf id l) = Ok (o', st') /\ reached st'.
  Proof.
    intros Hw D. destruct (C40_complete _ _ _ _ Hu D) as (n & Hn). exists n. intros fuel Hf st R.
    enough (H : exists st', c2d_obj fuel cfg over st (GLeaf id l) = Ok (o', st')) by (destruct H as (st' & E); exists st'; split; [exact E|]; eapply leaf_obj; eassumption).
    specialize (Hn (S fuel) ltac:(lia)). cbn [c2d] in Hn. cbn [c2d_obj].
    set (cur := match id with Some i => match current st i with Some x => x | None => l end | None => l end).
    assert (Hcur : cur = l \/ exists i, id = Some i /\ empty l /\ Device cfg over (GLeaf (Some i) l) (GLeaf (Some i) cur)).
    { subst cur. destruct id as [i|]; [|left; reflexivity]. destruct (current st i) as [x|] eqn:Ex; [|left; reflexivity]. destruct (R i x Ex) as (y & Hy & He & Hd). rewrite (Hc i l y Hw Hy). destruct Hd as [->|Hd]; [left; reflexivity|right; eauto]. }
    destruct (empty_dec cur) as [Hec|Hec].
    - assert (Hl : cur = l) by (destruct Hcur as [H|(i & -> & He & Hd)]; [exact H|eapply device_leaf_empty; eassumption]). rewrite Hl in *. destruct Hec as [Hp Ha]. rewrite Hp, Ha in Hn |- *. destruct (gate_to_device (c2d fuel cfg) cfg over id l) as [r|]; [|discriminate]. cbn [bind] in Hn |- *. injection Hn as <-. eexists. reflexivity.
    - exists st. destruct Hcur as [Hl|(i & -> & He & Hd)].
      + rewrite Hl in *. destruct (pulses l) eqn:Hp; [destruct (acqs l) eqn:Ha; [exfalso; apply Hec; split; assumption|]|]; injection Hn as <-; reflexivity.
      + rewrite (C40_unique _ _ _ _ _ Hu D Hd). destruct (pulses cur) eqn:Hp; [destruct (acqs cur) eqn:Ha; [exfalso; apply Hec; split; assumption|]|]; reflexivity.
  Qed.
  Lemma obj_complete : forall o o', Within root o -> Device cfg over o o' -> exists n, forall fuel, (n <= fuel)%nat -> forall st, reached st -> exists st', c2d_obj fuel cfg over st o = Ok (o', st') /\ reached st'.
  Proof.
    induction o as [id l|c d|n b IH|u b IH|e m g r b IH|own d r n ops ss IH] using gop_ind'; intros o' Hw D.
    - eapply leaf_obj_ok; eassumption.
    - inversion D; subst. exists 0%nat. intros fuel _ st R. exists st. split; [reflexivity|exact R].
    - inversion D; subst. destruct (IH b') as (k & Hk); [eapply within_trans; [exact Hw|apply W_loop, W_self]|assumption|]. exists k. intros fuel Hf st R. destruct (Hk fuel Hf st R) as (st' & E & R'). exists st'. split; [|exact R']. cbn [c2d_obj]. rewrite E. reflexivity.
    - inversion D; subst. destruct (IH b') as (k & Hk); [eapply within_trans; [exact Hw|apply W_cond, W_self]|assumption|]. exists k. intros fuel Hf st R. destruct (Hk fuel Hf st R) as (st' & E & R'). exists st'. split; [|exact R']. cbn [c2d_obj]. rewrite E. reflexivity.
    - assert (Hb : Within root b) by (eapply within_trans; [exact Hw|apply W_comp, W_self]). inversion D; subst.
      + destruct (IH b') as (k & Hk); [exact Hb|assumption|]. exists k. intros fuel Hf st R. destruct (Hk fuel Hf st R) as (st' & E & R'). exists st'. split; [|exact R']. cbn [c2d_obj]. match goal with H : foldM _ _ _ = _ |- _ => rewrite H end. cbn [bind]. rewrite E. reflexivity.
      + destruct (IH b') as (k & Hk); [exact Hb|assumption|]. exists k. intros fuel Hf st R. destruct (Hk fuel Hf st R) as (st' & E & R'). exists st'. split; [|exact R']. cbn [c2d_obj]. rewrite E. reflexivity.
    - assert (own = []) by (eapply Ho; exact Hw). subst own. inversion D as [? ? ? ? ? ? ops' ? D'| | | | | | | | |]; subst. rewrite merged_nil in D'.
      assert (Hin : forall k x, In (k, x) ops -> Within root x) by (intros k x Hk; eapply within_trans; [exact Hw|eapply W_sched; [exact Hk|apply W_self]]). clear Hw D.
      enough (H : exists n, forall fuel, (n <= fuel)%nat -> forall st, reached st -> exists st', go_obj fuel over ops st = Ok (ops', st') /\ reached st').
      { destruct H as (k & Hk). exists k. intros fuel Hf st R. destruct (Hk fuel Hf st R) as (st' & E & R'). exists st'. split; [|exact R']. rewrite obj_sched, merged_nil, E. reflexivity. }
      revert ops' D'. induction IH as [|[k x] ops Hx _ IHo]; intros ops' D'; inversion D'; subst; [exists 0%nat; intros fuel _ st R; exists st; split; [reflexivity|exact R]|].
      destruct (Hx x') as (n1 & H1); [eapply Hin; left; reflexivity|assumption|]. destruct (IHo) with (ops' := r') as (n2 & H2); [intros k' y Hy; eapply Hin; right; exact Hy|assumption|].
      exists (n1 + n2)%nat. intros fuel Hf st R. destruct (H1 fuel ltac:(lia) st R) as (s1 & E1 & R1). destruct (H2 fuel ltac:(lia) s1 R1) as (s2 & E2 & R2). exists s2. split; [|exact R2]. cbn [go_obj]. cbn [snd] in E1. rewrite E1. cbn [bind]. rewrite E2. reflexivity.
  Qed.
End shared.
(** The whole pass, on a circuit in which operation objects may occur in several places: it returns exactly what the configuration prescribes for each of them. *)
Theorem C40_circuit_to_device : forall cfg o, unordered cfg -> consistent o -> no_schedule_overrides o -> unmixed cfg [] o ->
  forall o', (exists n, forall fuel, (n <= fuel)%nat -> circuit_to_device fuel cfg o = Ok o') <-> Device cfg [] o o'.
Proof.
  intros cfg o Hu Hc Ho Hm o'. assert (R0 : reached cfg [] o []) by (intros i l' H; discriminate). split.
  - intros (n & Hn). specialize (Hn n (Nat.le_refl n)). unfold circuit_to_device in Hn. destruct (c2d_obj n cfg [] [] o) as [[x st]|] eqn:E; [|discriminate]. cbn in Hn. injection Hn as <-. eapply obj_sound; try eassumption. apply W_self.
  - intros D. destruct (obj_complete cfg [] o Hu Hc Hm Ho o o' (W_self o) D) as (n & Hn). exists n. intros fuel Hf. destruct (Hn fuel Hf [] R0) as (st' & E & _). unfold circuit_to_device. rewrite E. reflexivity.
Qed.
