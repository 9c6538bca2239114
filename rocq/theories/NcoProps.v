(** Flattening, assignment and the shared dictionaries. *)
From Verif Require Import Base QSort NumericModel NumericProps DevModel NcoModel NcoSpec PathProps2 OvProps.
From Coq Require Import Permutation.
Local Open Scope Q_scope.
Local Open Scope string_scope.

Lemma bindN {A B} (x : result A) (f : A -> result B) b : bind x f = Ok b -> exists a, x = Ok a /\ f a = Ok b.
Proof. destruct x; cbn; intros H; [eauto|discriminate]. Qed.
Tactic Notation "binv" hyp(H) ident(x) ident(E) := apply bindN in H; destruct H as [x [E H]].

Lemma grid1 t z : to_grid_time t 1 = Ok z <-> near t z.
Proof. destruct (C24_exact_or_rejected t 1 ltac:(lia)) as [G _]. rewrite G. unfold near. split; [tauto|]. intros H. split; [apply Z.divide_1_l|exact H]. Qed.
Lemma grid1_round t z : to_grid_time t 1 = Ok z -> py_round t = z.
Proof. intros H. apply grid1 in H. apply py_round_unique. unfold near in H. apply Qabs_Qle_condition in H. lra. Qed.
Lemma near_round t z : near t z -> py_round t = z.
Proof. intros H. apply grid1_round, grid1, H. Qed.

Lemma mapM_ok_all {A B} (f : A -> result B) : forall l, (forall x, In x l -> exists y, f x = Ok y) -> exists ys, mapM f l = Ok ys.
Proof.
  induction l as [|x l IH]; intros H; [eexists; reflexivity|]. destruct (H x (or_introl eq_refl)) as [y E]. destruct IH as [ys M]; [intros z I; apply H; right; exact I|].
  cbn [mapM]. rewrite E. cbn [bind]. rewrite M. eexists. reflexivity.
Qed.

Section I.
Variable P : item -> Prop.
Hypothesis Hop : forall n ps, P (Op n ps).
Hypothesis Hflow : forall b, P b -> P (Flow b).
Hypothesis Hsched : forall rs l, (forall d b, In (d, b) l -> P b) -> P (Sched rs l).
Fixpoint item_rec' (i : item) : P i :=
  match i with
  | Op n ps => Hop n ps
  | Flow b => Hflow b (item_rec' b)
  | Sched rs l => Hsched rs l ((fix go l : forall d b, In (d, b) l -> P b :=
      match l with
      | [] => fun d b H => match H with end
      | (d0, b0) :: r => fun d b H => match H with or_introl E => eq_ind b0 P (item_rec' b0) b (f_equal snd E) | or_intror H' => go r d b H' end
      end) l)
  end.
End I.

Lemma at_flow_inv rs b t r n ps t' : op_at rs (Flow b) t r n ps t' <-> op_at rs b t r n ps t'.
Proof. split; [intros H; inversion H; subst; assumption|apply at_flow]. Qed.
Lemma at_sched_inv rs rs' l t r n ps t' : op_at rs (Sched rs' l) t r n ps t' <-> exists d b, In (d, b) l /\ op_at rs' b (t + d) r n ps t'.
Proof. split; [intros H; inversion H; subst; eauto|intros [d [b [I H]]]; eapply at_sched; eauto]. Qed.

Lemma old_at : forall i rs t r n ps' t', op_at rs (add_old rs i) t r n ps' t' <-> exists ps, op_at rs i t r n ps t' /\ ps' = map (set_old r) ps.
Proof.
  induction i as [n0 ps0|b IH|rs0 l IH] using item_rec'; intros rs t r n ps' t'; cbn [add_old].
  - split.
    + intros H. inversion H; subst. eexists. split; [constructor|reflexivity].
    + intros [ps [H E]]. inversion H; subst. constructor.
  - rewrite at_flow_inv, IH. setoid_rewrite at_flow_inv. reflexivity.
  - rewrite at_sched_inv. setoid_rewrite at_sched_inv. split.
    + intros [d [b [I H]]]. apply in_map_iff in I. destruct I as [[d0 b0] [E I]]. cbn [fst snd] in E. injection E as -> <-.
      apply (IH _ _ I) in H. destruct H as [ps [H E]]. exists ps. split; eauto.
    + intros [ps [[d [b [I H]]] E]]. exists d, (add_old rs0 b). split; [apply in_map_iff; exists (d, b); auto|]. apply (IH _ _ I). eauto.
Qed.

Lemma flatten_sched t rs l : flatten (Sched rs l) t = do xs <- mapM (fun x => flatten (snd x) (t + fst x)) l; Ok (List.concat xs).
Proof.
  cbn [flatten]. induction l as [|[d b] l IH]; [reflexivity|]. cbn [mapM fst snd]. destruct (flatten b (t + d)) as [x|]; [|reflexivity]. cbn [bind]. rewrite IH.
  destruct (mapM _ l) as [y|]; reflexivity.
Qed.

Lemma flatten_spec : forall i rs t l, flatten i t = Ok l -> forall z n ps, In (z, (n, ps)) l <-> exists r t', op_at rs i t r n ps t' /\ near t' z.
Proof.
  induction i as [n0 ps0|b IH|rs0 l0 IH] using item_rec'; intros rs t l H z n ps.
  - cbn [flatten] in H. binv H z0 E. injection H as <-. apply grid1 in E. split.
    + intros [X|[]]. injection X as -> -> ->. exists rs, t. split; [constructor|exact E].
    + intros [r [t' [X N]]]. inversion X; subst. left. apply near_round in E, N. congruence.
  - cbn [flatten] in H. rewrite (IH rs _ _ H). split; intros [r [t' [X N]]]; exists r, t'; (split; [|exact N]); [now constructor|now inversion X].
  - rewrite flatten_sched in H. binv H xs M. injection H as <-. rewrite in_concat. split.
    + intros [x [X1 X2]]. apply (mapM_in _ _ _ M) in X1. destruct X1 as [[d b] [I F]]. cbn [fst snd] in F. rewrite (IH _ _ I rs0 _ _ F) in X2. destruct X2 as [r [t' [Y N]]].
      exists r, t'. split; [|exact N]. apply at_sched_inv. eauto.
    + intros [r [t' [X N]]]. apply at_sched_inv in X. destruct X as [d [b [I X]]]. destruct (mapM_ok_in _ _ _ _ M I) as [x [X1 X2]]. cbn [fst snd] in X1. exists x. split; [exact X2|]. rewrite (IH _ _ I rs0 _ _ X1). eauto.
Qed.
Lemma flatten_near : forall i rs t l, flatten (add_old rs i) t = Ok l -> forall r n ps t', op_at rs i t r n ps t' -> exists z, near t' z.
Proof.
  induction i as [n0 ps0|b IH|rs0 l0 IH] using item_rec'; intros rs t l H r n ps t' O; cbn [add_old] in H.
  - inversion O; subst. cbn [flatten] in H. binv H z E. exists z. now apply grid1.
  - rewrite at_flow_inv in O. cbn [flatten] in H. exact (IH _ _ _ H _ _ _ _ O).
  - rewrite flatten_sched in H. binv H xs M. rewrite at_sched_inv in O. destruct O as [d [b [I O]]].
    destruct (mapM_ok_in _ _ _ (d, add_old rs0 b) M) as [x [X1 X2]]; [apply in_map_iff; exists (d, b); auto|]. cbn [fst snd] in X1. exact (IH d b I _ _ _ X1 _ _ _ _ O).
Qed.
Lemma flatten_ok : forall i rs t, (forall r n ps t', op_at rs i t r n ps t' -> exists z, near t' z) -> exists l, flatten i t = Ok l.
Proof.
  induction i as [n0 ps0|b IH|rs0 l0 IH] using item_rec'; intros rs t H.
  - destruct (H _ _ _ _ (at_op _ _ _ _)) as [z N]. apply grid1 in N. cbn [flatten]. rewrite N. eexists. reflexivity.
  - cbn [flatten]. apply (IH rs). intros. eapply H. apply at_flow. eauto.
  - rewrite flatten_sched. destruct (mapM_ok_all (fun x => flatten (snd x) (t + fst x)) l0) as [ys Y]; [|rewrite Y; eexists; reflexivity].
    intros [d b] I. cbn [fst snd]. apply (IH _ _ I rs0). intros. eapply H. apply at_sched_inv. eauto.
Qed.

(** ** Assignment *)
Definition is_info (i : item) (o : info) : Prop :=
  exists r t p z, occ i r (i_name o) p t /\ i_pulse o = set_old r p /\ near t z /\ i_time o = inject_Z z + t0 p.
Lemma set_old_t0 r p : t0 (set_old r p) = t0 p. Proof. unfold set_old. destruct (what p); reflexivity. Qed.
Lemma set_old_clock r p : clock (set_old r p) = clock p. Proof. unfold set_old. destruct (what p); reflexivity. Qed.
Lemma set_old_addr r p : addr (set_old r p) = addr p. Proof. unfold set_old. destruct (what p); reflexivity. Qed.
Lemma set_old_port r p : port (set_old r p) = port p. Proof. unfold set_old, port. destruct (what p) eqn:E; cbn; rewrite ?E; reflexivity. Qed.
Lemma assign_pulse_inv ss n t p o : assign_pulse ss n t p = Ok o <->
  o = {| i_name := n; i_time := inject_Z t + t0 p; i_pulse := p |} /\ (exists z, near (inject_Z t + t0 p) z) /\ (port p <> None -> exists s, In s ss /\ goes p s = true).
Proof.
  unfold assign_pulse. split.
  - intros H. binv H z E. apply grid1 in E. destruct (port p).
    + destruct (existsb (goes p) ss) eqn:X; [|discriminate]. injection H as <-. split; [reflexivity|]. split; [eauto|]. intros _. now apply existsb_exists.
    + injection H as <-. split; [reflexivity|]. split; [eauto|]. congruence.
  - intros [-> [[z N] G]]. apply grid1 in N. rewrite N. cbn [bind]. destruct (port p); [|reflexivity]. destruct (existsb (goes p) ss) eqn:X; [reflexivity|].
    assert (Y : existsb (goes p) ss = true) by (apply existsb_exists, G; discriminate). congruence.
Qed.
Lemma assign_spec i ss infos : assign (add_old [] i) ss = Ok infos ->
  (forall o, In o infos <-> is_info i o) /\ (forall o, In o infos -> (exists z, near (i_time o) z) /\ (port (i_pulse o) <> None -> exists s, In s ss /\ goes (i_pulse o) s = true)).
Proof.
  intros H. unfold assign in H. binv H ops F. binv H xs M. injection H as <-. pose proof (flatten_spec _ [] _ _ F) as FS. split.
  - intros o. rewrite in_concat. split.
    + intros [x [X1 X2]]. apply (mapM_in _ _ _ M) in X1. destruct X1 as [[z [n ps]] [I A]]. apply sortq_In in I. apply FS in I. destruct I as [r [t [I N]]]. apply old_at in I. destruct I as [ps0 [I ->]].
      unfold assign_op in A. cbn [fst snd] in A. apply (mapM_in _ _ _ A) in X2. destruct X2 as [p [Ip Ep]]. apply assign_pulse_inv in Ep. destruct Ep as [-> _]. apply in_map_iff in Ip. destruct Ip as [p0 [<- Ip]].
      exists r, t, p0, z. cbn. rewrite set_old_t0. repeat split; auto. exists ps0. auto.
    + intros [r [t [p [z [[ps [O Ip]] [E [N T]]]]]]].
      assert (I : In (z, (i_name o, map (set_old r) ps)) ops). { apply FS. exists r, t. split; [|exact N]. apply old_at. eauto. }
      destruct (mapM_ok_in _ _ _ _ M (proj2 (sortq_In _ _ _) I)) as [x [A X]]. exists x. split; [exact X|]. unfold assign_op in A. cbn [fst snd] in A.
      destruct (mapM_ok_in _ _ _ _ A (in_map (set_old r) _ _ Ip)) as [o' [A1 A2]]. apply assign_pulse_inv in A1. destruct A1 as [-> _]. destruct o as [n' t' p']. cbn in *. rewrite set_old_t0 in A2. now subst.
  - intros o. rewrite in_concat. intros [x [X1 X2]]. apply (mapM_in _ _ _ M) in X1. destruct X1 as [[z [n ps]] [I A]]. unfold assign_op in A. cbn [fst snd] in A. apply (mapM_in _ _ _ A) in X2.
    destruct X2 as [p [Ip Ep]]. apply assign_pulse_inv in Ep. destruct Ep as [-> [E G]]. cbn. auto.
Qed.

(** ** The dictionaries *)
Lemma update_ops_spec s a : forall os h, update_ops s os h a = if existsb (fun o => (i_name o =? "SetClockFrequency") && Nat.eqb (addr (i_pulse o)) a) os then q_freq s else h a.
Proof.
  unfold update_ops. induction os as [|o os IH]; intros h; [reflexivity|]. cbn [fold_left existsb]. rewrite IH. destruct (existsb _ os); [now rewrite orb_true_r|]. rewrite orb_false_r.
  destruct (i_name o =? _); [|reflexivity]. unfold write. rewrite (Nat.eqb_sym a). destruct (Nat.eqb _ a); reflexivity.
Qed.
Lemma prepare_all infos : forall ss h0 h, foldM (prepare infos) ss h0 = Ok h ->
  (forall s, In s ss -> exists x, foldM check_op (ordered infos s) (None, None) = Ok x) /\
  forall a, h a = fold_left (fun v s => if existsb (fun o => (i_name o =? "SetClockFrequency") && Nat.eqb (addr (i_pulse o)) a) (ops_of infos s) then q_freq s else v) ss (h0 a).
Proof.
  induction ss as [|s ss IH]; intros h0 h H; cbn [foldM] in H.
  - injection H as <-. split; [intros ? []|reflexivity].
  - binv H h1 E. apply IH in H. destruct H as [H1 H2]. unfold prepare in E. binv E x C. injection E as <-. split.
    + intros s' [<-|I]; [eauto|auto].
    + intros a. rewrite H2. cbn [fold_left]. now rewrite update_ops_spec.
Qed.
Lemma prepare_all_ok infos : forall ss h0, (forall s, In s ss -> exists x, foldM check_op (ordered infos s) (None, None) = Ok x) -> exists h, foldM (prepare infos) ss h0 = Ok h.
Proof.
  induction ss as [|s ss IH]; intros h0 H; [eexists; reflexivity|]. cbn [foldM]. destruct (H s (or_introl eq_refl)) as [x E]. assert (E' : prepare infos h0 s = Ok (update_ops s (ops_of infos s) h0)) by (unfold prepare; rewrite E; reflexivity). rewrite E'. cbn [bind]. apply IH. intros s' I. apply H. right. exact I.
Qed.
(** the last that satisfies a test *)
Lemma fold_last {B} (f : sq -> bool) (g : sq -> B) : forall l1 s l2 v, f s = true -> (forall s', In s' l2 -> f s' = false) ->
  fold_left (fun v s => if f s then g s else v) (l1 ++ s :: l2)%list v = g s.
Proof.
  intros l1 s l2 v F N. rewrite fold_left_app. cbn [fold_left]. rewrite F. generalize (g s). induction l2 as [|x l2 IH]; intros b; [reflexivity|]. cbn [fold_left].
  rewrite (N x (or_introl eq_refl)). apply IH. intros s' I. apply N. right. exact I.
Qed.
