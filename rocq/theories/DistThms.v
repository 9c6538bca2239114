(** C38: what a sequencer plays is what the schedule asks of its port-clock. *)
From Verif Require Import Base Q1Model Q1Machine Q1Spec Q1Whole DistModel DistSpec DistSort DistProps DistTree.
From Coq Require Import List Permutation.
Open Scope Z_scope.

Theorem C38_forest : forall mapping o p ops, NoDup mapping -> In p mapping -> compiled o -> names_port p o -> separate p o ->
  seq_ops mapping o p = Ok ops -> exists forest, realises p o 0 forest /\ ops = flat_map flat forest.
Proof. intros. eapply ops_forest; eassumption. Qed.

(** *** Events of a forest *)
Fixpoint node_ex (taken : bool) (n : pnode) : list (Z * kind) :=
  match n with
  | POp t k => [(t, k)]
  | PLoop t n body te => flat_map (fun i => map (fun x => (Z.of_nat i * (te - t) + fst x, snd x)) (flat_map (node_ex taken) body)) (seq 0 (Z.to_nat n))
  | PCond _ _ body _ => if taken then flat_map (node_ex taken) body else []
  end.
Fixpoint node_cond (n : pnode) : bool := match n with POp _ _ => false | PLoop _ _ body _ => existsb node_cond body | PCond _ _ _ _ => true end.

Lemma explains_app off e1 e2 x1 x2 : explains off e1 x1 -> explains off e2 x2 -> explains off (e1 ++ e2) (x1 ++ x2).
Proof.
  intros (y1 & H1 & P1) (y2 & H2 & P2). exists (y1 ++ y2). split; [rewrite map_app; congruence|]. rewrite flat_map_app. apply Permutation_app; assumption.
Qed.
Lemma explains_nil off : explains off [] []. Proof. exists []. split; reflexivity. Qed.
Lemma explains_perm off e x x' : explains off e x -> Permutation x x' -> explains off e x'.
Proof.
  intros (y & H & P) HP. subst x. symmetry in HP. apply Permutation_map_inv in HP. destruct HP as (y' & -> & HP). exists y'. split; [reflexivity|]. rewrite P. apply Permutation_flat_map. exact HP.
Qed.
Lemma explains_shift off d e x : explains (off + d) e x -> explains off e (map (fun a => (d + fst a, snd a)) x).
Proof.
  intros (y & <- & P). exists (map (fun a => ((d + fst (fst a), snd (fst a)), snd a)) y). split; [rewrite !map_map; reflexivity|]. rewrite P.
  apply Permutation_refl'. clear. induction y as [|a y IH]; [reflexivity|]. cbn [map flat_map fst snd]. rewrite Z.add_assoc, IH. reflexivity.
Qed.

Section PInd.
Variable P : pnode -> Prop.
Hypothesis HO : forall t k, P (POp t k).
Hypothesis HL : forall t n body te, Forall P body -> P (PLoop t n body te).
Hypothesis HC : forall t a body te, Forall P body -> P (PCond t a body te).
Fixpoint pnode_rec' (n : pnode) : P n :=
  let fix go l : Forall P l := match l with [] => Forall_nil _ | x :: r => Forall_cons x (pnode_rec' x) (go r) end in
  match n with POp t k => HO t k | PLoop t n body te => HL t n body te (go body) | PCond t a body te => HC t a body te (go body) end.
End PInd.

Lemma seq_play_explains env taken body : Forall (fun n => forall off s, (node_cond n = false \/ forall k a, env k a = taken) -> explains off (fst (play env n off s)) (node_ex taken n)) body ->
  existsb node_cond body = false \/ (forall k a, env k a = taken) ->
  forall off s, explains off (fst (seq_play (fun x s => play env x off s) body s)) (flat_map (node_ex taken) body).
Proof.
  induction 1 as [|n body Hn Hb IH]; intros Hc off s; [apply explains_nil|]. cbn [existsb] in Hc. cbn [seq_play flat_map].
  assert (C1 : node_cond n = false \/ (forall k a, env k a = taken)) by (destruct Hc as [Hc|Hc]; [apply orb_false_iff in Hc; tauto|tauto]).
  assert (C2 : existsb node_cond body = false \/ (forall k a, env k a = taken)) by (destruct Hc as [Hc|Hc]; [apply orb_false_iff in Hc; tauto|tauto]).
  specialize (Hn off s C1). destruct (play env n off s) as [e1 s1]. specialize (IH C2 off s1). destruct (seq_play _ body s1) as [e2 s2]. cbn [fst] in *. apply explains_app; assumption.
Qed.
Lemma iterate_explains f len xs : (forall off s, explains off (fst (f off s)) xs) -> forall n k off s,
  explains off (fst (iterate f n (off + Z.of_nat k * len) len s)) (flat_map (fun i => map (fun x => (Z.of_nat i * len + fst x, snd x)) xs) (seq k n)).
Proof.
  intros Hf. induction n as [|n IH]; intros k off s; [apply explains_nil|]. cbn [iterate seq flat_map].
  pose proof (Hf (off + Z.of_nat k * len) s) as H1. destruct (f (off + Z.of_nat k * len) s) as [e1 s1]. specialize (IH (S k) off s1).
  replace (off + Z.of_nat (S k) * len) with (off + Z.of_nat k * len + len) in IH by lia. destruct (iterate f n _ len s1) as [e2 s2]. cbn [fst] in *.
  apply explains_app; [|exact IH]. apply (explains_shift off (Z.of_nat k * len)). exact H1.
Qed.
Lemma play_explains env taken n : forall off s, (node_cond n = false \/ forall k a, env k a = taken) -> explains off (fst (play env n off s)) (node_ex taken n).
Proof.
  induction n as [t k|t n body te IH|t a body te IH] using pnode_rec'; intros off s Hc.
  - cbn [play fst node_ex]. exists [((t, k), s)]. split; [reflexivity|]. cbn [flat_map fst snd]. rewrite app_nil_r. reflexivity.
  - cbn [play node_ex]. cbn [node_cond] in Hc.
    pose proof (iterate_explains (fun o s => seq_play (fun x s => play env x o s) body s) (te - t) (flat_map (node_ex taken) body)
      ltac:(intros; apply seq_play_explains; assumption) (Z.to_nat n) 0 off s) as H. cbn [Z.of_nat] in H. rewrite Z.mul_0_l, Z.add_0_r in H. exact H.
  - destruct Hc as [Hc|Hc]; [discriminate|]. cbn [play node_ex]. rewrite Hc. destruct taken.
    + pose proof (seq_play_explains env true body IH (or_intror Hc) off s) as H. destruct (seq_play _ body s) as [e s']. exact H.
    + apply explains_nil.
Qed.
Lemma play_all_explains env taken f off s : (existsb node_cond f = false \/ forall k a, env k a = taken) -> explains off (fst (play_all env f off s)) (flat_map (node_ex taken) f).
Proof. intros H. apply seq_play_explains; [|exact H]. apply Forall_forall. intros n _ off' s'. apply play_explains. Qed.

(** *** Executions of a schedule *)
Lemma executions_shift taken p o : forall d t, executions taken p o (d + t) = map (fun x => (d + fst x, snd x)) (executions taken p o t).
Proof.
  induction o as [lt w ps qs|n t0 b IH|a t0 buf b IH|items c IH] using op_rec; intros d t; cbn [executions].
  - rewrite map_map. apply map_ext. intros e. cbn [fst snd]. rewrite Z.add_assoc. reflexivity.
  - rewrite map_flat_map. apply flat_map_ext. intros i. rewrite <- Z.add_assoc. apply IH.
  - destruct taken; [apply IH|reflexivity].
  - rewrite map_flat_map. induction items as [|i r IHr]; [reflexivity|]. inversion IH; subst. cbn [flat_map]. rewrite IHr by assumption. f_equal. rewrite <- Z.add_assoc. auto.
Qed.
Lemma executions_none taken p o : reaches p o = false -> forall t, executions taken p o t = [].
Proof.
  induction o as [lt w ps qs|n t0 b IH|a t0 buf b IH|items c IH] using op_rec; intros H t; cbn [executions reaches] in *.
  - destruct (leaf_for p lt w ps qs); [reflexivity|discriminate].
  - induction (seq 0 (Z.to_nat n)) as [|i l IHl]; [reflexivity|]. cbn [flat_map]. rewrite IHl, IH by exact H. reflexivity.
  - destruct taken; [apply IH, H|reflexivity].
  - induction items as [|i r IHr]; [reflexivity|]. inversion IH as [|? ? J1 J2]; subst. cbn [existsb] in H. apply orb_false_iff in H. destruct H as [G1 G2]. cbn [flat_map]. rewrite IHr, J1 by assumption. reflexivity.
Qed.

Scheme realises_mind := Minimality for realises Sort Prop
  with realises_items_mind := Minimality for realises_items Sort Prop.
Combined Scheme realises_both from realises_mind, realises_items_mind.

Lemma Permutation_flat_map_ext {A B} (f g : A -> list B) l : (forall x, Permutation (f x) (g x)) -> Permutation (flat_map f l) (flat_map g l).
Proof. intros H. induction l as [|x l IH]; [reflexivity|]. cbn [flat_map]. apply Permutation_app; auto. Qed.
Lemma realises_executions taken p : (forall o t f, realises p o t f -> Permutation (flat_map (node_ex taken) f) (executions taken p o t)) /\
  (forall items t fs, realises_items p items t fs -> Permutation (flat_map (node_ex taken) (List.concat fs)) (flat_map (fun i => executions taken p (snd i) (t + fst i)) items)).
Proof.
  apply realises_both; intros; cbn [executions].
  - rewrite H. apply Permutation_refl'.
    clear. induction (leaf_for p lt w ps qs) as [|e l IH]; [reflexivity|]. cbn [flat_map map app node_ex]. f_equal. exact IH.
  - cbn [flat_map node_ex]. rewrite app_nil_r. rewrite H0. replace (t + d - t) with d by lia. apply Permutation_flat_map_ext. intros i.
    rewrite (Z.add_comm t), executions_shift. apply Permutation_map. exact H2.
  - cbn [flat_map node_ex]. rewrite app_nil_r. destruct taken; [exact H2|reflexivity].
  - cbn [flat_map]. apply Permutation_refl'. symmetry. induction (seq 0 (Z.to_nat n)) as [|i l IHl]; [reflexivity|]. cbn [flat_map]. rewrite IHl, executions_none by exact H. reflexivity.
  - cbn [flat_map]. destruct taken; [rewrite executions_none by exact H; reflexivity|reflexivity].
  - rewrite H1. exact H0.
  - reflexivity.
  - cbn [List.concat flat_map fst snd]. rewrite flat_map_app. apply Permutation_app; assumption.
Qed.
Lemma existsb_perm {A} (f : A -> bool) l m : Permutation l m -> existsb f l = existsb f m.
Proof. induction 1 as [|x l m H IH|x y l|l m n H1 IH1 H2 IH2]; cbn [existsb]; [reflexivity|rewrite IH; reflexivity|rewrite !orb_assoc, (orb_comm (f y)); reflexivity|congruence]. Qed.
Lemma realises_cond p : (forall o t f, realises p o t f -> conditionals o = false -> existsb node_cond f = false) /\
  (forall items t fs, realises_items p items t fs -> existsb (fun i => conditionals (snd i)) items = false -> existsb node_cond (List.concat fs) = false).
Proof.
  apply realises_both; intros; cbn [conditionals] in *; try discriminate.
  - rewrite (existsb_perm _ _ _ H). clear. induction (leaf_for p lt w ps qs) as [|e l IH]; [reflexivity|exact IH].
  - cbn [existsb node_cond]. rewrite H2 by assumption. reflexivity.
  - reflexivity.
  - rewrite (existsb_perm _ _ _ H1). apply H0. assumption.
  - reflexivity.
  - cbn [existsb snd] in H3. apply orb_false_iff in H3. destruct H3 as [H3 H4]. cbn [List.concat]. rewrite existsb_app, H0, H2 by assumption. reflexivity.
Qed.

(** A forest that realises the schedule plays every execution at its time and nothing else. *)
Theorem C38_forest_events : forall taken p o forest env off s, realises p o 0 forest -> conditionals o = false \/ (forall k a, env k a = taken) ->
  explains off (fst (play_all env forest off s)) (executions taken p o 0).
Proof.
  intros taken p o f env off s H Hc. eapply explains_perm; [|apply (proj1 (realises_executions taken p) _ _ _ H)]. apply play_all_explains.
  destruct Hc as [Hc|Hc]; [left; apply (proj1 (realises_cond p) _ _ _ H Hc)|right; exact Hc].
Qed.

(** The compiled program of a sequencer plays, in every repetition, every execution of an operation for its port-clock at the time the schedule gives it, and nothing else. *)
Definition repetition_start (t0 lat total : Z) (i : nat) : Z := first_rep t0 lat + Z.of_nat i * (total + 4).
Lemma iterate_parts f n : forall off len s, exists ss : list sst, fst (iterate f n off len s) = flat_map (fun is => fst (f (off + Z.of_nat (fst is) * len) (snd is))) (combine (seq 0 n) ss) /\ List.length ss = n.
Proof.
  assert (HH : forall k off len s, exists ss : list sst, fst (iterate f n (off + Z.of_nat k * len) len s) = flat_map (fun is => fst (f (off + Z.of_nat (fst is) * len) (snd is))) (combine (seq k n) ss) /\ List.length ss = n).
  { induction n as [|n IH]; intros k off len s; [exists []; split; reflexivity|]. cbn [iterate]. destruct (f (off + Z.of_nat k * len) s) as [e1 s1] eqn:E1.
    destruct (IH (S k) off len s1) as (ss & H1 & H2). replace (off + Z.of_nat (S k) * len) with (off + Z.of_nat k * len + len) in H1 by lia.
    destruct (iterate f n (off + Z.of_nat k * len + len) len s1) as [e2 s2]. exists (s :: ss). cbn [seq combine flat_map fst snd List.length] in *. rewrite E1. cbn [fst]. split; congruence. }
  intros off len s. destruct (HH 0%nat off len s) as (ss & H1 & H2). rewrite Z.mul_0_l, Z.add_0_r in H1. eauto.
Qed.
Theorem C38_program_plays_schedule : forall taken mapping o p mrk offs lat reps total prog t0 env,
  NoDup mapping -> In p mapping -> compiled o -> names_port p o -> separate p o -> conditionals o = false \/ (forall k a, env k a = taken) ->
  Forall (fun o => 0 <= o < M32) offs -> 1 <= reps < M32 -> 4 + lat <= TMAX -> total <= TMAX ->
  seq_program mapping o p mrk offs lat reps total = Ok prog ->
  exists forest, realises p o 0 forest /\
    (forallb (node_ok (List.length offs)) forest = true ->
     exists evs : nat -> list (Z * event),
       Runs env prog t0 (header_events mrk (existsb has_cond forest) t0 ++
         flat_map (fun i => (repetition_start t0 lat total i, EParam PResetPh) :: (repetition_start t0 lat total i, EUpd) :: evs i) (seq 0 (Z.to_nat reps)))
         (first_rep t0 lat + reps * (total + 4)) /\
       forall i, (i < Z.to_nat reps)%nat -> explains (repetition_start t0 lat total i + 4) (evs i) (executions taken p o 0)).
Proof.
  intros taken mapping o p mrk offs lat reps total prog t0 env Hn Hin Hc Hp Hs Hcond Hoffs Hreps Hlat Htot H. unfold seq_program in H.
  destruct (seq_ops mapping o p) as [ops|] eqn:Eo; [|discriminate]. cbn [bind] in H.
  destruct (ops_forest mapping o p ops Hn Hin Hc Hp Hs Eo) as (forest & Hr & ->). exists forest. split; [exact Hr|]. intros Hok.
  destruct (whole_ok env mrk offs lat reps total forest prog t0 Hoffs Hreps Hlat Htot Hok H) as [_ HR]. unfold full_trace in HR.
  destruct (iterate_parts (one_run env forest) (Z.to_nat reps) (first_rep t0 lat) (total + 4) (start_state offs)) as (ss & E & El). rewrite E in HR.
  exists (fun i => fst (play_all env forest (repetition_start t0 lat total i + 4) (nth i ss (start_state offs)))). split.
  - replace (flat_map _ (seq 0 (Z.to_nat reps))) with (flat_map (fun is : nat * sst => fst (one_run env forest (first_rep t0 lat + Z.of_nat (fst is) * (total + 4)) (snd is))) (combine (seq 0 (Z.to_nat reps)) ss)); [exact HR|].
    rewrite <- El. clear -ss. set (d := start_state offs).
    assert (HH : forall (ss : list sst) k pre, List.length pre = k -> flat_map (fun is : nat * sst => fst (one_run env forest (first_rep t0 lat + Z.of_nat (fst is) * (total + 4)) (snd is))) (combine (seq k (List.length ss)) ss) =
      flat_map (fun i => (repetition_start t0 lat total i, EParam PResetPh) :: (repetition_start t0 lat total i, EUpd) :: fst (play_all env forest (repetition_start t0 lat total i + 4) (nth i (pre ++ ss) d))) (seq k (List.length ss))).
    { induction ss0 as [|s r IH]; intros k pre Hk; [reflexivity|]. cbn [List.length seq combine flat_map fst snd]. rewrite app_nth2, Hk, Nat.sub_diag by lia. cbn [nth]. f_equal.
      - unfold one_run, repetition_start. destruct (play_all env forest _ s) as [e s']. reflexivity.
      - replace (pre ++ s :: r) with ((pre ++ [s]) ++ r) by (rewrite <- app_assoc; reflexivity). apply IH. rewrite app_length. cbn. lia. }
    apply (HH ss 0%nat [] eq_refl).
  - intros i _. apply C38_forest_events; assumption.
Qed.

(** *** Schedules without conditionals *)
Lemma fits_sub nb items c : fits nb (Sub items c) <-> Forall (fun i => fits nb (snd i)) items.
Proof.
  cbn [fits]. induction items as [|[u x] r IH]; [split; [constructor|trivial]|]. rewrite IH. split; [intros [H1 H2]; constructor; assumption|intros H; inversion H; subst; split; assumption].
Qed.
Lemma forallb_perm {A} (f : A -> bool) l m : Permutation l m -> forallb f l = forallb f m.
Proof. induction 1 as [|x l m H IH|x y l|l m n H1 IH1 H2 IH2]; cbn [forallb]; [reflexivity|rewrite IH; reflexivity|rewrite !andb_assoc, (andb_comm (f y)); reflexivity|congruence]. Qed.
Lemma realises_ok nb p : (forall o t f, realises p o t f -> compiled o -> fits nb o -> conditionals o = false -> t + dur0 o <= TMAX -> forallb (node_ok nb) f = true) /\
  (forall items t fs, realises_items p items t fs -> forall D, items_compiled D items -> Forall (fun i => fits nb (snd i)) items -> existsb (fun i => conditionals (snd i)) items = false -> t + D <= TMAX -> forallb (node_ok nb) (List.concat fs) = true).
Proof.
  apply realises_both; intros; try reflexivity.
  - rewrite (forallb_perm _ _ _ H). apply forallb_forall. intros x Hx. apply in_map_iff in Hx. destruct Hx as (e & <- & He). apply leaf_for_in in He.
    pose proof (leaf_duration_ge _ _ He) as Hd. cbn [compiled fits] in *. rewrite Forall_forall in H0, H1. specialize (H0 e He). specialize (H1 e He). unfold dur0 in H3. cbn [duration] in H3.
    cbn [node_ok]. apply andb_true_intro. split; [lia|exact H1].
  - destruct H3 as (G1 & _ & G2). destruct H4 as [G3 G4]. destruct (compiled_duration _ G2) as (d' & Ed & Hd). rewrite H0 in Ed. injection Ed as <-.
    unfold dur0 in *. cbn [duration conditionals] in *. rewrite H0 in *. cbn [forallb node_ok]. rewrite H2; [|assumption|assumption|assumption|nia]. rewrite !andb_true_r. assert (t + d <= TMAX) by nia. lia.
  - discriminate.
  - apply compiled_sub in H2. destruct H2 as (D & -> & HD & Hi). apply fits_sub in H3. rewrite (forallb_perm _ _ _ H1). apply (H0 D); assumption.
  - inversion H3; inversion H4; subst. cbn [fst snd] in *. cbn [existsb snd] in H5. apply orb_false_iff in H5. destruct H5 as [G1 G2]. cbn [List.concat]. rewrite forallb_app.
    destruct H9 as (K1 & K2 & K3). destruct (compiled_duration _ K2) as (d & Ed & Hd). specialize (K3 d Ed).
    rewrite H0; [|assumption|assumption|assumption|unfold dur0; rewrite Ed; lia]. rewrite (H2 D); auto.
Qed.
(** With loops only, nothing more is needed than a total time below 2^47 ns and loop counts below 2^32. *)
Theorem C38_loops : forall mapping o p mrk offs lat reps total prog t0 env,
  NoDup mapping -> In p mapping -> compiled o -> names_port p o -> separate p o -> conditionals o = false -> fits (List.length offs) o -> (forall d, duration o = Some d -> d <= TMAX) ->
  Forall (fun o => 0 <= o < M32) offs -> 1 <= reps < M32 -> 4 + lat <= TMAX -> total <= TMAX ->
  seq_program mapping o p mrk offs lat reps total = Ok prog ->
  exists evs : nat -> list (Z * event),
    Runs env prog t0 (header_events mrk false t0 ++
      flat_map (fun i => (repetition_start t0 lat total i, EParam PResetPh) :: (repetition_start t0 lat total i, EUpd) :: evs i) (seq 0 (Z.to_nat reps)))
      (first_rep t0 lat + reps * (total + 4)) /\
    forall i, (i < Z.to_nat reps)%nat -> explains (repetition_start t0 lat total i + 4) (evs i) (executions true p o 0).
Proof.
  intros mapping o p mrk offs lat reps total prog t0 env Hn Hin Hc Hp Hs Hcond Hf Hd Hoffs Hreps Hlat Htot H.
  destruct (C38_program_plays_schedule true mapping o p mrk offs lat reps total prog t0 env Hn Hin Hc Hp Hs (or_introl Hcond) Hoffs Hreps Hlat Htot H) as (forest & Hr & HH).
  destruct (compiled_duration _ Hc) as (d & Ed & Hd0). specialize (Hd d Ed).
  assert (Hok : forallb (node_ok (List.length offs)) forest = true) by (apply (proj1 (realises_ok (List.length offs) p) _ _ _ Hr Hc Hf Hcond); unfold dur0; rewrite Ed; lia).
  destruct (HH Hok) as (evs & HR & HE). exists evs. split; [|exact HE].
  assert (Hx : existsb has_cond forest = false).
  { pose proof (proj1 (realises_cond p) _ _ _ Hr Hcond) as Hx. clear -Hx. induction forest as [|n f IH]; [reflexivity|]. cbn [existsb] in *. apply orb_false_iff in Hx. destruct Hx as [H1 H2]. rewrite IH by exact H2.
    rewrite orb_false_r. clear -H1. unfold has_cond. induction n as [t k|t n body te IHn|t a body te IHn] using pnode_rec'; [reflexivity| |discriminate]. cbn [node_cond flat existsb] in *. rewrite existsb_app. cbn [existsb]. rewrite !orb_false_r. cbn [orb].
    induction IHn as [|x body Hx Hb IHb]; [reflexivity|]. cbn [existsb flat_map] in *. apply orb_false_iff in H1. destruct H1 as [G1 G2]. rewrite existsb_app, Hx, IHb by assumption. reflexivity. }
  rewrite Hx in HR. exact HR.
Qed.

(** *** Unconditional facts *)
Lemma plain_ents p o : forall t, Permutation (flat_map plain (map snd (ents p o t))) (once p o t).
Proof.
  induction o as [lt w ps qs|n t0 b IH|a t0 buf b IH|items c IH] using op_rec; intros t; cbn [ents once].
  - apply Permutation_refl'. induction (leaf_for p lt w ps qs) as [|e l IHl]; [reflexivity|]. cbn [map flat_map plain snd app]. f_equal. exact IHl.
  - destruct (uses p b); [|apply IH]. cbn [map flat_map snd plain begin_sop app]. rewrite map_app, flat_map_app. cbn [map flat_map plain snd app]. rewrite app_nil_r. apply IH.
  - destruct (uses p b); [|apply IH]. cbn [map flat_map snd plain begin_sop app]. rewrite map_app, flat_map_app. cbn [map flat_map plain snd app]. rewrite app_nil_r. apply IH.
  - induction items as [|i r IHr]; [reflexivity|]. inversion IH; subst. cbn [flat_map]. rewrite map_app, flat_map_app. apply Permutation_app; auto.
Qed.
(** No operation is lost, duplicated or sent to another port-clock, for any schedule at all; and the operations of a sequencer are in the order of their times. *)
Theorem C38_nothing_lost : forall mapping o p ops, NoDup mapping -> In p mapping -> seq_ops mapping o p = Ok ops -> Permutation (flat_map plain ops) (once p o 0).
Proof.
  intros mapping o p ops Hn Hin H. apply seq_ops_ents in H; [|assumption|assumption]. subst ops. rewrite <- plain_ents. apply Permutation_flat_map, Permutation_map, isort_perm.
Qed.
Theorem C38_time_order : forall mapping o p ops i j a b, seq_ops mapping o p = Ok ops -> (i < j)%nat -> nth_error ops i = Some a -> nth_error ops j = Some b -> sop_time a <= sop_time b.
Proof.
  intros mapping o p ops i j a b H Hij Ha Hb. unfold seq_ops in H. destruct (assign_all mapping o) as [infos|]; [|discriminate]. cbn [bind] in H. injection H as <-.
  set (l := map snd _) in *. clearbody l.
  assert (Hs : srt (fun a b => sop_time a <=? sop_time b) (isort (fun a b => sop_time a <=? sop_time b) l)) by (apply isort_srt; cbv beta; intros; lia).
  revert i j Hij Ha Hb. induction (isort (fun a b => sop_time a <=? sop_time b) l) as [|x r IH]; intros i j Hij Ha Hb; [destruct i; discriminate|].
  cbn [srt] in Hs. destruct Hs as [H1 H2]. destruct j as [|j]; [lia|]. cbn [nth_error] in Hb. destruct i as [|i]; cbn [nth_error] in Ha.
  - injection Ha as <-. specialize (H1 b (nth_error_In _ _ Hb)). lia.
  - eapply (IH H2 i j); [lia|exact Ha|exact Hb].
Qed.

(** *** What is accepted *)
Lemma mapM_ok {A B} (f : A -> result B) l : (exists r, mapM f l = Ok r) <-> Forall (fun x => exists y, f x = Ok y) l.
Proof.
  induction l as [|x l IH]; cbn [mapM]; [split; [constructor|eexists; reflexivity]|]. split.
  - intros [r H]. destruct (f x) as [y|] eqn:E; [|discriminate]. cbn [bind] in H. destruct (mapM f l) as [ys|] eqn:E2; [|discriminate]. constructor; [eauto|]. apply IH. eauto.
  - intros H. inversion H as [|? ? [y Hy] Hl]; subst. apply IH in Hl. destruct Hl as [r Hr]. rewrite Hy, Hr. cbn [bind]. eauto.
Qed.
Lemma has_in m q : has m q = true <-> In q m. Proof. unfold has. destruct (in_dec pc_dec q m); split; intros; auto; discriminate. Qed.
Lemma pulse_ok m lt pt cl s : (exists y, assign_pulse m lt pt cl s = Ok y) <-> (forall q, pt = Some q -> exists c, cl = Some c /\ In (q, c) m).
Proof.
  unfold assign_pulse. destruct pt as [q|].
  - destruct cl as [c|]; [|split; [intros [y Hy]; discriminate|intros H; destruct (H q eq_refl) as (c & Hc & _); discriminate]].
    destruct (has m (q, c)) eqn:E; split.
    + intros _ q' [= <-]. exists c. split; [reflexivity|]. apply has_in, E.
    + eauto.
    + intros [y Hy]. discriminate.
    + intros H. destruct (H q eq_refl) as (c' & [= <-] & Hi). apply has_in in Hi. congruence.
  - split; [intros _ q H; discriminate|eauto].
Qed.
Lemma acq_ok m pt cl s : (exists y, assign_acq m pt cl s = Ok y) <-> (forall q, pt = Some q -> exists c, cl = Some c /\ In (q, c) m).
Proof.
  unfold assign_acq. destruct pt as [q|].
  - apply (pulse_ok m false (Some q) cl s).
  - split; [intros _ q H; discriminate|eauto].
Qed.
Lemma pcs_ok m s pcs : (exists a, mapM (fun q : pc => assign_pulse m false (Some (fst q)) (Some (snd q)) s) pcs = Ok a) <-> incl pcs m.
Proof.
  rewrite mapM_ok. unfold incl. rewrite Forall_forall. split; intros H q Hq; specialize (H q Hq).
  - pose proof (proj1 (pulse_ok m false (Some (fst q)) (Some (snd q)) s) H) as H'. destruct (H' _ eq_refl) as (c & [= <-] & Hi). destruct q. exact Hi.
  - apply (proj2 (pulse_ok m false (Some (fst q)) (Some (snd q)) s)). intros q' [= <-]. exists (snd q). split; [reflexivity|]. destruct q. exact H.
Qed.
Definition aop_ok (m : list pc) (x : Z * aop) : Prop :=
  match snd x with
  | ALeaf _ w ps qs => w = true \/ (ps ++ qs <> [] /\ Forall (named_ok m) (ps ++ qs))
  | ABegin _ _ pcs | AEnd pcs => pcs <> [] /\ incl pcs m
  end.
Lemma assign_op_ok m x : (exists y, assign_op m x = Ok y) <-> aop_ok m x.
Proof.
  destruct x as [T [lt w ps qs|b t0 pcs|pcs]]; unfold aop_ok; cbn [snd]; unfold assign_op.
  - destruct w; [split; [intros _; left; reflexivity|eauto]|]. rewrite Forall_app.
    assert (HH : (exists l, (do a <- mapM (fun e => assign_pulse m lt (e_port e) (e_clock e) (SOp (T + e_t0 e) (e_kind e))) ps;
      do b <- mapM (fun e => assign_acq m (e_port e) (e_clock e) (SOp (T + e_t0 e) (e_kind e))) qs; Ok (List.concat a ++ List.concat b)) = Ok l) <-> (Forall (named_ok m) ps /\ Forall (named_ok m) qs)).
    { assert (P1 := mapM_ok (fun e => assign_pulse m lt (e_port e) (e_clock e) (SOp (T + e_t0 e) (e_kind e))) ps).
      assert (P2 := mapM_ok (fun e => assign_acq m (e_port e) (e_clock e) (SOp (T + e_t0 e) (e_kind e))) qs).
      rewrite Forall_forall in P1, P2. rewrite !Forall_forall. unfold named_ok. split.
      - intros [l H]. destruct (mapM _ ps) as [a|] eqn:Ea; [|discriminate]. cbn [bind] in H. destruct (mapM _ qs) as [b|] eqn:Eb; [|discriminate].
        split; intros e He; [apply (pulse_ok m lt (e_port e) (e_clock e) (SOp (T + e_t0 e) (e_kind e))); apply P1; eauto|apply (acq_ok m (e_port e) (e_clock e) (SOp (T + e_t0 e) (e_kind e))); apply P2; eauto].
      - intros [H1 H2]. destruct (proj2 P1) as [a Ea]; [intros e He; apply pulse_ok, H1, He|]. destruct (proj2 P2) as [b Eb]; [intros e He; apply acq_ok, H2, He|]. rewrite Ea, Eb. cbn [bind]. eauto. }
    destruct ps as [|e ps]; [destruct qs as [|e qs]|].
    + cbn. split; [intros [y Hy]; discriminate|intros [Hw|[H _]]; [discriminate|contradiction H; reflexivity]].
    + rewrite HH. split; [intros H; right; split; [discriminate|exact H]|intros [Hw|[_ H]]; [discriminate|exact H]].
    + rewrite HH. split; [intros H; right; split; [discriminate|exact H]|intros [Hw|[_ H]]; [discriminate|exact H]].
  - destruct pcs as [|q pcs]; [split; [intros [y Hy]; discriminate|intros [H _]; contradiction H; reflexivity]|]. set (PCS := q :: pcs).
    change (match b with BLoop n => SLoop (T + t0) n | BCond ad => SCond (T + t0) ad end) with (begin_sop b (T + t0)).
    pose proof (pcs_ok m (begin_sop b (T + t0)) PCS) as P. split.
    + intros [y Hy]. split; [discriminate|]. apply P. match type of Hy with (do a <- ?mm; _) = _ => destruct mm as [a|] eqn:Ea; [|discriminate] end. eauto.
    + intros [_ H]. apply P in H. destruct H as [a Ea]. exists (List.concat a). change (bind (mapM (fun q : pc => assign_pulse m false (Some (fst q)) (Some (snd q)) (begin_sop b (T + t0))) PCS) (fun a => Ok (List.concat a)) = Ok (List.concat a)). rewrite Ea. reflexivity.
  - destruct pcs as [|q pcs]; [split; [intros [y Hy]; discriminate|intros [H _]; contradiction H; reflexivity]|]. set (PCS := q :: pcs).
    pose proof (pcs_ok m (SRet T) PCS) as P. split.
    + intros [y Hy]. split; [discriminate|]. apply P. match type of Hy with (do a <- ?mm; _) = _ => destruct mm as [a|] eqn:Ea; [|discriminate] end. eauto.
    + intros [_ H]. apply P in H. destruct H as [a Ea]. exists (List.concat a). change (bind (mapM (fun q : pc => assign_pulse m false (Some (fst q)) (Some (snd q)) (SRet T)) PCS) (fun a => Ok (List.concat a)) = Ok (List.concat a)). rewrite Ea. reflexivity.
Qed.
Lemma nodup_ok l m : (nodup pc_dec l <> [] /\ incl (nodup pc_dec l) m) <-> (l <> [] /\ incl l m).
Proof.
  unfold incl. split; intros [H1 H2]; split.
  - intros ->. apply H1. reflexivity.
  - intros q Hq. apply H2, nodup_In, Hq.
  - destruct l as [|q l]; [contradiction H1; reflexivity|]. intros E. assert (Hi : In q (nodup pc_dec (q :: l))) by (apply nodup_In; left; reflexivity). rewrite E in Hi. destruct Hi.
  - intros q Hq. apply H2. apply nodup_In in Hq. exact Hq.
Qed.
Lemma assignable_sub m items c : assignable m (Sub items c) <-> Forall (fun i => assignable m (snd i)) items.
Proof.
  cbn [assignable]. induction items as [|[u x] r IH]; [split; [constructor|trivial]|]. rewrite IH. split; [intros [H1 H2]; constructor; assumption|intros H; inversion H; subst; split; assumption].
Qed.
Lemma collect_ok m o : forall t, (exists acc, collect o t = Ok acc /\ Forall (aop_ok m) acc) <-> assignable m o.
Proof.
  assert (HC : forall k t0 b t, (exists acc, (do pcs <- control_pcs b; do inner <- collect b t; match duration b with None => Err AssertionErr | Some d => Ok ((t, ABegin k t0 pcs) :: inner ++ [(t + d, AEnd pcs)]) end) = Ok acc /\ Forall (aop_ok m) acc) <->
     ((exists l, used b = Ok l /\ l <> [] /\ incl l m) /\ duration b <> None /\ (exists acc, collect b t = Ok acc /\ Forall (aop_ok m) acc))).
  { intros k t0 b t. unfold control_pcs. destruct (used b) as [l|] eqn:Eu; cbn [bind].
    2:{ split; [intros (acc & H & _); discriminate|intros ((l & H & _) & _); discriminate]. }
    destruct (collect b t) as [inner|] eqn:Ei; cbn [bind].
    2:{ split; [intros (acc & H & _); discriminate|intros (_ & _ & acc & H & _); discriminate]. }
    destruct (duration b) as [d|] eqn:Ed.
    2:{ split; [intros (acc & H & _); discriminate|intros (_ & H & _); contradiction H; reflexivity]. }
    split.
    - intros (acc & [= <-] & HF). inversion HF as [|? ? H1 H2]; subst. apply Forall_app in H2. destruct H2 as [H2 _]. unfold aop_ok in H1. cbn [snd] in H1. apply (proj1 (nodup_ok l m)) in H1.
      split; [exists l; split; [reflexivity|exact H1]|]. split; [discriminate|]. eauto.
    - intros ((l' & [= <-] & H1) & _ & acc & [= <-] & H2). eexists. split; [reflexivity|]. apply nodup_ok in H1. constructor; [exact H1|]. apply Forall_app. split; [exact H2|]. constructor; [exact H1|constructor]. }
  induction o as [lt w ps qs|n t0 b IH|a t0 buf b IH|items c IH] using op_rec; intros t.
  - cbn [collect assignable]. split; [intros (acc & [= <-] & HF); inversion HF; subst; assumption|intros H; eexists; split; [reflexivity|]; constructor; [exact H|constructor]].
  - cbn [collect assignable]. cbv zeta. rewrite HC, (IH t). reflexivity.
  - cbn [collect assignable]. cbv zeta. rewrite HC, (IH t). reflexivity.
  - rewrite assignable_sub, collect_sub. induction items as [|[u x] r IHr]; [split; [constructor|intros _; eexists; split; [reflexivity|constructor]]|].
    inversion IH as [|? ? Hx Hr]; subst. cbn [snd] in Hx. specialize (IHr Hr). split.
    + intros (acc & H & HF). destruct (collect x (t + u)) as [a|] eqn:Ea; [|discriminate]. cbn [bind] in H.
      match type of H with (do b <- ?g; _) = _ => destruct g as [b|] eqn:Eb; [|discriminate] end. cbn [bind] in H. injection H as <-. apply Forall_app in HF. destruct HF as [F1 F2].
      constructor; [apply (Hx (t + u)); eauto|apply IHr; eauto].
    + intros H. inversion H as [|? ? H1 H2]; subst. apply (Hx (t + u)) in H1. destruct H1 as (a & Ea & Fa). apply IHr in H2. destruct H2 as (b & Eb & Fb).
      exists (a ++ b). rewrite Ea. cbn [bind]. rewrite Eb. cbn [bind]. split; [reflexivity|]. apply Forall_app. split; assumption.
Qed.
(** Distribution succeeds exactly when the hardware configuration offers what the schedule needs. *)
Theorem C38_accepted_iff : forall mapping o, (exists l, assign_all mapping o = Ok l) <-> assignable mapping o.
Proof.
  intros m o. rewrite <- (collect_ok m o 0). unfold assign_all. destruct (collect o 0) as [acc|] eqn:Ec; cbn [bind].
  2:{ split; [intros [l H]; discriminate|intros (acc & H & _); discriminate]. }
  assert (P := mapM_ok (assign_op m) (isort (fun a b : Z * aop => fst a <=? fst b) acc)).
  assert (Q : Forall (fun x => exists y, assign_op m x = Ok y) (isort (fun a b : Z * aop => fst a <=? fst b) acc) <-> Forall (aop_ok m) acc).
  { rewrite !Forall_forall. split; intros H x Hx; apply assign_op_ok, H; [apply isort_In; exact Hx|apply isort_In in Hx; exact Hx]. }
  rewrite Q in P. split.
  - intros [l H]. exists acc. split; [reflexivity|]. apply P. match type of H with (do infos <- ?g; _) = _ => destruct g as [infos|]; [|discriminate] end. eauto.
  - intros (acc' & [= <-] & HF). apply P in HF. destruct HF as [r Hr]. rewrite Hr. cbn [bind]. eauto.
Qed.

(** *** Durations *)
Lemma fold_max_in l : forall a, In (fold_left Z.max l a) (a :: l).
Proof.
  induction l as [|b l IH]; intros a; cbn [fold_left]; [left; reflexivity|]. destruct (IH (Z.max a b)) as [H|H]; [|right; right; exact H].
  rewrite <- H. destruct (Z.max_spec a b) as [[_ E]|[_ E]]; rewrite E; cbn; tauto.
Qed.
Definition list_eq_nil_dec {A} (l : list A) : {l = []} + {l <> []}. Proof. destruct l; [left; reflexivity|right; discriminate]. Defined.
Lemma leaf_duration_max l e : In e l -> (leaf_duration l = e_t0 e + e_dur e <-> forall e', In e' l -> e_t0 e' + e_dur e' <= e_t0 e + e_dur e).
Proof.
  intros He. split; [intros <-; intros; apply leaf_duration_ge; assumption|]. intros H.
  destruct l as [|e0 l0]; [destruct He|]. apply Z.le_antisymm; [|apply leaf_duration_ge; exact He].
  unfold leaf_duration, ends. cbn [map]. pose proof (fold_max_in (map (fun e => e_t0 e + e_dur e) l0) (e_t0 e0 + e_dur e0)) as Hm.
  change (_ :: map _ l0) with (map (fun e => e_t0 e + e_dur e) (e0 :: l0)) in Hm. apply in_map_iff in Hm. destruct Hm as (e1 & <- & Hin). apply H, Hin.
Qed.
Lemma leaf_duration_attained l : l <> [] -> exists e, In e l /\ leaf_duration l = e_t0 e + e_dur e.
Proof.
  destruct l as [|e0 l0]; [intros H; contradiction H; reflexivity|]. intros _.
  unfold leaf_duration, ends. cbn [map]. pose proof (fold_max_in (map (fun e => e_t0 e + e_dur e) l0) (e_t0 e0 + e_dur e0)) as Hm.
  change (_ :: map _ l0) with (map (fun e => e_t0 e + e_dur e) (e0 :: l0)) in Hm. apply in_map_iff in Hm. destruct Hm as (e1 & H1 & Hin). exists e1. split; [exact Hin|symmetry; exact H1].
Qed.
Theorem C38_durations : forall o d, duration o = Some d <-> lasts o d.
Proof.
  induction o as [lt w ps qs|n t0 b IH|a t0 buf b IH|items c IH] using op_rec; intros d.
  - cbn [duration]. split.
    + intros [= <-]. destruct (list_eq_nil_dec (ps ++ qs)) as [E|E].
      * rewrite E. apply app_eq_nil in E. destruct E as [-> ->]. apply l_empty.
      * destruct (leaf_duration_attained _ E) as (e & Hin & Ee). rewrite Ee. apply l_leaf; [exact Hin|]. apply leaf_duration_max; assumption.
    + intros H. inversion H; subst; [reflexivity|]. f_equal. apply leaf_duration_max; assumption.
  - cbn [duration]. split.
    + destruct (duration b) as [d'|]; [|discriminate]. intros [= <-]. constructor. apply IH. reflexivity.
    + intros H. inversion H; subst. match goal with HH : lasts b _ |- _ => apply IH in HH; rewrite HH end. reflexivity.
  - cbn [duration]. split.
    + destruct (duration b) as [d'|]; [|discriminate]. intros [= <-]. constructor. apply IH. reflexivity.
    + intros H. inversion H; subst. match goal with HH : lasts b _ |- _ => apply IH in HH; rewrite HH end. reflexivity.
  - cbn [duration]. split; [intros ->; constructor|intros H; inversion H; reflexivity].
Qed.
