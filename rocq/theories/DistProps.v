(** From a schedule to the operations of one sequencer. *)
From Verif Require Import Base Q1Model Q1Machine Q1Spec DistModel DistSpec DistSort.
From Coq Require Import List Permutation.
Open Scope Z_scope.

(** induction over schedules *)
Section OpInd.
Variable P : op -> Prop.
Hypothesis HL : forall lt w ps qs, P (Leaf lt w ps qs).
Hypothesis HLo : forall n t0 b, P b -> P (Loop n t0 b).
Hypothesis HC : forall a t0 buf b, P b -> P (Cond a t0 buf b).
Hypothesis HS : forall items c, Forall (fun i => P (snd i)) items -> P (Sub items c).
Fixpoint op_rec (o : op) : P o :=
  match o with
  | Leaf lt w ps qs => HL lt w ps qs
  | Loop n t0 b => HLo n t0 b (op_rec b)
  | Cond a t0 buf b => HC a t0 buf b (op_rec b)
  | Sub items c => HS items c ((fix go l : Forall (fun i => P (snd i)) l := match l with [] => Forall_nil _ | i :: r => Forall_cons i (op_rec (snd i)) (go r) end) items)
  end.
End OpInd.

(** an element: start of its operation, and the operation as the sequencer sees it *)
Definition E : Type := (Z * sop)%type.
Definition etime (x : E) : Z := sop_time (snd x).
Definition elex := @le_lex E etime fst.
Definition begin_sop (b : beginning) (t : Z) : sop := match b with BLoop n => SLoop t n | BCond a => SCond t a end.
Definition uses (p : pc) (b : op) : bool := match used b with Ok l => has l p | Err _ => false end.

(** the elements for [p], in the order of collection *)
Fixpoint ents (p : pc) (o : op) (t : Z) : list E :=
  let control b t0 body :=
    if uses p body then (t, begin_sop b (t + t0)) :: ents p body t ++ [(t + match duration body with Some d => d | None => 0 end, SRet (t + match duration body with Some d => d | None => 0 end))]
    else ents p body t in
  match o with
  | Leaf lt w ps qs => map (fun e => (t, SOp (t + e_t0 e) (e_kind e))) (leaf_for p lt w ps qs)
  | Loop n t0 b => control (BLoop n) t0 b
  | Cond a t0 _ b => control (BCond a) t0 b
  | Sub items _ => flat_map (fun i => ents p (snd i) (t + fst i)) items
  end.
Definition ex (p : pc) (x : Z * aop) : list E :=
  let '(T, a) := x in
  match a with
  | ALeaf lt w ps qs => map (fun e => (T, SOp (T + e_t0 e) (e_kind e))) (leaf_for p lt w ps qs)
  | ABegin b t0 pcs => if has pcs p then [(T, begin_sop b (T + t0))] else []
  | AEnd pcs => if has pcs p then [(T, SRet T)] else []
  end.
Definition good (x : Z * aop) : Prop := match snd x with ABegin _ _ pcs | AEnd pcs => NoDup pcs | _ => True end.

Lemma collect_sub items c t : collect (Sub items c) t =
  (fix go l := match l with [] => Ok [] | (u, x) :: r => do a <- collect x (t + u); do b <- go r; Ok (a ++ b) end) items.
Proof. reflexivity. Qed.
Lemma has_nodup l p : has (nodup pc_dec l) p = has l p.
Proof. unfold has. destruct (in_dec pc_dec p (nodup pc_dec l)) as [H|H], (in_dec pc_dec p l) as [H'|H']; auto; rewrite nodup_In in H; contradiction. Qed.

Lemma collect_ents p o : forall t acc, collect o t = Ok acc -> Forall good acc /\ flat_map (ex p) acc = ents p o t.
Proof.
  induction o as [lt w ps qs|n t0 b IH|a t0 buf b IH|items c IH] using op_rec; intros t acc H.
  - cbn in H. injection H as <-. split; [repeat constructor|]. cbn [flat_map ex ents]. apply app_nil_r.
  - cbn [collect] in H. unfold control_pcs in H. cbn [ents]. unfold uses. destruct (used b) as [l|] eqn:Eu; [|discriminate]. cbn [bind] in H.
    destruct (collect b t) as [inner|] eqn:Ei; [|discriminate]. cbn [bind] in H. destruct (duration b) as [d|] eqn:Ed; [|discriminate]. injection H as <-.
    destruct (IH _ _ Ei) as [G1 G2]. split.
    + constructor; [cbn; apply NoDup_nodup|]. apply Forall_app. split; [exact G1|]. constructor; [cbn; apply NoDup_nodup|constructor].
    + cbn [flat_map]. rewrite flat_map_app, G2. cbn [flat_map ex]. rewrite has_nodup, app_nil_r. destruct (has l p); cbn [app]; [reflexivity|apply app_nil_r].
  - cbn [collect] in H. unfold control_pcs in H. cbn [ents]. unfold uses. destruct (used b) as [l|] eqn:Eu; [|discriminate]. cbn [bind] in H.
    destruct (collect b t) as [inner|] eqn:Ei; [|discriminate]. cbn [bind] in H. destruct (duration b) as [d|] eqn:Ed; [|discriminate]. injection H as <-.
    destruct (IH _ _ Ei) as [G1 G2]. split.
    + constructor; [cbn; apply NoDup_nodup|]. apply Forall_app. split; [exact G1|]. constructor; [cbn; apply NoDup_nodup|constructor].
    + cbn [flat_map]. rewrite flat_map_app, G2. cbn [flat_map ex]. rewrite has_nodup, app_nil_r. destruct (has l p); cbn [app]; [reflexivity|apply app_nil_r].
  - rewrite collect_sub in H. cbn [ents]. revert acc H. induction items as [|[u x] r IHr]; intros acc H.
    + injection H as <-. split; [constructor|reflexivity].
    + inversion IH as [|? ? Hx Hr]; subst. cbn [snd] in Hx. destruct (collect x (t + u)) as [a|] eqn:Ea; [|discriminate]. cbn [bind] in H.
      match type of H with (do b <- ?g; _) = _ => destruct g as [b|] eqn:Eb; [|discriminate] end. cbn [bind] in H. injection H as <-.
      destruct (Hx _ _ Ea) as [G1 G2]. destruct (IHr Hr _ eq_refl) as [G3 G4]. split; [apply Forall_app; split; assumption|].
      rewrite flat_map_app, G2. cbn [flat_map fst snd]. f_equal. exact G4.
Qed.

(** *** Distribution *)
Definition is_p (p : pc) (x : pc * sop) : bool := if pc_dec (fst x) p then true else false.
Lemma filter_concat {A} (f : A -> bool) ls : filter f (List.concat ls) = flat_map (filter f) ls.
Proof. induction ls as [|l ls IH]; [reflexivity|]. cbn. rewrite filter_app, IH. reflexivity. Qed.
Lemma flat_map_mapM {A B C} (f : A -> result B) (g : B -> list C) (h : A -> list C) l r :
  mapM f l = Ok r -> (forall x y, In x l -> f x = Ok y -> g y = h x) -> flat_map g r = flat_map h l.
Proof.
  revert r. induction l as [|x l IH]; intros r H Hf; cbn [mapM] in H; [injection H as <-; reflexivity|].
  destruct (f x) as [y|] eqn:E; [|discriminate]. cbn [bind] in H. destruct (mapM f l) as [ys|] eqn:E2; [|discriminate]. cbn [bind] in H. injection H as <-.
  cbn [flat_map]. rewrite (Hf x y) by (auto; left; reflexivity). f_equal. apply IH; [reflexivity|]. intros; eapply Hf; eauto; right; assumption.
Qed.
Lemma eqb_pc a b q c : (String.eqb a q && String.eqb b c)%bool = if pc_dec (a, b) (q, c) then true else false.
Proof.
  destruct (pc_dec (a, b) (q, c)) as [H|H].
  - injection H as -> ->. rewrite !String.eqb_refl. reflexivity.
  - destruct (String.eqb a q) eqn:E1, (String.eqb b c) eqn:E2; auto. apply String.eqb_eq in E1, E2. congruence.
Qed.
Lemma filter_mapping (p : pc) (f : pc -> bool) s mapping : NoDup mapping -> In p mapping ->
  map snd (filter (is_p p) (map (fun q => (q, s)) (filter f mapping))) = if f p then [s] else @nil sop.
Proof.
  induction mapping as [|q m IH]; [intros _ []|]. intros Hn Hin. inversion Hn as [|? ? Hnq Hnm]; subst. cbn [filter].
  assert (Hz : forall m', ~ In p m' -> map snd (filter (is_p p) (map (fun q => (q, s)) (filter f m'))) = []).
  { clear. induction m' as [|q m' IH]; intros H; [reflexivity|]. cbn [filter]. destruct (f q); cbn [map filter]; [|apply IH; intros Hc; apply H; right; exact Hc].
    unfold is_p at 1. cbn [fst]. destruct (pc_dec q p) as [->|]; [exfalso; apply H; left; reflexivity|]. apply IH. intros Hc; apply H; right; exact Hc. }
  destruct Hin as [->|Hin].
  - destruct (f p) eqn:E; cbn [map filter]; [|apply Hz, Hnq]. unfold is_p at 1. cbn [fst]. destruct (pc_dec p p); [|congruence]. cbn [map snd]. f_equal. apply Hz, Hnq.
  - destruct (f q); cbn [map filter]; [|apply IH; assumption]. unfold is_p at 1. cbn [fst]. destruct (pc_dec q p) as [->|]; [contradiction|]. apply IH; assumption.
Qed.
Lemma assign_pulse_for p mapping latch e s y : NoDup mapping -> In p mapping -> assign_pulse mapping latch (e_port e) (e_clock e) s = Ok y ->
  map snd (filter (is_p p) y) = if pulse_for p latch e then [s] else [].
Proof.
  intros Hn Hin H. unfold assign_pulse in H. unfold pulse_for. destruct (e_port e) as [q|].
  - destruct (e_clock e) as [c|]; [|discriminate]. destruct (has mapping (q, c)); [|discriminate]. injection H as <-. cbn [filter]. unfold is_p. cbn [fst].
    destruct p as [pp pcl]. cbn [fst snd]. rewrite eqb_pc. destruct (pc_dec (q, c) (pp, pcl)); reflexivity.
  - injection H as <-. exact (filter_mapping p (fun q => latch || match e_clock e with Some c => String.eqb (snd q) c | None => false end)%bool s mapping Hn Hin).
Qed.
Lemma assign_acq_for p mapping e s y : In p mapping -> assign_acq mapping (e_port e) (e_clock e) s = Ok y ->
  map snd (filter (is_p p) y) = if acq_for p e then [s] else [].
Proof.
  intros Hin H. unfold assign_acq in H. unfold acq_for. destruct (e_port e) as [q|].
  - destruct (e_clock e) as [c|]; [|discriminate]. destruct (has mapping (q, c)); [|discriminate]. injection H as <-. cbn [filter]. unfold is_p. cbn [fst].
    destruct p as [pp pcl]. cbn [fst snd]. rewrite eqb_pc. destruct (pc_dec (q, c) (pp, pcl)); reflexivity.
  - injection H as <-. reflexivity.
Qed.
Lemma flat_map_if {A B} (f : A -> bool) (g : A -> B) l : flat_map (fun x => if f x then [g x] else []) l = map g (filter f l).
Proof. induction l as [|x l IH]; [reflexivity|]. cbn. rewrite IH. destruct (f x); reflexivity. Qed.
Lemma map_flat_map {A B C} (g : B -> C) (f : A -> list B) l : map g (flat_map f l) = flat_map (fun x => map g (f x)) l.
Proof. induction l as [|x l IH]; [reflexivity|]. cbn. rewrite map_app, IH. reflexivity. Qed.
Lemma pcs_filter p mapping s pcs a : NoDup pcs -> mapM (fun q => assign_pulse mapping false (Some (fst q)) (Some (snd q)) s) pcs = Ok a ->
  map snd (filter (is_p p) (List.concat a)) = if has pcs p then [s] else @nil sop.
Proof.
  revert a. induction pcs as [|q pcs IH]; intros a Hn H; cbn [mapM] in H; [injection H as <-; reflexivity|]. inversion Hn as [|? ? H1 H2]; subst.
  unfold assign_pulse in H at 1. destruct q as [qp qc]. cbn [fst snd] in H. destruct (has mapping (qp, qc)); [|discriminate]. cbn [bind] in H.
  destruct (mapM _ pcs) as [ys|] eqn:E; [|discriminate]. cbn [bind] in H. injection H as <-. specialize (IH ys H2 eq_refl).
  cbn [List.concat app]. cbn [filter]. unfold is_p at 1. cbn [fst]. unfold has. destruct (pc_dec (qp, qc) p) as [<-|Hne].
  - cbn [map snd]. destruct (in_dec pc_dec (qp, qc) ((qp, qc) :: pcs)) as [_|H]; [|exfalso; apply H; left; reflexivity]. rewrite IH. unfold has.
    destruct (in_dec pc_dec (qp, qc) pcs); [contradiction|reflexivity].
  - rewrite IH. unfold has. destruct (in_dec pc_dec p pcs) as [Hi|Hi], (in_dec pc_dec p ((qp, qc) :: pcs)) as [Hj|Hj]; auto.
    + exfalso. apply Hj. right. exact Hi.
    + destruct Hj as [Hj|Hj]; [congruence|contradiction].
Qed.

Lemma assign_ex p mapping x l : NoDup mapping -> In p mapping -> good x -> assign_op mapping x = Ok l -> map snd (filter (is_p p) l) = map snd (ex p x).
Proof.
  intros Hn Hin Hg H. destruct x as [T [lt w ps qs|b t0 pcs|pcs]]; unfold assign_op in H; cbn [ex].
  - unfold leaf_for. destruct w; [injection H as <-; reflexivity|].
    assert (H' : (do a <- mapM (fun e => assign_pulse mapping lt (e_port e) (e_clock e) (SOp (T + e_t0 e) (e_kind e))) ps;
      do b <- mapM (fun e => assign_acq mapping (e_port e) (e_clock e) (SOp (T + e_t0 e) (e_kind e))) qs; Ok (List.concat a ++ List.concat b)) = Ok l)
      by (destruct ps; [destruct qs; [discriminate|exact H]|exact H]). clear H.
    destruct (mapM _ ps) as [a|] eqn:Ea; [|discriminate]. cbn [bind] in H'. destruct (mapM _ qs) as [b|] eqn:Eb; [|discriminate]. cbn [bind] in H'. injection H' as <-.
    rewrite filter_app, map_app, !filter_concat, !map_flat_map, map_map, map_app. cbn [snd]. f_equal.
    + rewrite (flat_map_mapM _ _ (fun e => if pulse_for p lt e then [SOp (T + e_t0 e) (e_kind e)] else []) _ _ Ea); [apply flat_map_if|].
      intros e y _ Hy. eapply assign_pulse_for; eassumption.
    + rewrite (flat_map_mapM _ _ (fun e => if acq_for p e then [SOp (T + e_t0 e) (e_kind e)] else []) _ _ Eb); [apply flat_map_if|].
      intros e y _ Hy. eapply assign_acq_for; eassumption.
  - destruct pcs as [|q pcs]; [discriminate|]. cbv zeta in H. set (PCS := q :: pcs) in *.
    change (match b with BLoop n => SLoop (T + t0) n | BCond ad => SCond (T + t0) ad end) with (begin_sop b (T + t0)) in H.
    match type of H with (do a <- ?m; _) = _ => destruct m as [a|] eqn:Ea; [|discriminate] end. cbn [bind] in H. injection H as <-. rewrite (pcs_filter _ _ _ _ _ Hg Ea). destruct (has PCS p); reflexivity.
  - destruct pcs as [|q pcs]; [discriminate|]. set (PCS := q :: pcs) in *.
    match type of H with (do a <- ?m; _) = _ => destruct m as [a|] eqn:Ea; [|discriminate] end. cbn [bind] in H. injection H as <-. rewrite (pcs_filter _ _ _ _ _ Hg Ea). destruct (has PCS p); reflexivity.
Qed.

(** sorting the operations, then spelling out their elements *)
Lemma ex_time p x y : In y (ex p x) -> fst y = fst x.
Proof.
  destruct x as [T [lt w ps qs|b t0 pcs|pcs]]; cbn [ex].
  - intros H. apply in_map_iff in H. destruct H as (e & <- & _). reflexivity.
  - destruct (has pcs p); [intros [<-|[]]; reflexivity|intros []].
  - destruct (has pcs p); [intros [<-|[]]; reflexivity|intros []].
Qed.
Lemma srt_const {A} (o : A -> Z) l T : (forall x, In x l -> o x = T) -> srt (le_o o) l.
Proof.
  induction l as [|x l IH]; intros H; [exact I|]. cbn [srt]. split; [|apply IH; intros; apply H; right; assumption].
  intros y Hy. unfold le_o. rewrite (H x (or_introl eq_refl)), (H y (or_intror Hy)). lia.
Qed.
Lemma ex_sort p acc : flat_map (ex p) (isort (fun a b : Z * aop => fst a <=? fst b) acc) = isort (le_o (fst : E -> Z)) (flat_map (ex p) acc).
Proof.
  induction acc as [|x acc IH]; [reflexivity|]. rewrite isort_cons. cbn [flat_map]. rewrite isort_app, <- IH.
  destruct (insert_split (le_o (fst : Z * aop -> Z)) ltac:(intros; eapply o_trans; eassumption) x (isort (fun a b : Z * aop => fst a <=? fst b) acc)) as (B & C & E1 & E2 & HB & HC).
  { apply isort_srt; [apply o_total|apply o_trans]. }
  unfold le_o in E2. rewrite E2, E1, !flat_map_app. cbn [flat_map]. symmetry. apply insert_block.
  - apply srt_const with (T := fst x). intros y Hy. eapply ex_time, Hy.
  - intros b y Hb Hy. apply in_flat_map in Hb. destruct Hb as (z & Hz & Hb). apply ex_time in Hb, Hy. specialize (HB z Hz). unfold lt, le_o in *. lia.
  - intros c y Hc Hy. apply in_flat_map in Hc. destruct Hc as (z & Hz & Hc). apply ex_time in Hc, Hy. specialize (HC z Hz). unfold le_o in *. lia.
Qed.

Lemma seq_ops_ents mapping o p ops : NoDup mapping -> In p mapping -> seq_ops mapping o p = Ok ops -> ops = map snd (isort elex (ents p o 0)).
Proof.
  intros Hn Hin H. unfold seq_ops, assign_all in H. destruct (collect o 0) as [acc|] eqn:Ec; [|discriminate]. cbn [bind] in H.
  destruct (mapM _ _) as [infos|] eqn:Em; [|discriminate]. cbn [bind] in H. injection H as <-.
  destruct (collect_ents p _ _ _ Ec) as [Hg He]. fold (is_p p). change (fun x : pc * sop => if pc_dec (fst x) p then true else false) with (is_p p).
  rewrite filter_concat, map_flat_map.
  rewrite (flat_map_mapM _ _ (fun x => map snd (ex p x)) _ _ Em).
  2:{ intros x y Hx Hy. eapply assign_ex; try eassumption. rewrite Forall_forall in Hg. apply Hg. apply isort_In in Hx. exact Hx. }
  rewrite <- map_flat_map, ex_sort, He.
  rewrite (isort_map (snd : E -> sop) (le_e etime)); [|reflexivity]. rewrite sort_twice. reflexivity.
Qed.
