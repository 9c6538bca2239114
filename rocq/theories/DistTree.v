(** The sorted operation list of a sequencer is the flattened forest of what the schedule asks for. *)
From Verif Require Import Base Q1Model Q1Machine Q1Spec DistModel DistSpec DistSort DistProps.
From Coq Require Import List Permutation.
Open Scope Z_scope.

Definition dur0 (o : op) : Z := match duration o with Some d => d | None => 0 end.

(** *** Durations and bounds *)
Lemma fold_max_ge l : forall a x, In x (a :: l) -> x <= fold_left Z.max l a.
Proof.
  induction l as [|b l IH]; intros a x H; cbn [fold_left].
  - destruct H as [<-|[]]. lia.
  - destruct H as [<-|[<-|H]].
    + etransitivity; [|apply IH; left; reflexivity]. lia.
    + etransitivity; [|apply IH; left; reflexivity]. lia.
    + apply IH. right. exact H.
Qed.
Lemma leaf_duration_ge l e : In e l -> e_t0 e + e_dur e <= leaf_duration l.
Proof.
  intros H. unfold leaf_duration. apply (in_map (fun e => e_t0 e + e_dur e)) in H. fold (ends l) in H. destruct (ends l) as [|x r]; [destruct H|]. apply fold_max_ge, H.
Qed.
Lemma leaf_duration_nonneg l : Forall (fun e => 0 <= e_t0 e /\ 0 <= e_dur e) l -> 0 <= leaf_duration l.
Proof.
  intros H. destruct l as [|e l]; [unfold leaf_duration; cbn; lia|]. inversion H; subst. pose proof (leaf_duration_ge (e :: l) e (or_introl eq_refl)). lia.
Qed.
Definition items_compiled (D : Z) (l : list (Z * op)) : Prop := Forall (fun i => 0 <= fst i /\ compiled (snd i) /\ (forall d, duration (snd i) = Some d -> fst i + d <= D)) l.
Lemma compiled_sub items c : compiled (Sub items c) <-> exists D, c = Some D /\ 0 <= D /\ items_compiled D items.
Proof.
  cbn [compiled]. split; intros (D & H1 & H2 & H3); exists D; split; auto; split; auto; clear H1 H2; unfold items_compiled in *; revert H3.
  - induction items as [|[u x] r IH]; intros H; [constructor|]. destruct H as [H H']. constructor; [exact H|apply IH, H'].
  - induction items as [|[u x] r IH]; intros H; [exact I|]. inversion H; subst. split; [assumption|apply IH; assumption].
Qed.
Lemma bodies_sub p items c : bodies_separate p (Sub items c) <-> Forall (fun i => bodies_separate p (snd i)) items.
Proof.
  cbn [bodies_separate]. induction items as [|[u x] r IH]; [split; [constructor|trivial]|]. rewrite IH. split; [intros [H1 H2]; constructor; assumption|intros H; inversion H; subst; split; assumption].
Qed.
Lemma names_sub p items c : names_port p (Sub items c) <-> Forall (fun i => names_port p (snd i)) items.
Proof.
  cbn [names_port]. induction items as [|[u x] r IH]; [split; [constructor|trivial]|]. rewrite IH. split; [intros [H1 H2]; constructor; assumption|intros H; inversion H; subst; split; assumption].
Qed.
Lemma compiled_duration o : compiled o -> exists d, duration o = Some d /\ 0 <= d.
Proof.
  induction o as [lt w ps qs|n t0 b IH|a t0 buf b IH|items c IH] using op_rec; intros H.
  - cbn. eexists. split; [reflexivity|]. apply leaf_duration_nonneg. eapply Forall_impl; [|exact H]. cbn. tauto.
  - destruct H as (H1 & H2 & H3). destruct (IH H3) as (d & E & Hd). cbn [duration]. rewrite E. eexists. split; [reflexivity|]. nia.
  - destruct H as (H1 & H2 & H3). destruct (IH H3) as (d & E & Hd). cbn [duration]. rewrite E. eexists. split; [reflexivity|]. lia.
  - apply compiled_sub in H. destruct H as (D & -> & H & _). cbn. eauto.
Qed.
Lemma leaf_for_in p lt w ps qs e : In e (leaf_for p lt w ps qs) -> In e (ps ++ qs).
Proof.
  unfold leaf_for. destruct w; [intros []|]. intros H. apply in_app_or in H. apply in_or_app. destruct H as [H|H]; apply filter_In in H; tauto.
Qed.

Definition within (t d : Z) (x : E) : Prop := t <= fst x /\ fst x <= etime x /\ etime x <= t + d.
Lemma begin_time b t : sop_time (begin_sop b t) = t. Proof. destruct b; reflexivity. Qed.
Lemma control_within p b t d body k : 0 <= d -> duration body = Some d -> (forall x, In x (ents p body t) -> within t d x) ->
  forall x, In x (if uses p body then (t, begin_sop k (t + 0)) :: ents p body t ++ [(t + match duration body with Some d => d | None => 0 end, SRet (t + match duration body with Some d => d | None => 0 end))] else ents p body t) -> within t d x /\ (b = true -> True).
Proof.
  intros Hd Ed Hb x Hx. split; [|trivial]. destruct (uses p body); [|apply Hb, Hx]. rewrite Ed in Hx. destruct Hx as [<-|Hx].
  - unfold within, etime. cbn [fst snd]. rewrite begin_time. lia.
  - apply in_app_or in Hx. destruct Hx as [Hx|[<-|[]]]; [apply Hb, Hx|]. unfold within, etime. cbn [fst snd sop_time]. lia.
Qed.
Lemma ents_within p o : compiled o -> forall t x, In x (ents p o t) -> within t (dur0 o) x.
Proof.
  induction o as [lt w ps qs|n t0 b IH|a t0 buf b IH|items c IH] using op_rec; intros Hc t x Hx.
  - cbn [ents] in Hx. apply in_map_iff in Hx. destruct Hx as (e & <- & He). apply leaf_for_in in He. pose proof (leaf_duration_ge _ _ He).
    cbn [compiled] in Hc. rewrite Forall_forall in Hc. specialize (Hc e He). unfold within, etime, dur0. cbn [fst snd sop_time duration]. lia.
  - destruct Hc as (H1 & -> & H3). destruct (compiled_duration _ H3) as (d & E & Hd). specialize (IH H3). unfold dur0 in *. cbn [duration]. rewrite E in *.
    cbn [ents] in Hx. assert (Hw : within t d x) by (eapply (control_within p true); eauto). unfold within in *. nia.
  - destruct Hc as (-> & H1 & H3). destruct (compiled_duration _ H3) as (d & E & Hd). specialize (IH H3). unfold dur0 in *. cbn [duration]. rewrite E in *.
    cbn [ents] in Hx. assert (Hw : within t d x) by (eapply (control_within p true); eauto). unfold within in *. lia.
  - apply compiled_sub in Hc. destruct Hc as (D & -> & HD & Hi). unfold dur0. cbn [duration ents] in *. apply in_flat_map in Hx. destruct Hx as (i & Hin & Hx).
    unfold items_compiled in Hi. rewrite Forall_forall in Hi, IH. destruct (Hi i Hin) as (H1 & H2 & H3). specialize (IH i Hin H2 _ _ Hx).
    destruct (compiled_duration _ H2) as (d & E & Hd). specialize (H3 d E). unfold dur0 in IH. rewrite E in IH. unfold within in *. lia.
Qed.

(** *** Which port-clocks a body uses *)
Lemma used_leaf lt w ps qs l : used (Leaf lt w ps qs) = Ok l -> l = flat_map named (ps ++ qs).
Proof. destruct ps, qs; cbn [used]; intros H; congruence. Qed.
Lemma used_reaches p o : compiled o -> forall l, used o = Ok l -> In p l -> reaches p o = true.
Proof.
  induction o as [lt w ps qs|n t0 b IH|a t0 buf b IH|items c IH] using op_rec; intros Hc l H Hin.
  - apply used_leaf in H. subst l. apply in_flat_map in Hin. destruct Hin as (e & He & Hp). cbn [compiled] in Hc. rewrite Forall_forall in Hc. destruct (Hc e He) as (_ & _ & Hw).
    unfold named in Hp. destruct (e_port e) as [q|] eqn:Ep; [|destruct Hp]. destruct (e_clock e) as [cl|] eqn:Ec; [|destruct Hp]. destruct Hp as [<-|[]].
    destruct w; [specialize (Hw eq_refl); discriminate|]. cbn [reaches]. unfold leaf_for.
    assert (Hi : In e (filter (pulse_for (q, cl) lt) ps ++ filter (acq_for (q, cl)) qs)).
    { apply in_or_app. apply in_app_or in He. destruct He as [He|He]; [left|right]; apply filter_In; (split; [exact He|]); unfold pulse_for, acq_for; rewrite Ep, Ec; cbn [fst snd]; rewrite !String.eqb_refl; reflexivity. }
    destruct (filter _ ps ++ _); [destruct Hi|reflexivity].
  - destruct Hc as (_ & _ & Hc). exact (IH Hc l H Hin).
  - destruct Hc as (_ & _ & Hc). exact (IH Hc l H Hin).
  - apply compiled_sub in Hc. destruct Hc as (D & _ & _ & Hi). cbn [reaches used] in *. clear c. revert l H Hin. induction items as [|[u x] r IHr]; intros l H Hin.
    + injection H as <-. destruct Hin.
    + inversion IH as [|? ? Hx Hr]; inversion Hi as [|? ? Hxc Hrc]; subst. cbn [snd fst] in *. destruct (used x) as [la|] eqn:Ea; [|discriminate]. cbn [bind] in H.
      match type of H with (do b <- ?g; _) = _ => destruct g as [lb|] eqn:Eb; [|discriminate] end. cbn [bind] in H. injection H as <-.
      cbn [existsb snd]. apply in_app_or in Hin. destruct Hin as [Hin|Hin].
      * rewrite (Hx (proj1 (proj2 Hxc)) _ eq_refl Hin). reflexivity.
      * rewrite (IHr Hr Hrc _ eq_refl Hin). apply orb_true_r.
Qed.
Lemma uses_reaches p b : compiled b -> (reaches p b = true -> exists l, used b = Ok l /\ In p l) -> uses p b = reaches p b.
Proof.
  intros Hc Hn. unfold uses. destruct (reaches p b) eqn:E.
  - destruct (Hn eq_refl) as (l & -> & Hl). unfold has. destruct (in_dec pc_dec p l); [reflexivity|contradiction].
  - destruct (used b) as [l|] eqn:Eu; [|reflexivity]. unfold has. destruct (in_dec pc_dec p l) as [Hi|]; [|reflexivity]. rewrite (used_reaches p b Hc l Eu Hi) in E. discriminate.
Qed.
Lemma reaches_ents p o : compiled o -> names_port p o -> forall t, reaches p o = false -> ents p o t = [].
Proof.
  induction o as [lt w ps qs|n t0 b IH|a t0 buf b IH|items c IH] using op_rec; intros Hc Hn t H.
  - cbn [reaches ents] in *. destruct (leaf_for p lt w ps qs); [reflexivity|discriminate].
  - destruct Hc as (_ & _ & Hc). destruct Hn as [Hn1 Hn2]. cbn [reaches ents] in *. rewrite uses_reaches, H by assumption. apply IH; assumption.
  - destruct Hc as (_ & _ & Hc). destruct Hn as [Hn1 Hn2]. cbn [reaches ents] in *. rewrite uses_reaches, H by assumption. apply IH; assumption.
  - apply compiled_sub in Hc. destruct Hc as (D & _ & _ & Hi). apply names_sub in Hn. cbn [reaches ents] in *. induction items as [|i r IHr]; [reflexivity|].
    inversion IH as [|? ? Ja Jb]; inversion Hi as [|? ? Ka Kb]; inversion Hn as [|? ? La Lb]; subst. cbn [existsb] in H. apply orb_false_iff in H. destruct H as [G1 G2]. cbn [flat_map]. rewrite IHr by assumption.
    rewrite Ja; [reflexivity|tauto|assumption|exact G1].
Qed.

(** *** Blocks *)
Record blk := { bnode : pnode; bels : list E; bhd : E }.
Definition mknode (b : beginning) (t : Z) (body : list pnode) (te : Z) : pnode := match b with BLoop n => PLoop t n body te | BCond a => PCond t a body te end.
Definition ctl_block (k : beginning) (t d : Z) (B : list blk) : blk :=
  let S := isort (ble elex bhd) B in
  {| bnode := mknode k t (map bnode S) (t + d); bels := (t, begin_sop k t) :: flat_map bels S ++ [(t + d, SRet (t + d))]; bhd := (t, begin_sop k t) |}.
Fixpoint blocks (p : pc) (o : op) (t : Z) : list blk :=
  match o with
  | Leaf lt w ps qs => map (fun e => {| bnode := POp (t + e_t0 e) (e_kind e); bels := [(t, SOp (t + e_t0 e) (e_kind e))]; bhd := (t, SOp (t + e_t0 e) (e_kind e)) |}) (leaf_for p lt w ps qs)
  | Loop n _ b => if reaches p b then [ctl_block (BLoop n) t (dur0 b) (blocks p b t)] else []
  | Cond a _ _ b => if reaches p b then [ctl_block (BCond a) t (dur0 b) (blocks p b t)] else []
  | Sub items _ => flat_map (fun i => blocks p (snd i) (t + fst i)) items
  end.
Definition blk_good (b : blk) : Prop := block_ok elex bels bhd b /\ map snd (bels b) = flat (bnode b).
Definition piece_good (p : pc) (i : Z * op) : Prop :=
  let B := blocks p (snd i) (fst i) in
  (forall b x, In b B -> In x (bels b) -> within (fst i) (extent (snd i)) x) /\
  ForallOrdPairs (blocks_apart elex bels) B /\ (B <> [] -> reaches p (snd i) = true) /\ (is_flow (snd i) = false -> forall b, In b B -> exists x, bels b = [x]).

Lemma elex_total x y : elex x y = true \/ elex y x = true. Proof. apply lex_total. Qed.
Lemma elex_trans x y z : elex x y = true -> elex y z = true -> elex x z = true. Proof. apply lex_trans. Qed.
Lemma blocks_pieces p o : forall t, blocks p o t = flat_map (fun i => blocks p (snd i) (fst i)) (pieces o t).
Proof.
  induction o as [lt w ps qs|n t0 b IH|a t0 buf b IH|items c IH] using op_rec; intros t; try (cbn [pieces flat_map fst snd]; rewrite app_nil_r; reflexivity).
  cbn [pieces blocks]. induction items as [|i r IHr]; [reflexivity|]. inversion IH; subst. cbn [flat_map]. rewrite flat_map_app, IHr by assumption. f_equal. auto.
Qed.
Lemma pieces_shift o : forall s t, pieces o (s + t) = map (fun i => (s + fst i, snd i)) (pieces o t).
Proof.
  induction o as [lt w ps qs|n t0 b IH|a t0 buf b IH|items c IH] using op_rec; intros s t; try reflexivity.
  cbn [pieces]. induction items as [|i r IHr]; [reflexivity|]. inversion IH; subst. cbn [flat_map]. rewrite map_app, IHr by assumption. f_equal. rewrite <- Z.add_assoc. auto.
Qed.
Lemma FOP_map {A B} (R : B -> B -> Prop) (f : A -> B) l : ForallOrdPairs (fun x y => R (f x) (f y)) l -> ForallOrdPairs R (map f l).
Proof. induction 1 as [|x l H1 H2 IH]; constructor; [|exact IH]. apply Forall_map. exact H1. Qed.
Lemma FOP_impl {A} (R S : A -> A -> Prop) l : (forall x y, R x y -> S x y) -> ForallOrdPairs R l -> ForallOrdPairs S l.
Proof. intros H. induction 1 as [|x l H1 H2 IH]; constructor; [|exact IH]. eapply Forall_impl; [|exact H1]. intros; apply H; assumption. Qed.
Lemma FOP_flat_map {A B} (R : A -> A -> Prop) (S : B -> B -> Prop) (f : A -> list B) l :
  ForallOrdPairs R l -> (forall x, In x l -> ForallOrdPairs S (f x)) -> (forall x y, In x l -> In y l -> R x y -> forall a b, In a (f x) -> In b (f y) -> S a b) -> ForallOrdPairs S (flat_map f l).
Proof.
  induction 1 as [|x l H1 H2 IH]; intros Hf HS; cbn [flat_map]; [constructor|].
  assert (IH' : ForallOrdPairs S (flat_map f l)) by (apply IH; [intros; apply Hf; right; assumption|intros x0 y0 Hx0 Hy0; apply HS; right; assumption]).
  assert (Hc : forall a b, In a (f x) -> In b (flat_map f l) -> S a b).
  { intros a b Ha Hb. apply in_flat_map in Hb. destruct Hb as (y & Hy & Hb). apply (HS x y); [left; reflexivity|right; exact Hy|rewrite Forall_forall in H1; apply H1, Hy|exact Ha|exact Hb]. }
  specialize (Hf x (or_introl eq_refl)). clear H1 H2 IH HS. induction Hf as [|a g Ha Hg IHg]; cbn [app]; [exact IH'|]. constructor.
  - apply Forall_app. split; [exact Ha|]. apply Forall_forall. intros b Hb. apply Hc; [left; reflexivity|exact Hb].
  - apply IHg. intros; apply Hc; [right; assumption|assumption].
Qed.
Lemma apart_shift p s i j : apart p i j -> apart p (s + fst i, snd i) (s + fst j, snd j).
Proof. unfold apart. cbn [fst snd]. intros H H1 H2 H3. specialize (H H1 H2 H3). lia. Qed.
Lemma apart_all p o t : ForallOrdPairs (apart p) (pieces o 0) -> ForallOrdPairs (apart p) (pieces o t).
Proof. intros H. rewrite <- (Z.add_0_r t), pieces_shift. apply FOP_map. eapply FOP_impl; [|exact H]. intros; apply apart_shift; assumption. Qed.

(** pieces that are apart give blocks that are apart *)
Lemma pieces_blocks_apart p o t : Forall (piece_good p) (pieces o t) -> ForallOrdPairs (apart p) (pieces o t) -> ForallOrdPairs (blocks_apart elex bels) (blocks p o t).
Proof.
  intros Hg Ha. rewrite blocks_pieces. rewrite Forall_forall in Hg. apply (FOP_flat_map (apart p)); [exact Ha|intros i Hi; destruct (Hg i Hi) as (_ & H & _); exact H|].
  intros i j Hi Hj Hij a b Ha' Hb. destruct (Hg i Hi) as (W1 & _ & R1 & S1). destruct (Hg j Hj) as (W2 & _ & R2 & S2).
  assert (N1 : reaches p (snd i) = true) by (apply R1; intros E; rewrite E in Ha'; destruct Ha').
  assert (N2 : reaches p (snd j) = true) by (apply R2; intros E; rewrite E in Hb; destruct Hb).
  destruct (is_flow (snd i)) eqn:F1; [|destruct (is_flow (snd j)) eqn:F2].
  3:{ destruct (S1 eq_refl a Ha') as [x Ex]. destruct (S2 eq_refl b Hb) as [y Ey]. unfold blocks_apart. rewrite Ex, Ey. destruct (elex x y) eqn:Exy.
      - left. intros x' y' [<-|[]] [<-|[]]. exact Exy.
      - right. intros x' y' [<-|[]] [<-|[]]. exact Exy. }
  all: destruct (Hij N1 N2) as [H|H]; [tauto|left|right]; intros x y Hx Hy; specialize (W1 _ _ Ha' Hx); specialize (W2 _ _ Hb Hy); unfold within in *; unfold lt, elex, le_lex; lia.
Qed.

Lemma srt_app {A} (le : A -> A -> bool) l m : srt le l -> srt le m -> (forall x y, In x l -> In y m -> le x y = true) -> srt le (l ++ m).
Proof.
  induction l as [|x l IH]; intros H1 H2 H3; [exact H2|]. cbn [srt app] in *. destruct H1 as [H0 H1]. split.
  - intros y Hy. apply in_app_or in Hy. destruct Hy as [Hy|Hy]; [apply H0, Hy|apply H3; [left; reflexivity|exact Hy]].
  - apply IH; auto. intros; apply H3; [right; assumption|assumption].
Qed.
Lemma sort_mid x l y : (forall z, In z l -> elex x z = true) -> (forall z, In z l -> elex z y = true) -> elex x y = true -> isort elex (x :: l ++ [y]) = x :: isort elex l ++ [y].
Proof.
  intros H1 H2 H3. change (x :: l ++ [y]) with ([x] ++ (l ++ [y])).
  rewrite (isort_cong _ elex_total elex_trans [x] [x] (l ++ [y]) (isort elex l ++ [y])); [|reflexivity|].
  - apply isort_id. cbn [app srt]. split.
    + intros z Hz. apply in_app_or in Hz. destruct Hz as [Hz|[<-|[]]]; [|exact H3]. apply isort_In in Hz. apply H1, Hz.
    + apply srt_app; [apply isort_srt; [apply elex_total|apply elex_trans]|repeat split; intros ? []|]. intros z w Hz [<-|[]]. apply isort_In in Hz. apply H2, Hz.
  - apply isort_cong; [apply elex_total|apply elex_trans|symmetry; apply isort_idem; [apply elex_total|apply elex_trans]|reflexivity].
Qed.

Lemma realises_perm p o t f g : realises p o t f -> Permutation f g -> realises p o t g.
Proof.
  intros H HP. inversion H; subst.
  - constructor. rewrite <- HP. assumption.
  - apply Permutation_length_1_inv in HP. subst g. econstructor; eassumption.
  - apply Permutation_length_1_inv in HP. subst g. econstructor; eassumption.
  - apply Permutation_nil in HP. subst g. constructor; assumption.
  - apply Permutation_nil in HP. subst g. constructor; assumption.
  - econstructor; [eassumption|]. rewrite <- HP. assumption.
Qed.

Definition main_claim (p : pc) (o : op) (t : Z) : Prop :=
  isort elex (flat_map bels (blocks p o t)) = isort elex (ents p o t) /\
  Forall blk_good (blocks p o t) /\ Forall (piece_good p) (pieces o t) /\ realises p o t (map bnode (blocks p o t)).

Lemma flat_blocks B : Forall blk_good B -> map snd (flat_map bels B) = flat_map flat (map bnode B).
Proof. induction 1 as [|b B [_ H] HB IH]; [reflexivity|]. cbn [flat_map map]. etransitivity; [apply map_app|]. f_equal; [exact H|exact IH]. Qed.
Lemma flat_sorted B : Forall blk_good B -> map snd (flat_map bels (isort (ble elex bhd) B)) = flat_map flat (map bnode (isort (ble elex bhd) B)).
Proof. intros H. apply flat_blocks. apply Forall_forall. intros b Hb. rewrite Forall_forall in H. apply H. apply isort_In in Hb. exact Hb. Qed.

(** one loop or conditional *)
Lemma ctl_claim p k t d b : compiled b -> duration b = Some d -> reaches p b = true -> uses p b = true -> main_claim p b t -> ForallOrdPairs (apart p) (pieces b t) ->
  let c := ctl_block k t (dur0 b) (blocks p b t) in
  isort elex (bels c) = isort elex ((t, begin_sop k (t + 0)) :: ents p b t ++ [(t + d, SRet (t + d))]) /\ blk_good c /\ (forall x, In x (bels c) -> within t d x) /\
  exists body, bnode c = mknode k t body (t + d) /\ realises p b t body.
Proof.
  intros Hc Ed Hr Hu (M1 & M2 & M3 & M4) Hap c. assert (E0 : dur0 b = d) by (unfold dur0; rewrite Ed; reflexivity).
  assert (HF : Forall (block_ok elex bels bhd) (blocks p b t)) by (eapply Forall_impl; [|exact M2]; intros ? [H _]; exact H).
  assert (HS : flat_map bels (isort (ble elex bhd) (blocks p b t)) = isort elex (ents p b t)).
  { rewrite <- block_sort, M1; [reflexivity|apply elex_total|apply elex_trans|exact HF|apply (pieces_blocks_apart p b t); assumption]. }
  assert (Eb : bels c = (t, begin_sop k t) :: isort elex (ents p b t) ++ [(t + d, SRet (t + d))]) by (unfold c, ctl_block; cbn [bels]; rewrite HS, E0; reflexivity).
  assert (Hw : forall x, In x (ents p b t) -> within t d x) by (intros x Hx; rewrite <- E0; apply (ents_within p b); assumption).
  destruct (compiled_duration _ Hc) as (d' & Ed' & Hd). assert (d' = d) by congruence. subst d'.
  assert (Hb1 : forall z, In z (ents p b t) -> elex (t, begin_sop k t) z = true).
  { intros z Hz. specialize (Hw z Hz). unfold within in Hw. unfold elex, le_lex, etime in *. cbn [fst snd] in *. rewrite begin_time. lia. }
  assert (Hb2 : forall z, In z (ents p b t) -> elex z (t + d, SRet (t + d)) = true).
  { intros z Hz. specialize (Hw z Hz). unfold within in Hw. unfold elex, le_lex, etime in *. cbn [fst snd sop_time] in *. lia. }
  assert (Hb3 : elex (t, begin_sop k t) (t + d, SRet (t + d)) = true) by (unfold elex, le_lex, etime; cbn [fst snd sop_time]; rewrite begin_time; lia).
  assert (Es : isort elex ((t, begin_sop k (t + 0)) :: ents p b t ++ [(t + d, SRet (t + d))]) = bels c) by (rewrite Eb, Z.add_0_r; apply sort_mid; assumption).
  assert (Hsrt : srt elex (bels c)) by (rewrite <- Es; apply isort_srt; [apply elex_total|apply elex_trans]).
  split; [rewrite Es; apply isort_id, Hsrt|]. split; [|split].
  - split; [split; [left; reflexivity|exact Hsrt]|]. unfold c, ctl_block. cbn [bels bnode]. cbn [map]. rewrite map_app, flat_sorted by exact M2. destruct k; reflexivity.
  - intros x Hx. rewrite Eb in Hx. destruct Hx as [<-|Hx]; [unfold within, etime; cbn [fst snd]; rewrite begin_time; lia|].
    apply in_app_or in Hx. destruct Hx as [Hx|[<-|[]]]; [apply isort_In in Hx; apply Hw, Hx|unfold within, etime; cbn [fst snd sop_time]; lia].
  - eexists. split; [unfold c, ctl_block; cbn [bnode]; rewrite E0; reflexivity|]. eapply realises_perm; [exact M4|]. apply Permutation_map. symmetry. apply isort_perm.
Qed.

Lemma main p o : compiled o -> names_port p o -> bodies_separate p o -> forall t, main_claim p o t.
Proof.
  induction o as [lt w ps qs|n t0 b IH|a t0 buf b IH|items c IH] using op_rec; intros Hc Hn Hs t.
  - unfold main_claim. cbn [blocks ents pieces]. repeat apply conj.
    + f_equal. induction (leaf_for p lt w ps qs) as [|e l IHl]; [reflexivity|]. cbn [map flat_map bels app]. rewrite IHl. reflexivity.
    + apply Forall_map, Forall_forall. intros e _. split; [|reflexivity]. split; [left; reflexivity|]. repeat split; intros ? [].
    + constructor; [|constructor]. unfold piece_good. cbn [fst snd blocks]. repeat apply conj.
      * intros b x Hb Hx. apply in_map_iff in Hb. destruct Hb as (e & <- & He). destruct Hx as [<-|[]]. cbn [extent duration].
        apply (ents_within p (Leaf lt w ps qs) Hc t). cbn [ents]. apply in_map_iff. exists e. auto.
      * generalize (leaf_for p lt w ps qs). intros l. induction l as [|e l IHl]; cbn [map]; constructor; [|exact IHl]. apply Forall_map, Forall_forall. intros e' _.
        unfold blocks_apart. cbn [bels]. destruct (elex (t, SOp (t + e_t0 e) (e_kind e)) (t, SOp (t + e_t0 e') (e_kind e'))) eqn:Ex; [left|right]; intros x y [<-|[]] [<-|[]]; exact Ex.
      * intros HB. cbn [reaches]. destruct (leaf_for p lt w ps qs); [contradiction HB; reflexivity|reflexivity].
      * intros _ b Hb. apply in_map_iff in Hb. destruct Hb as (e & <- & _). eexists. reflexivity.
    + constructor. rewrite map_map. cbn [bnode]. reflexivity.
  - destruct Hc as (H1 & -> & Hc). destruct Hn as [Hn Hn']. destruct Hs as [Hs Hs']. specialize (IH Hc Hn' Hs' t). destruct (compiled_duration _ Hc) as (d & Ed & Hd).
    pose proof (uses_reaches p b Hc Hn) as Hu. unfold main_claim. cbn [blocks ents pieces]. rewrite Hu, Ed. destruct (reaches p b) eqn:Er.
    + destruct (ctl_claim p (BLoop n) t d b Hc Ed Er Hu IH (apart_all p b t Hs)) as (C1 & C2 & C3 & body & C4 & C5).
      repeat apply conj.
      * cbn [flat_map]. rewrite app_nil_r. exact C1.
      * constructor; [exact C2|constructor].
      * constructor; [|constructor]. unfold piece_good. cbn [fst snd blocks]. rewrite Er. repeat apply conj.
        -- intros b' x [<-|[]] Hx. cbn [extent]. rewrite Ed. apply C3, Hx.
        -- constructor; constructor.
        -- intros _. exact Er.
        -- discriminate.
      * cbn [map]. rewrite C4. apply r_loop; assumption.
    + rewrite (reaches_ents p b Hc Hn' t Er). repeat apply conj; try constructor; [|constructor|exact Er].
      unfold piece_good. cbn [fst snd blocks]. rewrite Er. repeat apply conj; [intros ? ? []|constructor|intros H; contradiction H; reflexivity|intros _ ? []].
  - destruct Hc as (-> & H1 & Hc). destruct Hn as [Hn Hn']. destruct Hs as [Hs Hs']. specialize (IH Hc Hn' Hs' t). destruct (compiled_duration _ Hc) as (d & Ed & Hd).
    pose proof (uses_reaches p b Hc Hn) as Hu. unfold main_claim. cbn [blocks ents pieces]. rewrite Hu, Ed. destruct (reaches p b) eqn:Er.
    + destruct (ctl_claim p (BCond a) t d b Hc Ed Er Hu IH (apart_all p b t Hs)) as (C1 & C2 & C3 & body & C4 & C5).
      repeat apply conj.
      * cbn [flat_map]. rewrite app_nil_r. exact C1.
      * constructor; [exact C2|constructor].
      * constructor; [|constructor]. unfold piece_good. cbn [fst snd blocks]. rewrite Er. repeat apply conj.
        -- intros b' x [<-|[]] Hx. cbn [extent]. rewrite Ed. apply C3, Hx.
        -- constructor; constructor.
        -- intros _. exact Er.
        -- discriminate.
      * cbn [map]. rewrite C4. apply r_cond; assumption.
    + rewrite (reaches_ents p b Hc Hn' t Er). repeat apply conj; try constructor; [|constructor|exact Er].
      unfold piece_good. cbn [fst snd blocks]. rewrite Er. repeat apply conj; [intros ? ? []|constructor|intros H; contradiction H; reflexivity|intros _ ? []].
  - apply compiled_sub in Hc. destruct Hc as (D & -> & HD & Hi). apply names_sub in Hn. apply bodies_sub in Hs.
    assert (HM : Forall (fun i => forall t, main_claim p (snd i) t) items).
    { apply Forall_forall. intros i Hin. rewrite Forall_forall in IH, Hn, Hs. unfold items_compiled in Hi. rewrite Forall_forall in Hi. apply IH; auto. apply (Hi i Hin). }
    clear IH Hn Hs Hi HD. unfold main_claim. cbn [blocks ents pieces].
    assert (HH : isort elex (flat_map bels (flat_map (fun i => blocks p (snd i) (t + fst i)) items)) = isort elex (flat_map (fun i => ents p (snd i) (t + fst i)) items) /\
      Forall blk_good (flat_map (fun i => blocks p (snd i) (t + fst i)) items) /\ Forall (piece_good p) (flat_map (fun i => pieces (snd i) (t + fst i)) items) /\
      exists fs, realises_items p items t fs /\ map bnode (flat_map (fun i => blocks p (snd i) (t + fst i)) items) = List.concat fs).
    { induction HM as [|i r Hi Hr IHr]; [repeat split; try constructor; exists []; split; [constructor|reflexivity]|].
      destruct IHr as (A1 & A2 & A3 & fs & A4 & A5). destruct (Hi (t + fst i)) as (B1 & B2 & B3 & B4). cbn [flat_map]. repeat apply conj.
      - rewrite flat_map_app. apply isort_cong; [apply elex_total|apply elex_trans|exact B1|exact A1].
      - apply Forall_app. split; assumption.
      - apply Forall_app. split; assumption.
      - exists (map bnode (blocks p (snd i) (t + fst i)) :: fs). split; [destruct i as [u x]; constructor; [exact B4|exact A4]|]. rewrite map_app, A5. reflexivity. }
    destruct HH as (A1 & A2 & A3 & fs & A4 & A5). repeat apply conj; try assumption. eapply r_sub; [exact A4|]. rewrite A5. reflexivity.
Qed.

(** the operations of the sequencer, as a forest *)
Theorem ops_forest mapping o p ops : NoDup mapping -> In p mapping -> compiled o -> names_port p o -> separate p o -> seq_ops mapping o p = Ok ops ->
  exists forest, realises p o 0 forest /\ ops = flat_map flat forest.
Proof.
  intros Hn Hin Hc Hp [Hs1 Hs2] H. apply seq_ops_ents in H; [|assumption|assumption]. destruct (main p o Hc Hp Hs2 0) as (M1 & M2 & M3 & M4).
  exists (map bnode (isort (ble elex bhd) (blocks p o 0))). split.
  - eapply realises_perm; [exact M4|]. apply Permutation_map. symmetry. apply isort_perm.
  - rewrite <- flat_sorted by exact M2. rewrite H, <- M1. rewrite (block_sort elex elex_total elex_trans bels bhd); [reflexivity| |].
    + eapply Forall_impl; [|exact M2]. intros ? [Hb _]. exact Hb.
    + apply pieces_blocks_apart; assumption.
Qed.
