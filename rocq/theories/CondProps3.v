(** C42: the LatchResets. *)
From Verif Require Import Base CircModel CircProps CircProps5 NumericModel NumericProps CondModel CondSpec CondProps CondProps2.
From Coq Require Import List Lia Lqa Setoid.
Open Scope list_scope.
Open Scope Q_scope.

(** ** Runs *)
Lemma runs_eq o t t' x : Runs o t t' x -> forall u u', u == t -> u' == t' -> Runs o u u' x.
Proof.
  induction 1 as [l p d t t' E|p t t' E|l a i c f b t t' E|n b t t' x i H R IH|d ops items a id o t t' x Hi G R IH]; intros u u' Eu Eu'.
  - constructor. rewrite Eu, Eu'. exact E.
  - constructor. rewrite Eu, Eu'. exact E.
  - constructor. rewrite Eu, Eu'. exact E.
  - apply (R_loop n b u u' x i H). apply IH; [rewrite Eu; reflexivity|exact Eu'].
  - eapply R_sched; [exact Hi|exact G|]. apply IH; [rewrite Eu; reflexivity|exact Eu'].
Qed.
Lemma runs_shift o t t' x : Runs o t t' x -> forall s, Runs o (t + s) (t' + s) x.
Proof.
  induction 1 as [l p d t t' E|p t t' E|l a i c f b t t' E|n b t t' x i H R IH|d ops items a id o t t' x Hi G R IH]; intros s.
  - constructor. rewrite E. reflexivity.
  - constructor. rewrite E. reflexivity.
  - constructor. rewrite E. reflexivity.
  - apply (R_loop n b _ _ x i H). eapply runs_eq; [apply (IH s)|ring|reflexivity].
  - eapply R_sched; [exact Hi|exact G|]. eapply runs_eq; [apply (IH s)|ring|reflexivity].
Qed.
Lemma runs_from o t t' x u : Runs o t t' x -> Runs o u (t' - t + u) x.
Proof. intros R. eapply runs_eq; [exact (runs_shift _ _ _ _ R (u - t))|ring|ring]. Qed.
Lemma runs_sub o t t' x : Runs o t t' x -> Sub x o.
Proof. induction 1; try constructor; try assumption. econstructor; eassumption. Qed.
Definition is_latch (x : cop) : Prop := exists p, x = KLatch p.
Definition basic (x : cop) : Prop := match x with KLeaf _ _ _ | KCond _ _ _ _ _ _ => True | _ => False end.
Lemma runs_basic o t t' x : Runs o t t' x -> basic x \/ is_latch x.
Proof. induction 1; cbn; auto. right. eexists. reflexivity. Qed.
Lemma to_ns_bound x : x - (1 # 2000000000) <= to_ns x <= x + (1 # 2000000000).
Proof. unfold to_ns. pose proof (py_round_spec (x * 1000000000)) as [H1 H2]. split; [apply Qle_shift_div_l|apply Qle_shift_div_r]; lra. Qed.

Section Pass.
Variable latch_id : portclock -> string.
Hypothesis latch_inj : forall p q, latch_id p = latch_id q -> p = q.
Variable m : cmap.

(** the LatchReset [r] on [p] is the reset of [a] in an operation at [ta] *)
Definition ResetTime (ta : Q) (a : acq) (r : Q) : Prop := ta + a_t0 a + (35 # 10000000000) <= r <= ta + a_t0 a + (45 # 10000000000).
Definition Cause (o : cop) (t r : Q) (p : portclock) : Prop :=
  exists ta l pcs d a k lbl, Runs o t ta (KLeaf l pcs d) /\ In a l /\ Labelled a k lbl /\ In p (pcs_of m (Some lbl)) /\ ResetTime ta a r.
Lemma reset_shift ta a r s : ResetTime ta a r -> ResetTime (ta + s) a (r + s).
Proof. unfold ResetTime. lra. Qed.
Lemma reset_eq ta a r tb s : ResetTime ta a r -> tb == ta -> s == r -> ResetTime tb a s.
Proof. unfold ResetTime. intros H E1 E2. rewrite E1, E2. exact H. Qed.
Lemma cause_shift o t r p s : Cause o t r p -> Cause o (t + s) (r + s) p.
Proof. intros (ta & l & pcs & d & a & k & lbl & R & Hi & L & Hp & W). exists (ta + s), l, pcs, d, a, k, lbl. split; [apply runs_shift, R|]. split; [exact Hi|]. split; [exact L|]. split; [exact Hp|]. apply reset_shift, W. Qed.
Lemma cause_eq o t r p u s : Cause o t r p -> u == t -> s == r -> Cause o u s p.
Proof. intros (ta & l & pcs & d & a & k & lbl & R & Hi & L & Hp & W) Et Er. exists ta, l, pcs, d, a, k, lbl. split; [eapply runs_eq; [exact R|exact Et|reflexivity]|]. split; [exact Hi|]. split; [exact L|]. split; [exact Hp|]. eapply reset_eq; [exact W|reflexivity|exact Er]. Qed.

Record Grown (o o' : cop) : Prop := {
  g_dur : dur_of o' = dur_of o;
  g_fwd : forall t t' x, Runs o t t' x -> Runs o' t t' x;
  g_back : forall t t' x, basic x -> Runs o' t t' x -> Runs o t t' x;
  g_cause : forall t r p, Runs o' t r (KLatch p) -> Runs o t r (KLatch p) \/ Cause o t r p;
  g_sub : forall x, basic x -> Sub x o' -> Sub x o;
  g_bare : forall l, Bare o' l -> Bare o l }.
Lemma grown_refl o : Grown o o. Proof. constructor; auto. Qed.
Lemma cause_grown o1 o2 t r p : Grown o1 o2 -> Cause o2 t r p -> Cause o1 t r p.
Proof. intros G (ta & l & pcs & d & a & k & lbl & R & H). exists ta, l, pcs, d, a, k, lbl. split; [apply (g_back _ _ G); [exact I|exact R]|exact H]. Qed.
Lemma grown_trans o1 o2 o3 : Grown o1 o2 -> Grown o2 o3 -> Grown o1 o3.
Proof.
  intros A B. constructor.
  - rewrite (g_dur _ _ B). apply (g_dur _ _ A).
  - intros t t' x R. apply (g_fwd _ _ B), (g_fwd _ _ A), R.
  - intros t t' x N R. apply (g_back _ _ A); [exact N|]. apply (g_back _ _ B); assumption.
  - intros t r p R. destruct (g_cause _ _ B _ _ _ R) as [R1|C]; [|right; eapply cause_grown; eassumption]. destruct (g_cause _ _ A _ _ _ R1); auto.
  - intros x N S. apply (g_sub _ _ A); [exact N|]. apply (g_sub _ _ B); assumption.
  - intros l H. apply (g_bare _ _ A), (g_bare _ _ B), H.
Qed.
(** what the pass needs of the schedules it sees, its own LatchResets included *)
Definition node_ok (x : cop) : Prop :=
  match x with
  | KLeaf l _ _ => LabelsOk l
  | KLoop _ b => forall l a k lbl, Bare b l -> In a l -> ~ Labelled a k lbl
  | KSched _ ops items => (forall pc, get ops (latch_id pc) = None \/ get ops (latch_id pc) = Some (KLatch pc)) /\ forall a id, In (a, id) items -> get ops id <> None
  | _ => True
  end.
Definition ok (o : cop) : Prop := forall x, Sub x o -> node_ok x.
(** every labelled acquisition has its LatchResets, either in [o] or in the list [rs] for the schedule that contains [o] at [t] *)
Definition Served (o : cop) (t : Q) (rs : list (Q * portclock)) : Prop :=
  forall u ta l pcs d a k lbl p, Runs o u ta (KLeaf l pcs d) -> In a l -> Labelled a k lbl -> In p (pcs_of m (Some lbl)) ->
    (exists r, ResetTime ta a r /\ Runs o u r (KLatch p)) \/ (exists r, ResetTime (ta - u + t) a r /\ In (r, p) rs).
Lemma nodup_pcs_in l p : In p (nodup_pcs l) <-> In p l.
Proof.
  assert (E : forall a b, pc_eqb a b = true <-> a = b). { intros [a1 a2] [b1 b2]. unfold pc_eqb. cbn. rewrite andb_true_iff, !String.eqb_eq. split; [intros [-> ->]; reflexivity|intros [= -> ->]; auto]. }
  induction l as [|q l IH]; [cbn; tauto|]. change (nodup_pcs (q :: l)) with (if existsb (pc_eqb q) (nodup_pcs l) then nodup_pcs l else q :: nodup_pcs l). destruct (existsb (pc_eqb q) (nodup_pcs l)) eqn:X; cbn [In]; rewrite IH; [|tauto]. split; [auto|]. intros [<-|H]; [|exact H]. apply existsb_exists in X. destruct X as (y & Hy & Ey). apply E in Ey. subst y. apply IH, Hy.
Qed.
(** the resets of one entry of acquisition_info *)
Lemma resets_sound t a r p : In (r, p) (resets_of m t a) -> exists k lbl, Labelled a k lbl /\ In p (pcs_of m (Some lbl)) /\ ResetTime t a r.
Proof.
  unfold resets_of. destruct (a_proto a) as [[l|]|[l|]|[l|] cond n|lo mi hi inv|] eqn:P; cbn [In]; try contradiction.
  - intros H. apply in_map_iff in H. destruct H as (q & [= <- <-] & H). apply (proj1 (nodup_pcs_in _ _)) in H. exists None, l. split; [constructor; exact P|]. split; [exact H|]. unfold ResetTime, four_ns. lra.
  - intros H. apply in_map_iff in H. destruct H as (q & [= <- <-] & H). apply (proj1 (nodup_pcs_in _ _)) in H. exists None, l. split; [econstructor; exact P|]. split; [exact H|]. unfold ResetTime, four_ns. lra.
  - intros H. apply in_map_iff in H. destruct H as (q & [= <- <-] & H). apply (proj1 (nodup_pcs_in _ _)) in H. apply in_flat_map in H. destruct H as (k & _ & H).
    assert (T : ResetTime t a (to_ns (t + a_t0 a + four_ns))) by (pose proof (to_ns_bound (t + a_t0 a + four_ns)); unfold ResetTime; unfold four_ns in *; lra).
    destruct k; cbn in H; [destruct lo as [l|]|destruct mi as [l|]|destruct hi as [l|]|destruct inv as [l|]]; try contradiction; eexists _, l; (split; [econstructor; exact P|]); auto.
Qed.
Lemma resets_complete t a k lbl p : Labelled a k lbl -> (forall l, a_proto a <> PWeighted (Some l)) -> In p (pcs_of m (Some lbl)) -> exists r, ResetTime t a r /\ In (r, p) (resets_of m t a).
Proof.
  intros L W H. assert (T : ResetTime t a (to_ns (t + a_t0 a + four_ns))) by (pose proof (to_ns_bound (t + a_t0 a + four_ns)); unfold ResetTime; unfold four_ns in *; lra).
  assert (T' : ResetTime t a (t + a_t0 a + four_ns)) by (unfold ResetTime, four_ns; lra).
  destruct L as [a l P|a l P|a l c n P|a l mi hi inv P|a lo l hi inv P|a lo mi l inv P|a lo mi hi l P]; unfold resets_of; rewrite P.
  - eexists. split; [exact T'|]. apply in_map_iff. exists p. split; [reflexivity|]. apply nodup_pcs_in, H.
  - exfalso. eapply W, P.
  - eexists. split; [exact T'|]. apply in_map_iff. exists p. split; [reflexivity|]. apply nodup_pcs_in, H.
  - eexists. split; [exact T|]. apply in_map_iff. exists p. split; [reflexivity|]. apply nodup_pcs_in. apply in_flat_map. exists Low. split; [cbn; auto|exact H].
  - eexists. split; [exact T|]. apply in_map_iff. exists p. split; [reflexivity|]. apply nodup_pcs_in. apply in_flat_map. exists Mid. split; [cbn; auto|exact H].
  - eexists. split; [exact T|]. apply in_map_iff. exists p. split; [reflexivity|]. apply nodup_pcs_in. apply in_flat_map. exists High. split; [cbn; auto|exact H].
  - eexists. split; [exact T|]. apply in_map_iff. exists p. split; [reflexivity|]. apply nodup_pcs_in. apply in_flat_map. exists Invalid. split; [cbn; auto|exact H].
Qed.
Lemma labelled_conditional l : LabelsOk l -> (exists a k lbl, In a l /\ Labelled a k lbl) -> conditional_acquisition l = true.
Proof.
  intros [A _] (a & k & lbl & Hi & L). destruct (A a k lbl Hi L) as (a0 & r & k0 & l0 & -> & L0). cbn. destruct L0 as [? ? P|? ? P|? ? ? ? P|? ? ? ? ? P|? ? ? ? ? P|? ? ? ? ? P|? ? ? ? ? P]; rewrite P; reflexivity.
Qed.
(** adding LatchResets to a schedule *)
Lemma add_resets_spec : forall rs ops items ops' items', add_resets latch_id ops items rs = (ops', items') ->
  items' = items ++ map (fun '(r, p) => (r, latch_id p)) rs /\
  (forall k, get ops' k = get ops k \/ exists r p, In (r, p) rs /\ k = latch_id p /\ get ops' k = Some (KLatch p)) /\
  (forall r p, In (r, p) rs -> get ops' (latch_id p) = Some (KLatch p)).
Proof.
  induction rs as [|[r p] rs IH]; intros ops items ops' items' E.
  - cbn in E. injection E as <- <-. rewrite app_nil_r. split; [reflexivity|]. split; [auto|intros ? ? []].
  - unfold add_resets in E. cbn [fold_left] in E. apply IH in E. destruct E as (-> & A & B). split; [rewrite <- app_assoc; reflexivity|]. split.
    + intros k. destruct (A k) as [E|(r' & p' & Hi & -> & E)]; [|right; exists r', p'; split; [right; exact Hi|auto]]. rewrite E, get_put. destruct (String.eqb_spec (latch_id p) k) as [<-|N]; [|left; reflexivity]. right. exists r, p. split; [left; reflexivity|]. auto.
    + intros r' p' [[= <- <-]|Hi]; [|eapply B, Hi]. destruct (A (latch_id p)) as [E|(r2 & p2 & Hi & E1 & E2)]; [rewrite E, get_put, String.eqb_refl; reflexivity|]. rewrite E2. apply latch_inj in E1. subst. reflexivity.
Qed.
Lemma served_more o t rs rs' : incl rs rs' -> Served o t rs -> Served o t rs'.
Proof. intros I S u ta l pcs d a k lbl p R Hi L Hp. destruct (S _ _ _ _ _ _ _ _ _ R Hi L Hp) as [H|(r & W & H)]; [left; exact H|right; exists r; auto]. Qed.
Lemma served_grown o o' t rs : Grown o o' -> Served o t rs -> Served o' t rs.
Proof. intros G S u ta l pcs d a k lbl p R Hi L Hp. apply (g_back _ _ G) in R; [|exact I]. destruct (S _ _ _ _ _ _ _ _ _ R Hi L Hp) as [(r & W & H)|H]; [left; exists r; split; [exact W|apply (g_fwd _ _ G), H]|right; exact H]. Qed.
Lemma served_latch p t rs : Served (KLatch p) t rs.
Proof. intros u ta l pcs d a k lbl p0 R. inversion R. Qed.
Lemma ok_latch p : ok (KLatch p). Proof. intros x S. inversion S; subst. exact I. Qed.
Definition insert_post (o : cop) (t : Q) (o' : cop) (rs : list (Q * portclock)) : Prop :=
  Grown o o' /\ ok o' /\ (forall r p, In (r, p) rs -> Cause o t r p) /\ (rs <> [] -> exists l a k lbl, Bare o l /\ In a l /\ Labelled a k lbl) /\ Served o' t rs /\ (forall p, o = KLatch p -> o' = KLatch p).
Definition item_step (fuel : nat) : list (string * cop) * list (Q * string) -> Q * string -> result (list (string * cop) * list (Q * string)) :=
  fun '(ops, its) '(a, id) => do o <- index ops id; do y <- insert_resets latch_id m fuel o a; let '(o, rs) := y in Ok (add_resets latch_id (put ops id o) its rs).
Lemma insert_sched fuel d ops items t : insert_resets latch_id m (S fuel) (KSched d ops items) t = do x <- foldM (item_step fuel) items (ops, items); Ok (KSched d (fst x) (snd x), []).
Proof. reflexivity. Qed.
Section Items.
Variables (fuel : nat) (ops0 : list (string * cop)) (items0 : list (Q * string)).
Hypothesis IH : forall o t o' rs, ok o -> insert_resets latch_id m fuel o t = Ok (o', rs) -> insert_post o t o' rs.
Hypothesis K0 : forall pc, get ops0 (latch_id pc) = None \/ get ops0 (latch_id pc) = Some (KLatch pc).
Hypothesis H0 : forall a id, In (a, id) items0 -> get ops0 id <> None.
Hypothesis O0 : forall k o, get ops0 k = Some o -> ok o.
Definition extra_items (extra : list (Q * portclock)) : list (Q * string) := map (fun '(r, p) => (r, latch_id p)) extra.
Record Inv (done : list (Q * string)) (ops : list (string * cop)) (extra : list (Q * portclock)) : Prop := {
  i_extra : forall r p, In (r, p) extra -> get ops (latch_id p) = Some (KLatch p) /\ exists a id o0, In (a, id) items0 /\ get ops0 id = Some o0 /\ Cause o0 a r p;
  i_old : forall k o0, get ops0 k = Some o0 -> exists o1, get ops k = Some o1 /\ Grown o0 o1 /\ ok o1 /\ (forall p, o0 = KLatch p -> o1 = KLatch p);
  i_new : forall k, get ops0 k = None -> get ops k = None \/ exists p, k = latch_id p /\ get ops k = Some (KLatch p);
  i_served : forall a id o1, In (a, id) done -> get ops id = Some o1 -> Served o1 a extra }.
Lemma inv_init : Inv [] ops0 [].
Proof. constructor; [intros ? ? []|intros k o0 H; exists o0; split; [exact H|]; split; [apply grown_refl|]; split; [eapply O0, H|auto]|auto|intros ? ? ? []]. Qed.
Lemma inv_step done ops extra a id out : In (a, id) items0 -> Inv done ops extra -> item_step fuel (ops, items0 ++ extra_items extra) (a, id) = Ok out ->
  exists ops' extra', out = (ops', items0 ++ extra_items extra') /\ Inv (done ++ [(a, id)]) ops' extra'.
Proof.
  intros Hi V E. unfold item_step in E. apply bind_inv in E. destruct E as (o1 & E1 & E). apply bind_inv in E. destruct E as ([o2 rs] & E2 & [= <-]). apply index_ok in E1.
  destruct (get ops0 id) as [o0|] eqn:G0; [|exfalso; eapply H0; eassumption]. destruct (i_old _ _ _ V _ _ G0) as (o1' & G1 & Gr1 & Ok1 & L1). assert (o1' = o1) by congruence. subst o1'. destruct (IH _ _ _ _ Ok1 E2) as (Gr2 & Ok2 & C2 & _ & S2 & L2).
  destruct (add_resets latch_id (put ops id o2) (items0 ++ extra_items extra) rs) as [ops' items'] eqn:Ea. destruct (add_resets_spec _ _ _ _ _ Ea) as (-> & A & B).
  exists ops', (extra ++ rs). split; [unfold extra_items; rewrite map_app, app_assoc; reflexivity|].
  assert (Latch : forall p o0', get ops0 (latch_id p) = Some o0' -> o0' = KLatch p) by (intros p o0' H; destruct (K0 p); congruence).
  constructor.
  - intros r p Hx. apply in_app_or in Hx. destruct Hx as [Hx|Hx].
    + destruct (i_extra _ _ _ V _ _ Hx) as [Hg Hc]. split; [|exact Hc]. destruct (A (latch_id p)) as [E|(r' & p' & _ & Ep & E)]; [|rewrite E; apply latch_inj in Ep; congruence]. rewrite E, get_put. destruct (String.eqb_spec id (latch_id p)) as [->|N]; [|exact Hg]. rewrite (Latch _ _ G0) in *. assert (o1 = KLatch p) by (apply L1; reflexivity). subst o1. rewrite (L2 p eq_refl). reflexivity.
    + split; [eapply B, Hx|]. exists a, id, o0. split; [exact Hi|]. split; [exact G0|]. eapply cause_grown; [exact Gr1|]. apply C2, Hx.
  - intros k o0' Gk. destruct (A k) as [E|(r' & p' & _ & -> & E)].
    + rewrite E, get_put. destruct (String.eqb_spec id k) as [->|N]; [|apply (i_old _ _ _ V), Gk]. assert (o0' = o0) by congruence. subst o0'. exists o2. split; [reflexivity|]. split; [eapply grown_trans; eassumption|]. split; [exact Ok2|]. intros p Ep. apply L2, L1, Ep.
    + rewrite E. apply Latch in Gk. subst o0'. exists (KLatch p'). split; [reflexivity|]. split; [apply grown_refl|]. split; [apply ok_latch|auto].
  - intros k Gk. destruct (A k) as [E|(r' & p' & _ & -> & E)]; [|right; eauto]. rewrite E, get_put. destruct (String.eqb_spec id k) as [->|N]; [congruence|]. apply (i_new _ _ _ V), Gk.
  - intros a' id' x Hd Gx. destruct (A id') as [E|(r' & p' & _ & -> & E)]; [|rewrite E in Gx; injection Gx as <-; apply served_latch]. rewrite E, get_put in Gx. apply in_app_or in Hd. destruct (String.eqb_spec id id') as [->|N].
    + injection Gx as <-. destruct Hd as [Hd|[[= <-]|[]]].
      * eapply served_more; [apply incl_appl, incl_refl|]. eapply served_grown; [exact Gr2|]. eapply (i_served _ _ _ V); eassumption.
      * eapply served_more; [apply incl_appr, incl_refl|]. exact S2.
    + destruct Hd as [Hd|[[= <- <-]|[]]]; [|congruence]. eapply served_more; [apply incl_appl, incl_refl|]. eapply (i_served _ _ _ V); eassumption.
Qed.
Lemma inv_all : forall todo done ops extra out, incl todo items0 -> Inv done ops extra -> foldM (item_step fuel) todo (ops, items0 ++ extra_items extra) = Ok out ->
  exists ops' extra', out = (ops', items0 ++ extra_items extra') /\ Inv (done ++ todo) ops' extra'.
Proof.
  induction todo as [|[a id] todo IHt]; intros done ops extra out I0 V E; cbn [foldM] in E.
  - injection E as <-. exists ops, extra. rewrite app_nil_r. auto.
  - apply bind_inv in E. destruct E as (st & E1 & E). destruct (inv_step _ _ _ _ _ _ (I0 _ (or_introl eq_refl)) V E1) as (ops1 & extra1 & -> & V1). destruct (IHt _ _ _ _ (fun x H => I0 x (or_intror H)) V1 E) as (ops2 & extra2 & -> & V2). exists ops2, extra2. rewrite <- app_assoc in V2. auto.
Qed.
End Items.
Lemma insert_spec : forall fuel o t o' rs, ok o -> insert_resets latch_id m fuel o t = Ok (o', rs) -> insert_post o t o' rs.
Proof.
  induction fuel as [|fuel IH]; intros o t o' rs Ho E; [discriminate|]. destruct o as [l p d|p|n b|l a i c f b|d ops items].
  - cbn [insert_resets] in E. injection E as <- <-. pose proof (Ho _ (S_here _)) as Hl. cbn in Hl.
    split; [apply grown_refl|]. split; [exact Ho|]. split; [|split; [|split; [|discriminate]]].
    + intros r q H. destruct (conditional_acquisition l); [|contradiction]. apply in_flat_map in H. destruct H as (a & Ha & H). destruct (resets_sound _ _ _ _ H) as (k & lbl & L & Hp & T). exists t, l, p, d, a, k, lbl. split; [constructor; reflexivity|]. auto.
    + intros H. destruct (conditional_acquisition l); [|congruence]. destruct (flat_map (resets_of m t) l) as [|[r q] rest] eqn:F; [congruence|]. assert (Hr : In (r, q) (flat_map (resets_of m t) l)) by (rewrite F; left; reflexivity). apply in_flat_map in Hr. destruct Hr as (a & Ha & Hr). destruct (resets_sound _ _ _ _ Hr) as (k & lbl & L & _). exists l, a, k, lbl. split; [constructor|auto].
    + intros u ta l0 pcs d0 a k lbl q R Ha L Hq. inversion R; subst. right. rewrite (labelled_conditional l0); [|exact Hl|eauto]. destruct (resets_complete t a k lbl q L) as (r & T & Hr); [destruct Hl as [_ Hw]; intros x; apply Hw, Ha|exact Hq|]. exists r. split; [eapply reset_eq; [exact T|match goal with H : ta == u |- _ => rewrite H end; ring|reflexivity]|]. apply in_flat_map. exists a. auto.
  - cbn [insert_resets] in E. injection E as <- <-. split; [apply grown_refl|]. split; [exact Ho|]. split; [intros ? ? []|]. split; [congruence|]. split; [apply served_latch|auto].
  - cbn [insert_resets] in E. apply bind_inv in E. destruct E as ([b' rs'] & E1 & [= <- <-]). cbn [fst snd]. assert (Hb : ok b) by (intros x S; apply Ho; constructor; exact S). destruct (IH _ _ _ _ Hb E1) as (G & Ok' & C & B & S & _). pose proof (Ho _ (S_here _)) as Hl. cbn in Hl.
    assert (Rn : rs' = []). { destruct rs'; [reflexivity|]. destruct B as (l & a & k & lbl & Hbl & Ha & L); [discriminate|]. exfalso. eapply Hl; eassumption. } subst rs'.
    split; [|split; [|split; [|split; [|split; [|discriminate]]]]].
    + constructor.
      * cbn. rewrite (g_dur _ _ G). reflexivity.
      * intros u u' x R. inversion R; subst. eapply R_loop; [eassumption|]. rewrite (g_dur _ _ G). apply (g_fwd _ _ G). eassumption.
      * intros u u' x Hx R. inversion R; subst; try contradiction. eapply R_loop; [eassumption|]. rewrite (g_dur _ _ G) in *. apply (g_back _ _ G); eassumption.
      * intros u r p R. inversion R as [| | |? ? ? ? ? i Hi R'|]; subst. rewrite (g_dur _ _ G) in R'. destruct (g_cause _ _ G _ _ _ R') as [R2|(ta & l & pcs & d & a & k & lbl & R2 & H)]; [left; eapply R_loop; eassumption|right]. exists ta, l, pcs, d, a, k, lbl. split; [eapply R_loop; eassumption|exact H].
      * intros x Hx Sx. inversion Sx; subst; [contradiction|]. constructor. apply (g_sub _ _ G); assumption.
      * intros l H. inversion H; subst. constructor. apply (g_bare _ _ G). assumption.
    + intros x Sx. inversion Sx; subst; [|apply Ok'; assumption]. cbn. intros l a k lbl Hbl. apply (Hl l a k lbl). apply (g_bare _ _ G), Hbl.
    + intros ? ? [].
    + congruence.
    + intros u ta l pcs d a k lbl p R Ha L Hp. inversion R as [| | |? ? ? ? ? i Hi R'|]; subst. destruct (S _ _ _ _ _ _ _ _ _ R' Ha L Hp) as [(r & T & R2)|(r & _ & [])]. left. exists r. split; [exact T|]. eapply R_loop; eassumption.
  - cbn [insert_resets] in E. injection E as <- <-. split; [apply grown_refl|]. split; [exact Ho|]. split; [intros ? ? []|]. split; [congruence|]. split; [|discriminate]. intros u ta l0 pcs d a0 k lbl q R. inversion R.
  - rewrite insert_sched in E. apply bind_inv in E. destruct E as (out & E1 & [= <- <-]). pose proof (Ho _ (S_here _)) as [K0 H0].
    assert (O0 : forall k o, get ops k = Some o -> ok o) by (intros k o Gk x Sx; apply Ho; econstructor; eassumption).
    destruct (inv_all fuel ops items IH K0 H0 items [] ops [] out) as (ops' & extra & -> & V); [apply incl_refl|apply inv_init, O0|rewrite app_nil_r; exact E1|]. cbn [fst snd app] in *.
    split; [|split; [|split; [|split; [|split; [|discriminate]]]]].
    + constructor.
      * reflexivity.
      * intros u u' x R. inversion R as [| | | |? ? ? a id o1 ? ? ? Hi Gi R']; subst. destruct (i_old _ _ _ _ _ V _ _ Gi) as (o2 & G2 & Gr & _). eapply R_sched; [apply in_or_app; left; exact Hi|exact G2|]. apply (g_fwd _ _ Gr), R'.
      * intros u u' x Hx R. inversion R as [| | | |? ? ? a id o2 ? ? ? Hi Gi R']; subst; try contradiction. apply in_app_or in Hi. destruct Hi as [Hi|Hi].
        -- destruct (get ops id) as [o1|] eqn:G1; [|exfalso; eapply H0; eassumption]. destruct (i_old _ _ _ _ _ V _ _ G1) as (o2' & G2 & Gr & _). assert (o2' = o2) by congruence. subst o2'. eapply R_sched; [exact Hi|exact G1|]. apply (g_back _ _ Gr); assumption.
        -- apply in_map_iff in Hi. destruct Hi as ([r p] & [= <- <-] & Hi). destruct (i_extra _ _ _ _ _ V _ _ Hi) as [Hg _]. assert (o2 = KLatch p) by congruence. subst o2. inversion R'; subst. contradiction.
      * intros u r p R. inversion R as [| | | |? ? ? a id o2 ? ? ? Hi Gi R']; subst. apply in_app_or in Hi. destruct Hi as [Hi|Hi].
        -- destruct (get ops id) as [o1|] eqn:G1; [|exfalso; eapply H0; eassumption]. destruct (i_old _ _ _ _ _ V _ _ G1) as (o2' & G2 & Gr & _). assert (o2' = o2) by congruence. subst o2'. destruct (g_cause _ _ Gr _ _ _ R') as [R2|(ta & l & pcs & d0 & a0 & k & lbl & R2 & H)]; [left; eapply R_sched; eassumption|right]. exists ta, l, pcs, d0, a0, k, lbl. split; [eapply R_sched; eassumption|exact H].
        -- apply in_map_iff in Hi. destruct Hi as ([r0 p0] & [= <- <-] & Hi). destruct (i_extra _ _ _ _ _ V _ _ Hi) as [Hg (a & id & o0 & Hi0 & G0 & C)]. assert (o2 = KLatch p0) by congruence. subst o2. inversion R'; subst. right. apply (cause_shift _ _ _ _ u) in C. destruct C as (ta & l & pcs & d0 & a0 & k & lbl & R2 & Ha & L & Hp & T). exists ta, l, pcs, d0, a0, k, lbl. split; [eapply R_sched; [exact Hi0|exact G0|]; eapply runs_eq; [exact R2|ring|reflexivity]|]. split; [exact Ha|]. split; [exact L|]. split; [exact Hp|]. eapply reset_eq; [exact T|reflexivity|]. match goal with H : r == _ |- _ => rewrite H end. ring.
      * intros x Hx Sx. inversion Sx as [|? ? ? Sx'|? ? ? k o2 ? G2 Sx']; subst; [contradiction|]. destruct (get ops k) as [o1|] eqn:G1.
        -- destruct (i_old _ _ _ _ _ V _ _ G1) as (o2' & G2' & Gr & _). assert (o2' = o2) by congruence. subst o2'. econstructor; [exact G1|]. apply (g_sub _ _ Gr); assumption.
        -- destruct (i_new _ _ _ _ _ V _ G1) as [|(p & -> & G3)]; [congruence|]. assert (o2 = KLatch p) by congruence. subst o2. inversion Sx'; subst. contradiction.
      * intros l H. inversion H.
    + intros x Sx. inversion Sx as [|? ? ? Sx'|? ? ? k o2 ? G2 Sx']; subst.
      * cbn. split.
        -- intros pc. destruct (K0 pc) as [G1|G1]; [destruct (i_new _ _ _ _ _ V _ G1) as [G2|(p & E & G2)]; [left; exact G2|right; apply latch_inj in E; subst p; exact G2]|]. destruct (i_old _ _ _ _ _ V _ _ G1) as (o2 & G2 & _ & _ & E). right. rewrite G2. f_equal. apply E. reflexivity.
        -- intros a id Hi. apply in_app_or in Hi. destruct Hi as [Hi|Hi].
           ++ destruct (get ops id) as [o1|] eqn:G1; [|exfalso; eapply H0; eassumption]. destruct (i_old _ _ _ _ _ V _ _ G1) as (o2 & G2 & _). congruence.
           ++ apply in_map_iff in Hi. destruct Hi as ([r p] & [= <- <-] & Hi). destruct (i_extra _ _ _ _ _ V _ _ Hi) as [Hg _]. congruence.
      * destruct (get ops k) as [o1|] eqn:G1.
        -- destruct (i_old _ _ _ _ _ V _ _ G1) as (o2' & G2' & _ & Ok2 & _). assert (o2' = o2) by congruence. subst o2'. apply Ok2, Sx'.
        -- destruct (i_new _ _ _ _ _ V _ G1) as [|(p & -> & G3)]; [congruence|]. assert (o2 = KLatch p) by congruence. subst o2. apply (ok_latch p), Sx'.
    + intros ? ? [].
    + congruence.
    + intros u ta l pcs d0 a k lbl p R Ha L Hp. inversion R as [| | | |? ? ? a0 id o2 ? ? ? Hi Gi R']; subst. apply in_app_or in Hi. destruct Hi as [Hi|Hi].
      * destruct (i_served _ _ _ _ _ V _ _ _ Hi Gi _ _ _ _ _ _ _ _ _ R' Ha L Hp) as [(r & T & R2)|(r & T & Hx)].
        -- left. exists r. split; [exact T|]. eapply R_sched; [apply in_or_app; left; exact Hi|exact Gi|exact R2].
        -- left. exists (r + u). split; [apply (reset_shift _ _ _ u) in T; eapply reset_eq; [exact T|ring|reflexivity]|]. destruct (i_extra _ _ _ _ _ V _ _ Hx) as [Hg _]. eapply R_sched; [apply in_or_app; right; apply in_map_iff; exists (r, p); split; [reflexivity|exact Hx]|exact Hg|]. constructor. ring.
      * apply in_map_iff in Hi. destruct Hi as ([r q] & [= <- <-] & Hi). destruct (i_extra _ _ _ _ _ V _ _ Hi) as [Hg _]. assert (o2 = KLatch q) by congruence. subst o2. inversion R'.
Qed.
End Pass.
