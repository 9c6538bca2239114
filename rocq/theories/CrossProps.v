(** C32: crosstalk compensation yields the requested amplitudes. *)
From Verif Require Import Base CrossModel.
From Coq Require Import Ring Setoid.
Open Scope Z_scope.

(** ** Complex numbers *)
Definition ceq (a b : C) : Prop := (fst a == fst b)%Q /\ (snd a == snd b)%Q.
Definition copp (a : C) : C := (- fst a, - snd a)%Q.
Definition csub (a b : C) : C := cadd a (copp b).
Global Instance ceq_equiv : Equivalence ceq.
Proof. split; [intros [a b]; split; reflexivity|intros [a b] [c d] [H1 H2]; split; symmetry; assumption|intros [a b] [c d] [e f] [H1 H2] [H3 H4]; split; cbn in *; [rewrite H1; exact H3|rewrite H2; exact H4]]. Qed.
Global Instance cadd_proper : Proper (ceq ==> ceq ==> ceq) cadd.
Proof. intros [a b] [c d] [H1 H2] [e f] [g h] [H3 H4]. split; cbn in *; [rewrite H1, H3|rewrite H2, H4]; reflexivity. Qed.
Global Instance cmul_proper : Proper (ceq ==> ceq ==> ceq) cmul.
Proof. intros [a b] [c d] [H1 H2] [e f] [g h] [H3 H4]. split; cbn in *; rewrite H1, H2, H3, H4; reflexivity. Qed.
Global Instance copp_proper : Proper (ceq ==> ceq) copp.
Proof. intros [a b] [c d] [H1 H2]. split; cbn in *; [rewrite H1|rewrite H2]; reflexivity. Qed.
Lemma C_ring : ring_theory c0 c1 cadd cmul csub copp ceq.
Proof. split; intros; split; cbn; ring. Qed.
Lemma C_ext : ring_eq_ext cadd cmul copp ceq. Proof. split; [exact cadd_proper|exact cmul_proper|exact copp_proper]. Qed.
Add Ring Cr : C_ring (setoid ceq_equiv C_ext).
Fixpoint csum (l : list C) : C := match l with [] => c0 | x :: r => cadd x (csum r) end.
Lemma csum_app a b : ceq (csum (a ++ b)) (cadd (csum a) (csum b)).
Proof. induction a as [|x a IH]; cbn [app csum]; [ring|]. rewrite IH. ring. Qed.
Lemma csum_ext {A} (f g : A -> C) l : (forall x, In x l -> ceq (f x) (g x)) -> ceq (csum (map f l)) (csum (map g l)).
Proof. induction l as [|x l IH]; intros H; cbn [map csum]; [reflexivity|]. rewrite (H x) by (left; reflexivity). rewrite IH by (intros; apply H; right; assumption). reflexivity. Qed.
Lemma csum_plus {A} (f g : A -> C) l : ceq (csum (map (fun x => cadd (f x) (g x)) l)) (cadd (csum (map f l)) (csum (map g l))).
Proof. induction l as [|x l IH]; cbn [map csum]; [ring|]. rewrite IH. ring. Qed.
Lemma csum_mul {A} (f : A -> C) c l : ceq (csum (map (fun x => cmul c (f x)) l)) (cmul c (csum (map f l))).
Proof. induction l as [|x l IH]; cbn [map csum]; [ring|]. rewrite IH. ring. Qed.
Lemma csum_flat {A B} (f : B -> C) (g : A -> list B) l : ceq (csum (map f (flat_map g l))) (csum (map (fun x => csum (map f (g x))) l)).
Proof. induction l as [|x l IH]; cbn [flat_map map csum]; [reflexivity|]. rewrite map_app, csum_app, IH. reflexivity. Qed.
(** a sum over all indices, split into the diagonal one and the selected ones, the others being zero *)
Lemma csum_split (f : nat -> C) (sel : nat -> bool) k : forall n a, (forall i, sel i = false -> i <> k -> ceq (f i) c0) -> sel k = false ->
  ceq (csum (map f (seq a n))) (cadd (csum (map f (filter sel (seq a n)))) (if (a <=? k)%nat && (k <? a + n)%nat then f k else c0)).
Proof.
  induction n as [|n IH]; intros a Hz Hk; cbn [seq map filter csum].
  - destruct (Nat.leb_spec a k), (Nat.ltb_spec k (a + 0)); try lia; cbn [andb]; ring.
  - rewrite (IH (S a) Hz Hk). destruct (Nat.eq_dec a k) as [->|Hne].
    + rewrite Hk. destruct (Nat.leb_spec (S k) k); [lia|]. destruct (Nat.leb_spec k k); [|lia]. destruct (Nat.ltb_spec k (k + S n)); [|lia]. cbn [andb]. ring.
    + assert (E : ((S a <=? k)%nat && (k <? S a + n)%nat) = ((a <=? k)%nat && (k <? a + S n)%nat)).
      { destruct (Nat.leb_spec (S a) k), (Nat.leb_spec a k), (Nat.ltb_spec k (S a + n)), (Nat.ltb_spec k (a + S n)); try lia; reflexivity. }
      rewrite E. destruct (sel a) eqn:Es; cbn [map csum]; [ring|]. rewrite (Hz a Es Hne). ring.
Qed.

(** ** Specification *)
(** position of a port-clock in the list *)
Fixpoint pos (l : list string) (s : string) : nat := match l with [] => O | x :: r => if String.eqb s x then O else S (pos r s) end.
Section Spec.
(** unit-amplitude waveform of a pulse with the given other parameters, at a time since the start of its operation *)
Variable shape : Z -> Z -> C.
Variable pcl : list string.
(** what a pulse of an operation started at time t contributes at time n to what is received on port-clock number j, when port-clock i leaks onto j with X i j *)
Definition contribution (X : matrix) (j : nat) (n t : Z) (p : pinfo) : C := cmul (cmul (p_amp p) (shape (p_rest p) (n - t))) (X (pos pcl (p_pc p)) j).
Definition received (X : matrix) (s : sched) (j : nat) (n : Z) : C :=
  csum (map (fun '(_, e) => match get Z.eqb (e_op e) (s_ops s) with
                            | Some o => csum (map (contribution X j n (e_time e)) (o_infos o ++ o_body o))
                            | None => c0
                            end) (s_schs s)).
End Spec.
(** the requested signal: what would be received without crosstalk *)
Definition requested shape pcl := received shape pcl eye.
(** M is an inverse of X (n x n): M X = 1 *)
Definition inverse (n : nat) (M X : matrix) : Prop := forall i j, (i < n)%nat -> (j < n)%nat -> ceq (csum (map (fun k => cmul (M i k) (X k j)) (seq 0 n))) (eye i j).

(** ** Dictionaries *)
Lemma get_set_same {K V} (eqb : K -> K -> bool) (R : forall a b, eqb a b = true <-> a = b) k (v : V) d : get eqb k (set eqb k v d) = Some v.
Proof. induction d as [|[k' v'] d IH]; cbn [set get]; [rewrite (proj2 (R k k) eq_refl); reflexivity|]. destruct (eqb k k') eqn:E; cbn [get]; rewrite E; [reflexivity|exact IH]. Qed.
Lemma get_set_other {K V} (eqb : K -> K -> bool) (R : forall a b, eqb a b = true <-> a = b) k k2 (v : V) d : k2 <> k -> get eqb k2 (set eqb k v d) = get eqb k2 d.
Proof.
  intros Hne. induction d as [|[k' v'] d IH]; cbn [set get].
  - destruct (eqb k2 k) eqn:E; [apply R in E; congruence|reflexivity].
  - destruct (eqb k k') eqn:E; cbn [get]; [|rewrite IH; reflexivity]. apply R in E. subst k'. destruct (eqb k2 k) eqn:E2; [apply R in E2; congruence|reflexivity].
Qed.
Lemma set_new {K V} (eqb : K -> K -> bool) (R : forall a b, eqb a b = true <-> a = b) k (v : V) d : ~ In k (map fst d) -> set eqb k v d = d ++ [(k, v)].
Proof.
  induction d as [|[k' v'] d IH]; cbn [set map fst In app]; intros H; [reflexivity|]. destruct (eqb k k') eqn:E; [apply R in E; subst; exfalso; apply H; left; reflexivity|]. rewrite IH by tauto. reflexivity.
Qed.
Lemma label_eqb_eq a b : label_eqb a b = true <-> a = b.
Proof.
  destruct a as [s|h i], b as [s'|h' i']; cbn; try (split; discriminate); [rewrite String.eqb_eq; split; congruence|]. rewrite andb_true_iff, Z.eqb_eq, Nat.eqb_eq. split; [intros [-> ->]; reflexivity|intros [= -> ->]; auto].
Qed.
Lemma index_pos l s : In s l -> index l s = Ok (pos l s) /\ (pos l s < List.length l)%nat.
Proof.
  induction l as [|x l IH]; intros H; [destruct H|]. cbn [index pos List.length]. destruct (String.eqb_spec s x) as [->|Hne]; [split; [reflexivity|lia]|].
  destruct H as [H|H]; [congruence|]. destruct (IH H) as [-> Hlt]. cbn [bind]. split; [reflexivity|lia].
Qed.
Lemma pos_nth l i : NoDup l -> (i < List.length l)%nat -> pos l (nth i l EmptyString) = i.
Proof.
  intros Hn. revert i. induction Hn as [|x l Hx Hn IH]; intros i Hi; cbn [List.length] in Hi; [lia|]. destruct i as [|i]; cbn [nth pos]; [rewrite String.eqb_refl; reflexivity|].
  destruct (String.eqb_spec (nth i l EmptyString) x) as [E|_]; [exfalso; apply Hx; rewrite <- E; apply nth_In; lia|]. rewrite IH by lia. reflexivity.
Qed.

Section Main.
Variables (hash : op -> Z) (pcl : list string) (M : matrix).
(** one single pulse with amplitude parameters, on a port-clock in the crosstalk configuration *)
Definition single (o : op) (p : pinfo) : Prop := o = {| o_infos := [p]; o_body := [] |} /\ p_wf p = true /\ p_scales p = true /\ In (p_pc p) pcl.
Definition comp_i (p : pinfo) (i : nat) : op := comp_op {| o_infos := [p]; o_body := [] |} (nth i pcl EmptyString) (M (pos pcl (p_pc p)) i).
Definition tgt (p : pinfo) : list nat := targets M (pos pcl (p_pc p)) (List.length pcl).
(** the compensation pulses for an operation *)
Definition comp_ops (o : op) : list op := match o_infos o with p :: _ => map (comp_i p) (tgt p) | [] => [] end.

(** a schedule as built by Schedule.add (operations stored under their hash, C08): distinct user labels, each schedulable playing its own operation, all of them single pulses on listed port-clocks *)
Record plain (s : sched) : Prop := {
  pl_labels : NoDup (map fst (s_schs s));
  pl_user : forall l e, In (l, e) (s_schs s) -> exists n, l = User n;
  pl_once : NoDup (map (fun x => e_op (snd x)) (s_schs s));
  pl_op : forall l e, In (l, e) (s_schs s) -> exists o p, get Z.eqb (e_op e) (s_ops s) = Some o /\ single o p /\ hash o = e_op e }.
(** operations of the schedule, as far as used *)
Definition used (s : sched) (o : op) : Prop := exists l e, In (l, e) (s_schs s) /\ get Z.eqb (e_op e) (s_ops s) = Some o.
Definition added (s : sched) (c : op) : Prop := exists o, used s o /\ In c (comp_ops o).

Variable s0 : sched.
Hypothesis Hplain : plain s0.
(** no hash collisions *)
Hypothesis Hinj : forall a b, (used s0 a \/ added s0 a) -> (used s0 b \/ added s0 b) -> hash a = hash b -> a = b.
(** no compensation pulse happens to be identical to an operation of the schedule *)
Hypothesis Hdiff : forall c o, added s0 c -> used s0 o -> c <> o.

Definition p_of (e : entry) : pinfo := match get Z.eqb (e_op e) (s_ops s0) with Some {| o_infos := p :: _ |} => p | _ => {| p_pc := EmptyString; p_amp := c0; p_scales := true; p_wf := true; p_rest := 0 |} end.
Definition single_op (p : pinfo) : op := {| o_infos := [p]; o_body := [] |}.
Lemma p_of_ok l e : In (l, e) (s_schs s0) -> get Z.eqb (e_op e) (s_ops s0) = Some (single_op (p_of e)) /\ p_wf (p_of e) = true /\ p_scales (p_of e) = true /\ In (p_pc (p_of e)) pcl /\ hash (single_op (p_of e)) = e_op e.
Proof.
  intros H. destruct (pl_op s0 Hplain l e H) as (o & p & Hg & (-> & H1 & H2 & H3) & Hh). assert (E : p_of e = p) by (unfold p_of; rewrite Hg; reflexivity). rewrite E. auto.
Qed.
Definition comp_entries (x : label * entry) : list (label * entry) :=
  let e := snd x in map (fun i => (Comp (e_op e) i, {| e_op := hash (comp_i (p_of e) i); e_time := e_time e |})) (tgt (p_of e)).
Definition scaled (e : entry) : op := single_op (scale (M (pos pcl (p_pc (p_of e))) (pos pcl (p_pc (p_of e)))) (p_of e)).

Lemma used_in l e : In (l, e) (s_schs s0) -> used s0 (single_op (p_of e)).
Proof. intros H. exists l, e. split; [exact H|]. apply (p_of_ok l e H). Qed.
Lemma added_in l e i : In (l, e) (s_schs s0) -> In i (tgt (p_of e)) -> added s0 (comp_i (p_of e) i).
Proof. intros H Hi. exists (single_op (p_of e)). split; [apply (used_in l e H)|]. cbn. apply in_map. exact Hi. Qed.
Lemma comp_key l e i l' e' : In (l, e) (s_schs s0) -> In i (tgt (p_of e)) -> In (l', e') (s_schs s0) -> hash (comp_i (p_of e) i) <> e_op e'.
Proof.
  intros H Hi H' E. destruct (p_of_ok l' e' H') as (_ & _ & _ & _ & Hh). rewrite <- Hh in E. apply (Hdiff (comp_i (p_of e) i) (single_op (p_of e'))); [eapply added_in; eauto|eapply used_in; eauto|].
  apply Hinj; [right; eapply added_in; eauto|left; eapply used_in; eauto|exact E].
Qed.

Record Inv (done todo : list (label * entry)) (s : sched) : Prop := {
  i_schs : s_schs s = s_schs s0 ++ flat_map comp_entries done;
  i_todo : forall l e, In (l, e) todo -> get Z.eqb (e_op e) (s_ops s) = Some (single_op (p_of e));
  i_done : forall l e, In (l, e) done -> get Z.eqb (e_op e) (s_ops s) = Some (scaled e);
  i_comp : forall l e i, In (l, e) done -> In i (tgt (p_of e)) -> get Z.eqb (hash (comp_i (p_of e) i)) (s_ops s) = Some (comp_i (p_of e) i) }.

(** the inner loop *)
Lemma inner l e : In (l, e) (s_schs s0) -> forall ts s, incl ts (tgt (p_of e)) -> NoDup ts -> (forall i, In i ts -> ~ In (Comp (e_op e) i) (map fst (s_schs s))) ->
  let s' := fold_left (fun s i => add_compensation hash s (single_op (p_of e)) e (nth i pcl EmptyString) (M (pos pcl (p_pc (p_of e))) i) i) ts s in
  s_schs s' = s_schs s ++ map (fun i => (Comp (e_op e) i, {| e_op := hash (comp_i (p_of e) i); e_time := e_time e |})) ts /\
  (forall k, (forall i, In i ts -> k <> hash (comp_i (p_of e) i)) -> get Z.eqb k (s_ops s') = get Z.eqb k (s_ops s)) /\
  (forall c, added s0 c -> (get Z.eqb (hash c) (s_ops s) = Some c \/ exists i, In i ts /\ c = comp_i (p_of e) i) -> get Z.eqb (hash c) (s_ops s') = Some c).
Proof.
  intros He. destruct (p_of_ok l e He) as (_ & _ & _ & _ & Hh). induction ts as [|i ts IH]; intros s Hincl Hnd Hnew; cbn zeta; cbn [fold_left map].
  - rewrite app_nil_r. split; [reflexivity|]. split; [reflexivity|]. intros c _ [H|(i & [] & _)]. exact H.
  - inversion Hnd as [|? ? Hni Hnd']; subst. set (s1 := add_compensation hash s (single_op (p_of e)) e (nth i pcl EmptyString) (M (pos pcl (p_pc (p_of e))) i) i).
    assert (E1 : s_schs s1 = s_schs s ++ [(Comp (e_op e) i, {| e_op := hash (comp_i (p_of e) i); e_time := e_time e |})]).
    { unfold s1, add_compensation. cbn [s_schs]. rewrite Hh. change (comp_op (single_op (p_of e)) (nth i pcl EmptyString) (M (pos pcl (p_pc (p_of e))) i)) with (comp_i (p_of e) i). apply (set_new _ label_eqb_eq). apply Hnew. left. reflexivity. }
    assert (E2 : s_ops s1 = set Z.eqb (hash (comp_i (p_of e) i)) (comp_i (p_of e) i) (s_ops s)) by reflexivity.
    destruct (IH s1) as (H1 & H2 & H3); [intros x Hx; apply Hincl; right; exact Hx|exact Hnd'| |].
    { intros x Hx. rewrite E1, map_app, in_app_iff. cbn [map fst In]. intros [H|[H|[]]]; [apply (Hnew x); [right; exact Hx|exact H]|injection H as ->; contradiction]. }
    split; [rewrite H1, E1, <- app_assoc; reflexivity|]. split.
    + intros k Hk. rewrite H2 by (intros x Hx; apply Hk; right; exact Hx). rewrite E2. apply (get_set_other _ Z.eqb_eq). apply Hk. left. reflexivity.
    + intros c Hc Hor. apply H3; [exact Hc|]. rewrite E2. destruct (Z.eq_dec (hash c) (hash (comp_i (p_of e) i))) as [Eh|Eh].
      * left. rewrite Eh, (get_set_same _ Z.eqb_eq). f_equal. symmetry. apply Hinj; [right; exact Hc|right; eapply added_in; [exact He|apply Hincl; left; reflexivity]|exact Eh].
      * destruct Hor as [Hg|(x & [<-|Hx] & ->)]; [left; rewrite (get_set_other _ Z.eqb_eq) by exact Eh; exact Hg|congruence|right; eauto].
Qed.

Lemma step l e done todo s : s_schs s0 = done ++ (l, e) :: todo -> Inv done ((l, e) :: todo) s ->
  exists s', (match get Z.eqb (e_op e) (s_ops s) with None => Err KeyError | Some o => if is_pulse o then apply_compensation hash s o e pcl M else Ok s end) = Ok s' /\ Inv (done ++ [(l, e)]) todo s'.
Proof.
  intros Hs HI. assert (He : In (l, e) (s_schs s0)) by (rewrite Hs; apply in_or_app; right; left; reflexivity).
  rewrite (i_todo _ _ _ HI l e (or_introl eq_refl)). destruct (p_of_ok l e He) as (_ & Hwf & _ & Hpc & Hh). set (p := p_of e) in *. cbn [is_pulse single_op o_infos]. rewrite Hwf. unfold apply_compensation. cbn [single_op o_infos].
  destruct (index_pos pcl (p_pc p) Hpc) as [-> Hlt]. cbn [bind]. fold (tgt p). fold (single_op p).
  assert (Hsub : forall x, In x done \/ In x todo -> In x (s_schs s0)) by (intros x Hx; rewrite Hs; apply in_or_app; destruct Hx; [left|right; right]; assumption).
  assert (Hdist : forall l' e', In (l', e') done \/ In (l', e') todo -> e_op e' <> e_op e).
  { intros l' e' Hx Ee. pose proof (pl_once _ Hplain) as Hnd. rewrite Hs, map_app in Hnd. cbn [map snd] in Hnd. apply NoDup_remove_2 in Hnd. apply Hnd. rewrite <- Ee, in_app_iff.
    destruct Hx as [Hx|Hx]; [left|right]; apply (in_map (fun x => e_op (snd x))) in Hx; exact Hx. }
  destruct (inner l e He (tgt p) s) as (H1 & H2 & H3); [apply incl_refl|unfold tgt, targets; apply NoDup_filter, seq_NoDup| |].
  { intros i Hi. rewrite (i_schs _ _ _ HI), map_app, in_app_iff. intros [Hx|Hx].
    - apply in_map_iff in Hx. destruct Hx as ([l' e'] & El & Hx). cbn [fst] in El. subst l'. destruct (pl_user _ Hplain _ _ Hx) as [? ?]. discriminate.
    - apply in_map_iff in Hx. destruct Hx as ([l' e'] & El & Hx). cbn [fst] in El. subst l'. apply in_flat_map in Hx. destruct Hx as ([l2 e2] & Hx1 & Hx2).
      unfold comp_entries in Hx2. cbn [snd] in Hx2. apply in_map_iff in Hx2. destruct Hx2 as (i2 & Ei & _). injection Ei as Eo _ _. apply (Hdist l2 e2 (or_introl Hx1)). exact Eo. }
  cbn zeta in H1, H2, H3. fold p in H1, H2, H3. set (s1 := fold_left _ (tgt p) s) in *.
  assert (Hrep : existsb (fun i => hash (comp_op (single_op p) (nth i pcl EmptyString) (M (pos pcl (p_pc p)) i)) =? e_op e) (tgt p) = false).
  { apply not_true_is_false. intros Hx. apply existsb_exists in Hx. destruct Hx as (i & Hi & Hx). apply Z.eqb_eq in Hx. exact (comp_key l e i l e He Hi He Hx). }
  rewrite Hrep. eexists. split; [reflexivity|]. change (on_first (scale (M (pos pcl (p_pc p)) (pos pcl (p_pc p)))) (single_op p)) with (scaled e). split; cbn [s_schs s_ops].
  - rewrite H1, (i_schs _ _ _ HI), flat_map_app, <- app_assoc. cbn [flat_map]. rewrite app_nil_r. reflexivity.
  - intros l' e' Hx. rewrite (get_set_other _ Z.eqb_eq) by (apply (Hdist l'); right; exact Hx). rewrite H2; [apply (i_todo _ _ _ HI l'); right; exact Hx|].
    intros i Hi Ee. symmetry in Ee. exact (comp_key l e i l' e' He Hi (Hsub _ (or_intror Hx)) Ee).
  - intros l' e' Hx. apply in_app_or in Hx. destruct Hx as [Hx|[Hx|[]]].
    + rewrite (get_set_other _ Z.eqb_eq) by (apply (Hdist l'); left; exact Hx). rewrite H2; [apply (i_done _ _ _ HI l'); exact Hx|].
      intros i Hi Ee. symmetry in Ee. exact (comp_key l e i l' e' He Hi (Hsub _ (or_introl Hx)) Ee).
    + injection Hx as <- <-. apply (get_set_same _ Z.eqb_eq).
  - intros l' e' i Hx Hi. assert (Hx' : In (l', e') (s_schs s0)) by (apply in_app_or in Hx; destruct Hx as [Hx|[Hx|[]]]; [apply Hsub; auto|injection Hx as <- <-; exact He]).
    rewrite (get_set_other _ Z.eqb_eq) by (exact (comp_key l' e' i l e Hx' Hi He)). apply H3; [eapply added_in; eauto|].
    apply in_app_or in Hx. destruct Hx as [Hx|[Hx|[]]]; [left; apply (i_comp _ _ _ HI l'); assumption|]. injection Hx as <- <-. right. exists i. auto.
Qed.
Lemma run todo : forall done s, s_schs s0 = done ++ todo -> Inv done todo s -> exists s',
  foldM (fun s '(_, e) => match get Z.eqb (e_op e) (s_ops s) with None => Err KeyError | Some o => if is_pulse o then apply_compensation hash s o e pcl M else Ok s end) todo s = Ok s' /\ Inv (done ++ todo) [] s'.
Proof.
  induction todo as [|[l e] todo IH]; intros done s Hs HI; [exists s; rewrite app_nil_r; auto|]. destruct (step l e done todo s Hs HI) as (s1 & E1 & HI1). cbn [foldM]. rewrite E1. cbn [bind].
  destruct (IH (done ++ [(l, e)]) s1) as (s' & E & HI'); [rewrite Hs, <- app_assoc; reflexivity|exact HI1|]. exists s'. rewrite <- app_assoc in HI'. auto.
Qed.
Lemma compensate_ok : exists s', compensate hash s0 pcl M = Ok s' /\ Inv (s_schs s0) [] s'.
Proof.
  unfold compensate. destruct (run (s_schs s0) [] s0 eq_refl) as (s' & E & HI); [|exists s'; auto]. split.
  - cbn. rewrite app_nil_r. reflexivity.
  - intros l e H. apply (p_of_ok l e H).
  - intros l e [].
  - intros l e i [].
Qed.
End Main.

(** ** C32: for every crosstalk matrix X with inverse M and every schedule of single pulses on listed port-clocks, each played once: the compensated schedule exists, keeps the schedulables of the user in
    order and at their times, and what is received at every time on every listed port-clock, through the crosstalk, is what was requested. *)
Theorem C32_received_partial : forall (hash : op -> Z) (pcl : list string) (M X : matrix) (s : sched), NoDup pcl -> inverse (List.length pcl) M X -> plain hash pcl s ->
  (forall a b, used s a \/ added pcl M s a -> used s b \/ added pcl M s b -> hash a = hash b -> a = b) ->
  (forall c o, added pcl M s c -> used s o -> c <> o) ->
  exists s' extra, compensate hash s pcl M = Ok s' /\ s_schs s' = s_schs s ++ extra /\
  forall shape j n, (j < List.length pcl)%nat -> ceq (received shape pcl X s' j n) (requested shape pcl s j n).
Proof.
  intros hash pcl M X s Hnd HM Hp Hinj Hdiff. destruct (compensate_ok hash pcl M s Hp Hinj Hdiff) as (s' & E & HI). exists s', (flat_map (comp_entries hash pcl M s) (s_schs s)).
  split; [exact E|]. split; [exact (i_schs _ _ _ _ _ _ _ HI)|]. intros shape j n Hj. unfold requested, received. rewrite (i_schs _ _ _ _ _ _ _ HI), map_app, csum_app, csum_flat, <- csum_plus.
  apply csum_ext. intros [l e] Hin. cbn beta iota. destruct (p_of_ok hash pcl s Hp l e Hin) as (Hg & _ & Hsc & Hpc & _). set (p := p_of s e) in *.
  rewrite (i_done _ _ _ _ _ _ _ HI l e Hin), Hg. unfold comp_entries. cbn [snd]. fold p. rewrite map_map. cbn [e_op e_time].
  rewrite (csum_ext _ (fun i => cmul (cmul (p_amp p) (shape (p_rest p) (n - e_time e))) (cmul (M (pos pcl (p_pc p)) i) (X i j)))).
  2:{ intros i Hi. cbv beta iota. cbn [e_op e_time]. change p with (p_of s e). rewrite (i_comp _ _ _ _ _ _ _ HI l e i Hin Hi). fold p. unfold tgt, targets in Hi. apply filter_In in Hi. destruct Hi as [Hi _]. apply in_seq in Hi.
      cbn [comp_i comp_op on_first o_infos o_body app map csum]. unfold contribution. cbn [scale retarget p_amp p_scales p_rest p_pc]. rewrite Hsc, (pos_nth pcl i Hnd) by lia. ring. }
  rewrite csum_mul. unfold scaled. fold p. cbn [single_op o_infos o_body app map csum]. unfold contribution. cbn [scale p_amp p_scales p_rest p_pc]. rewrite Hsc.
  set (k := pos pcl (p_pc p)). destruct (index_pos pcl (p_pc p) Hpc) as [_ Hk]. fold k in Hk.
  pose proof (HM k j Hk Hj) as HMk. rewrite (csum_split (fun i => cmul (M k i) (X i j)) (fun i => negb (is_zero (M k i)) && negb (i =? k)%nat) k) in HMk.
  - destruct (Nat.leb_spec 0 k); [|lia]. destruct (Nat.ltb_spec k (0 + List.length pcl)); [|lia]. cbn [andb] in HMk. rewrite <- HMk. unfold tgt, targets. fold k. ring.
  - intros i Hi Hne. apply andb_false_iff in Hi. rewrite !negb_false_iff in Hi. destruct Hi as [Hi|Hi]; [|apply Nat.eqb_eq in Hi; congruence].
    unfold is_zero in Hi. apply andb_true_iff in Hi. rewrite !Qeq_bool_iff in Hi. assert (Hz : ceq (M k i) c0) by exact Hi. rewrite Hz. ring.
  - rewrite Nat.eqb_refl. cbn. rewrite andb_false_r. reflexivity.
Qed.

(** ** The crosstalk matrix is the configured one: identity, except for the configured pairs *)
Lemma mset_get m i j v a b : mset m i j v a b = if ((a =? i) && (b =? j))%nat then v else m a b. Proof. reflexivity. Qed.
Lemma pos_inj l a b : In a l -> In b l -> pos l a = pos l b -> a = b.
Proof.
  induction l as [|x l IH]; intros Ha Hb; [destruct Ha|]. cbn [pos]. destruct (String.eqb_spec a x), (String.eqb_spec b x); intros E; subst; try congruence. destruct Ha as [Ha|Ha]; [congruence|]. destruct Hb as [Hb|Hb]; [congruence|]. apply IH; [exact Ha|exact Hb|lia].
Qed.
Definition configured (ct : list (string * list (string * C))) (a b : string) : option C :=
  match get String.eqb a ct with Some cs => get String.eqb b cs | None => None end.
Lemma get_In {V} (d : list (string * V)) k v : get String.eqb k d = Some v -> In (k, v) d.
Proof. induction d as [|[k' v'] d IH]; cbn [get]; [discriminate|]. destruct (String.eqb_spec k k') as [->|_]; [intros [= ->]; left; reflexivity|right; auto]. Qed.
Lemma inner_matrix pcl src cs : In src pcl -> (forall b, In b (map fst cs) -> In b pcl) -> NoDup (map fst cs) -> forall m, exists m',
  foldM (fun m '(dest, v) => do i <- index pcl src; do j <- index pcl dest; Ok (mset m i j v)) cs m = Ok m' /\
  forall a b, In a pcl -> In b pcl -> m' (pos pcl a) (pos pcl b) = if String.eqb a src then match get String.eqb b cs with Some v => v | None => m (pos pcl a) (pos pcl b) end else m (pos pcl a) (pos pcl b).
Proof.
  intros Hs Hd Hn. induction cs as [|[d v] cs IH]; intros m; cbn [foldM].
  - exists m. split; [reflexivity|]. intros a b _ _. cbn [get]. destruct (String.eqb a src); reflexivity.
  - assert (Est : (do i <- index pcl src; do j <- index pcl d; Ok (mset m i j v)) = Ok (mset m (pos pcl src) (pos pcl d) v)) by
      (destruct (index_pos pcl src Hs) as [-> _]; destruct (index_pos pcl d (Hd d (or_introl eq_refl))) as [-> _]; reflexivity).
    rewrite Est. cbn [bind]. cbn [map fst] in Hn. inversion Hn as [|? ? Hni Hn']; subst.
    destruct (IH (fun b Hb => Hd b (or_intror Hb)) Hn' (mset m (pos pcl src) (pos pcl d) v)) as (m' & -> & Hm'). exists m'. split; [reflexivity|]. intros a b Ha Hb. rewrite (Hm' a b Ha Hb), mset_get. cbn [get].
    assert (E : forall x y, In x pcl -> In y pcl -> (pos pcl x =? pos pcl y)%nat = String.eqb x y).
    { intros x y Hx Hy. destruct (String.eqb_spec x y) as [->|Hne]; [apply Nat.eqb_refl|]. apply Nat.eqb_neq. intros E. apply Hne, (pos_inj pcl); assumption. }
    rewrite (E a src Ha Hs), (E b d Hb (Hd d (or_introl eq_refl))). destruct (String.eqb_spec a src) as [->|_]; cbn [andb]; [|reflexivity]. destruct (String.eqb_spec b d) as [->|_]; [|reflexivity].
    destruct (get String.eqb d cs) as [w|] eqn:Eg; [|reflexivity]. exfalso. apply Hni. apply get_In in Eg. apply (in_map fst) in Eg. exact Eg.
Qed.
Theorem C32_matrix : forall ct, NoDup (map fst ct) -> (forall a cs, In (a, cs) ct -> NoDup (map fst cs)) ->
  let pcl := port_clocks ct in NoDup pcl /\ exists X, crosstalk_matrix ct pcl = Ok X /\
  forall a b, In a pcl -> In b pcl -> X (pos pcl a) (pos pcl b) = match configured ct a b with Some v => v | None => if String.eqb a b then c1 else c0 end.
Proof.
  intros ct Hn1 Hn2 pcl. split; [apply NoDup_nodup|]. unfold crosstalk_matrix.
  assert (Hsrc : forall a cs, In (a, cs) ct -> In a pcl /\ forall b, In b (map fst cs) -> In b pcl).
  { intros a cs H. unfold pcl, port_clocks. split; [apply nodup_In, in_or_app; left; apply (in_map fst) in H; exact H|]. intros b Hb. apply nodup_In, in_or_app. right. apply in_flat_map. exists (a, cs). auto. }
  assert (G : forall l m, (forall a cs, In (a, cs) l -> In (a, cs) ct) -> NoDup (map fst l) -> exists X,
    foldM (fun m '(src, cs) => foldM (fun m '(dest, v) => do i <- index pcl src; do j <- index pcl dest; Ok (mset m i j v)) cs m) l m = Ok X /\
    forall a b, In a pcl -> In b pcl -> X (pos pcl a) (pos pcl b) = match configured l a b with Some v => v | None => m (pos pcl a) (pos pcl b) end).
  { induction l as [|[a0 cs0] l IH]; intros m Hsub Hnd; cbn [foldM]; [exists m; split; reflexivity|]. destruct (Hsrc a0 cs0 (Hsub _ _ (or_introl eq_refl))) as [Ha0 Hcs0].
    destruct (inner_matrix pcl a0 cs0 Ha0 Hcs0 (Hn2 _ _ (Hsub _ _ (or_introl eq_refl))) m) as (m1 & -> & Hm1). cbn [bind]. cbn [map fst] in Hnd. inversion Hnd as [|? ? Hni Hnd']; subst.
    destruct (IH m1 (fun a cs H => Hsub a cs (or_intror H)) Hnd') as (X & -> & HX). exists X. split; [reflexivity|]. intros a b Ha Hb. rewrite (HX a b Ha Hb), (Hm1 a b Ha Hb). unfold configured. cbn [get].
    destruct (String.eqb_spec a a0) as [->|_]; [|reflexivity]. destruct (get String.eqb a0 l) as [w|] eqn:Eg; [|reflexivity]. exfalso. apply Hni. apply get_In in Eg. apply (in_map fst) in Eg. exact Eg. }
  destruct (G ct eye (fun a cs H => H) Hn1) as (X & -> & HX). exists X. split; [reflexivity|]. intros a b Ha Hb. rewrite (HX a b Ha Hb). destruct (configured ct a b); [reflexivity|]. unfold eye.
  destruct (String.eqb_spec a b) as [->|Hne]; [rewrite Nat.eqb_refl; reflexivity|]. rewrite (proj2 (Nat.eqb_neq _ _)); [reflexivity|]. intros E. apply Hne, (pos_inj pcl); assumption.
Qed.

(** ** Where it fails *)
(** any pulse on a port-clock that the crosstalk configuration does not mention makes the compilation fail *)
Theorem C32_unlisted_port_raises : forall hash pcl M ops l e rest o p, get Z.eqb (e_op e) ops = Some o -> o_infos o = [p] -> p_wf p = true -> ~ In (p_pc p) pcl ->
  compensate hash {| s_ops := ops; s_schs := (l, e) :: rest |} pcl M = Err ValueError.
Proof.
  intros hash pcl M ops l e rest o p Hg Ho Hwf Hn. unfold compensate. cbn [s_schs foldM s_ops]. rewrite Hg. unfold is_pulse. rewrite Ho, Hwf. unfold apply_compensation. rewrite Ho.
  assert (E : index pcl (p_pc p) = Err ValueError); [|rewrite E; reflexivity]. clear - Hn. revert Hn. generalize (p_pc p). intros q Hn. induction pcl as [|x l IH]; [reflexivity|]. cbn [index In] in *. destruct (String.eqb_spec q x) as [->|_]; [tauto|]. rewrite IH by tauto. reflexivity.
Qed.

Definition ex_pcl : list string := ["a-c"; "bb-c"]%string.
(** an injective enough hash for the examples *)
Definition ex_hash (o : op) : Z := match o_infos o with p :: _ => Z.of_nat (String.length (p_pc p)) * 1000000 + Qnum (Qred (fst (p_amp p))) * 1000 + Zpos (Qden (Qred (fst (p_amp p)))) | [] => 0 end.
Definition ex_pulse (pc : string) (a : Q) : op := {| o_infos := [{| p_pc := pc; p_amp := (a, 0%Q); p_scales := true; p_wf := true; p_rest := 0 |}]; o_body := [] |}.
Definition ex_sched (l : list (Z * op)) : sched :=
  {| s_ops := map (fun '(_, o) => (ex_hash o, o)) l; s_schs := map (fun '(i, (t, o)) => (User (String (Ascii.ascii_of_nat i) EmptyString), {| e_op := ex_hash o; e_time := t |})) (combine (seq 65 (List.length l)) l) |}.
(** port-clock a leaks onto b with 1/2 *)
Definition ex_X : matrix := mset eye 0 1 ((1 # 2)%Q, 0%Q).
Definition ex_M : matrix := mset eye 0 1 (-(1 # 2), 0)%Q.
(** each leaks onto the other with 1/2 *)
Definition ex_X2 : matrix := mset ex_X 1 0 ((1 # 2)%Q, 0%Q).
Definition ex_M2 : matrix := fun i j => if (i =? j)%nat then ((4 # 3)%Q, 0%Q) else (-(2 # 3), 0)%Q.
Definition unit_shape (r t : Z) : C := if (0 <=? t) && (t <? 10) then c1 else c0.
Example ex_inverse : inverse 2 ex_M ex_X /\ inverse 2 ex_M2 ex_X2.
Proof. split; intros [|[|i]] [|[|j]] Hi Hj; try lia; split; vm_compute; reflexivity. Qed.

(** an operation used twice: with one-sided crosstalk the compensation of the first use is overwritten by that of the second, so the first leaks *)
Theorem C32_reuse_loses_compensation : exists s', compensate ex_hash (ex_sched [(0, ex_pulse "a-c" 1); (20, ex_pulse "a-c" 1)]) ex_pcl ex_M = Ok s' /\
  ceq (requested unit_shape ex_pcl (ex_sched [(0, ex_pulse "a-c" 1); (20, ex_pulse "a-c" 1)]) 1 5) c0 /\
  ceq (received unit_shape ex_pcl ex_X s' 1 5) ((1 # 2)%Q, 0%Q) /\ ceq (received unit_shape ex_pcl ex_X s' 1 25) c0.
Proof. eexists. split; [vm_compute; reflexivity|]. repeat split; vm_compute; reflexivity. Qed.
(** and with mutual crosstalk its amplitude is scaled twice: 13/9 is received instead of 1 *)
Theorem C32_reuse_scales_twice : exists s', compensate ex_hash (ex_sched [(0, ex_pulse "a-c" 1); (20, ex_pulse "a-c" 1)]) ex_pcl ex_M2 = Ok s' /\
  ceq (received unit_shape ex_pcl ex_X2 s' 0 5) ((13 # 9)%Q, 0%Q).
Proof. eexists. split; [vm_compute; reflexivity|]. repeat split; vm_compute; reflexivity. Qed.
(** a compensation pulse that equals another operation of the schedule replaces it: the pulse of amplitude -2/3 on b is no longer compensated as requested *)
Theorem C32_coincidence : exists s', compensate ex_hash (ex_sched [(0, ex_pulse "bb-c" (-(2 # 3))); (20, ex_pulse "a-c" 1)]) ex_pcl ex_M2 = Ok s' /\
  ceq (requested unit_shape ex_pcl (ex_sched [(0, ex_pulse "bb-c" (-(2 # 3))); (20, ex_pulse "a-c" 1)]) 1 5) (-(2 # 3), 0)%Q /\
  ~ ceq (received unit_shape ex_pcl ex_X2 s' 1 5) (-(2 # 3), 0)%Q.
Proof. eexists. split; [vm_compute; reflexivity|]. split; [split; vm_compute; reflexivity|]. intros [H _]. vm_compute in H. discriminate. Qed.
(** a pulse without amplitude parameters (NumericalPulse) is copied unscaled to the other port-clocks *)
Definition ex_numerical : op := {| o_infos := [{| p_pc := "a-c"; p_amp := c1; p_scales := false; p_wf := true; p_rest := 0 |}]; o_body := [] |}.
Theorem C32_numerical_copied : exists s', compensate ex_hash (ex_sched [(0, ex_numerical)]) ex_pcl ex_M = Ok s' /\ ceq (received unit_shape ex_pcl ex_X s' 1 5) ((3 # 2)%Q, 0%Q).
Proof. eexists. split; [vm_compute; reflexivity|]. repeat split; vm_compute; reflexivity. Qed.
(** an operation of two pulses: only the first is compensated, and the second is played once more by the compensation operation (2 instead of 1 is received on its port-clock) *)
Definition ex_two : op := {| o_infos := [{| p_pc := "a-c"; p_amp := c1; p_scales := true; p_wf := true; p_rest := 0 |}; {| p_pc := "bb-c"; p_amp := c1; p_scales := true; p_wf := true; p_rest := 0 |}]; o_body := [] |}.
Theorem C32_second_pulse_doubled : exists s', compensate ex_hash (ex_sched [(0, ex_two)]) ex_pcl ex_M = Ok s' /\ ceq (requested unit_shape ex_pcl (ex_sched [(0, ex_two)]) 1 5) c1 /\ ceq (received unit_shape ex_pcl ex_X s' 1 5) (2%Q, 0%Q).
Proof. eexists. split; [vm_compute; reflexivity|]. repeat split; vm_compute; reflexivity. Qed.
(** pulses inside loops and other control flow are not compensated *)
Definition ex_loop : op := {| o_infos := []; o_body := [{| p_pc := "a-c"; p_amp := c1; p_scales := true; p_wf := true; p_rest := 0 |}] |}.
Theorem C32_loop_body_not_compensated : exists s', compensate ex_hash (ex_sched [(0, ex_loop)]) ex_pcl ex_M = Ok s' /\ ceq (received unit_shape ex_pcl ex_X s' 1 5) ((1 # 2)%Q, 0%Q).
Proof. eexists. split; [vm_compute; reflexivity|]. repeat split; vm_compute; reflexivity. Qed.

(** a schedule that meets the hypotheses of C32_received_partial *)
Definition ex_ok := ex_sched [(0, ex_pulse "a-c" 1); (5, ex_pulse "bb-c" (1 # 3))].
Ltac each_used := repeat match goal with H : _ \/ _ |- _ => destruct H as [H|H] | H : False |- _ => destruct H | H : (_, _) = (_, _) |- _ => injection H as <- <- end.
Example C32_received_ex : NoDup ex_pcl /\ inverse 2 ex_M2 ex_X2 /\ plain ex_hash ex_pcl ex_ok /\
  (forall a b, used ex_ok a \/ added ex_pcl ex_M2 ex_ok a -> used ex_ok b \/ added ex_pcl ex_M2 ex_ok b -> ex_hash a = ex_hash b -> a = b) /\
  (forall c o, added ex_pcl ex_M2 ex_ok c -> used ex_ok o -> c <> o).
Proof.
  assert (HU : forall o, used ex_ok o -> o = ex_pulse "a-c" 1 \/ o = ex_pulse "bb-c" (1 # 3)).
  { intros o (l & e & Hin & Hg). cbn [ex_ok ex_sched s_schs combine seq map List.length In] in Hin. each_used; vm_compute in Hg; injection Hg as <-; [left|right]; reflexivity. }
  assert (HA : forall c, added ex_pcl ex_M2 ex_ok c -> c = comp_op (ex_pulse "a-c" 1) "bb-c" (-(2 # 3), 0)%Q \/ c = comp_op (ex_pulse "bb-c" (1 # 3)) "a-c" (-(2 # 3), 0)%Q).
  { intros c (o & Ho & Hc). destruct (HU o Ho) as [-> | ->]; vm_compute in Hc; destruct Hc as [<-|[]]; [left|right]; reflexivity. }
  split; [repeat constructor; cbn; intuition discriminate|]. split; [exact (proj2 ex_inverse)|]. split; [|split].
  - split.
    + cbn. repeat constructor; cbn; intuition discriminate.
    + intros l e Hin. cbn [ex_ok ex_sched s_schs combine seq map List.length In] in Hin. each_used; eexists; reflexivity.
    + vm_compute. repeat constructor; cbn; intuition discriminate.
    + intros l e Hin. cbn [ex_ok ex_sched s_schs combine seq map List.length In] in Hin. each_used; eexists; eexists; (split; [vm_compute; reflexivity|]); (split; [|vm_compute; reflexivity]); (split; [reflexivity|]); repeat split; cbn; auto.
  - intros a b Ha Hb. destruct Ha as [Ha|Ha], Hb as [Hb|Hb]; try apply HU in Ha; try apply HA in Ha; try apply HU in Hb; try apply HA in Hb; destruct Ha as [-> | ->], Hb as [-> | ->]; vm_compute; intros H; try discriminate H; reflexivity.
  - intros c o Hc Ho. apply HA in Hc. apply HU in Ho. destruct Hc as [-> | ->], Ho as [-> | ->]; vm_compute; discriminate.
Qed.
Print Assumptions C32_received_partial.
