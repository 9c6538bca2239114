(** The sweep over start and end events (C30, first part). *)
From Verif Require Import Base UpdModel UpdProps AcqChanProps StackModel.
From Coq Require Import Permutation.
Open Scope Z_scope.

(** ** Sums of rationals *)
Fixpoint qsum (l : list Q) : Q := match l with [] => 0%Q | x :: r => (x + qsum r)%Q end.
Lemma qsum_app a b : (qsum (a ++ b) == qsum a + qsum b)%Q.
Proof. induction a as [|x a IH]; cbn; [lra|]. rewrite IH. lra. Qed.
Lemma qsum_perm a b : Permutation a b -> (qsum a == qsum b)%Q.
Proof. induction 1; cbn; [reflexivity|rewrite IHPermutation; reflexivity|lra|rewrite IHPermutation1; assumption]. Qed.
Lemma qsum_map_ext {A} (f g : A -> Q) l : (forall x, In x l -> (f x == g x)%Q) -> (qsum (map f l) == qsum (map g l))%Q.
Proof. induction l as [|x l IH]; cbn; intros H; [reflexivity|]. rewrite IH by auto. rewrite (H x) by auto. reflexivity. Qed.
Lemma qsum_map_0 {A} (f : A -> Q) l : (forall x, In x l -> (f x == 0)%Q) -> (qsum (map f l) == 0)%Q.
Proof. induction l as [|x l IH]; cbn; intros H; [reflexivity|]. rewrite IH by auto. rewrite (H x) by auto. reflexivity. Qed.
Lemma qsum_filter {A} (p : A -> bool) (f : A -> Q) l : (qsum (map f (filter p l)) == qsum (map (fun x => if p x then f x else 0) l))%Q.
Proof. induction l as [|x l IH]; cbn; [reflexivity|]. destruct (p x); cbn; rewrite IH; lra. Qed.
Lemma qsum_map_plus {A} (f g : A -> Q) l : (qsum (map (fun x => f x + g x) l) == qsum (map f l) + qsum (map g l))%Q.
Proof. induction l as [|x l IH]; cbn; [reflexivity|]. rewrite IH. lra. Qed.
Lemma qsum_nonneg {A} (f : A -> Q) l : (forall x, In x l -> (0 <= f x)%Q) -> (0 <= qsum (map f l))%Q.
Proof. induction l as [|x l IH]; cbn; intros H; [lra|]. pose proof (H x (or_introl eq_refl)). specialize (IH (fun y Hy => H y (or_intror Hy))). lra. Qed.
Lemma qsum_pos {A} (f : A -> Q) l x : (forall x, In x l -> (0 <= f x)%Q) -> In x l -> (f x <= qsum (map f l))%Q.
Proof.
  induction l as [|y l IH]; intros H [].
  - subst y. cbn. pose proof (qsum_nonneg f l (fun y Hy => H y (or_intror Hy))). lra.
  - cbn. pose proof (H y (or_introl eq_refl)). specialize (IH (fun y Hy => H y (or_intror Hy)) H0). lra.
Qed.

(** ** Sweep *)
Definition sgn (e : event) : Q := if e_end e then (-1)%Q else 1%Q.
Definition acc (v : Z -> Q) (n : Z) (l : list event) : Q := qsum (map (fun e => if e_time e <=? n then (sgn e * v (e_key e))%Q else 0%Q) l).
Definition inside (n : Z) (i : interval) : bool := (i_start i <=? n) && (n <? i_end i).
Definition ivsum (v : Z -> Q) (n : Z) (ivs : list interval) : Q := qsum (map (fun i => if inside n i then qsum (map v (i_keys i)) else 0%Q) ivs).
Definition proj (k : Z) (l : list event) : list bool := map e_end (filter (fun e => e_key e =? k) l).
Definition WF (act : list Z) (l : list event) : Prop :=
  NoDup act /\ forall k, (proj k l = [] /\ ~ In k act) \/ (proj k l = [false; true] /\ ~ In k act) \/ (proj k l = [true] /\ In k act).
Definition times (l : list event) : Prop := srt e_time l.

Lemma mem_iff k l : mem k l = true <-> In k l.
Proof. unfold mem. rewrite existsb_exists. split; [intros [x [H E]]; apply Z.eqb_eq in E; subst; exact H|intros H; exists k; split; [exact H|apply Z.eqb_refl]]. Qed.
Lemma mem_false k l : mem k l = false <-> ~ In k l.
Proof. rewrite <- mem_iff. destruct (mem k l); split; congruence. Qed.
Lemma remove_sum v k l : NoDup l -> In k l -> (qsum (map v (filter (fun j => negb (k =? j)) l)) == qsum (map v l) - v k)%Q.
Proof.
  induction l as [|x l IH]; intros Hn Hi; [destruct Hi|]. inversion Hn as [|? ? Hx Hn']; subst. cbn [filter]. destruct (k =? x) eqn:E; cbn [negb].
  - apply Z.eqb_eq in E. subst x. cbn. assert (filter (fun j => negb (k =? j)) l = l) as ->. { clear -Hx. induction l as [|y l IH]; [reflexivity|]. cbn. destruct (k =? y) eqn:E; [apply Z.eqb_eq in E; subst; cbn in Hx; tauto|]. cbn. f_equal. apply IH. intros H; apply Hx; right; exact H. } lra.
  - apply Z.eqb_neq in E. destruct Hi as [->|Hi]; [congruence|]. cbn. rewrite (IH Hn' Hi). lra.
Qed.

Lemma WF_step act e r : WF act (e :: r) ->
  (e_end e = true /\ In (e_key e) act /\ WF (filter (fun j => negb (e_key e =? j)) act) r) \/
  (e_end e = false /\ ~ In (e_key e) act /\ WF (act ++ [e_key e]) r).
Proof.
  intros [Hn H]. pose proof (H (e_key e)) as K. unfold proj in K at 1 2 3. cbn [filter] in K. rewrite Z.eqb_refl in K. cbn [map] in K. fold (proj (e_key e) r) in K.
  destruct (e_end e) eqn:E.
  - left. destruct K as [[K _]|[[K _]|[K Hi]]]; try discriminate. injection K as K. repeat split; [exact Hi|apply NoDup_filter, Hn|].
    intros k. destruct (Z.eq_dec (e_key e) k) as [<-|Ne].
    + left. split; [exact K|]. rewrite filter_In, Z.eqb_refl. intros [_ A]. discriminate.
    + specialize (H k). unfold proj in H. cbn [filter] in H. rewrite (proj2 (Z.eqb_neq _ _) Ne) in H. fold (proj k r) in H.
      rewrite filter_In, (proj2 (Z.eqb_neq _ _) Ne). cbn [negb]. tauto.
  - right. destruct K as [[K _]|[[K Hi]|[K Hi]]]; try discriminate. injection K as K. repeat split; [exact Hi|apply (Permutation_NoDup (l := e_key e :: act)); [apply Permutation_cons_append|constructor; assumption]|].
    intros k. destruct (Z.eq_dec (e_key e) k) as [<-|Ne].
    + right. right. split; [exact K|]. apply in_or_app. right. left. reflexivity.
    + specialize (H k). unfold proj in H. cbn [filter] in H. rewrite (proj2 (Z.eqb_neq _ _) Ne) in H. fold (proj k r) in H.
      rewrite in_app_iff. cbn. intuition congruence.
Qed.

Lemma WF_nil act : WF act [] -> act = [].
Proof. intros [_ H]. destruct act as [|k act]; [reflexivity|]. destruct (H k) as [[_ A]|[[A _]|[A _]]]; try discriminate. exfalso. apply A. left. reflexivity. Qed.

Section Facts.
Variables st en : Z -> Z.

Record sweep_facts (u : Z) (act : list Z) (l : list event) (ivs : list interval) : Prop := {
  sf_sum : forall v n, u <= n -> (ivsum v n ivs == qsum (map v act) + acc v n l)%Q;
  sf_ge : Forall (fun i => u <= i_start i) ivs;
  sf_ord : ForallOrdPairs (fun i j => i_end i <= i_start j) ivs;
  sf_iv : Forall (fun i => i_start i < i_end i /\ NoDup (i_keys i) /\ i_keys i <> [] /\ (forall k, In k (i_keys i) -> st k <= i_start i /\ i_end i <= en k /\ (In k act \/ exists e, In e l /\ e_key e = k)) /\ exists e, In e l /\ e_time e = i_end i) ivs }.

Lemma acc_later v n l : Forall (fun e => n < e_time e) l -> (acc v n l == 0)%Q.
Proof. intros H. apply qsum_map_0. intros e He. rewrite Forall_forall in H. specialize (H e He). cbn in H. destruct (e_time e <=? n) eqn:E; [apply Z.leb_le in E; lia|reflexivity]. Qed.
Lemma ivsum_before v n u ivs : Forall (fun i => u <= i_start i) ivs -> n < u -> (ivsum v n ivs == 0)%Q.
Proof. intros H Hn. apply qsum_map_0. intros i Hi. rewrite Forall_forall in H. specialize (H i Hi). cbn in H. unfold inside. destruct (i_start i <=? n) eqn:E; [apply Z.leb_le in E; lia|reflexivity]. Qed.

Lemma sweep_ok : forall l u act, times l -> Forall (fun e => u <= e_time e) l -> WF act l ->
  (forall e, In e l -> e_time e = if e_end e then en (e_key e) else st (e_key e)) -> (forall k, In k act -> st k <= u) ->
  exists ivs, sweep (Some u) act l = Ok ivs /\ sweep_facts u act l ivs.
Proof.
  induction l as [|e r IH]; intros u act Ht Hu HW Hst Hact.
  - exists []. split; [reflexivity|]. apply WF_nil in HW. subst act. constructor; try constructor.
  - destruct Ht as [Ht1 Ht2]. inversion Hu as [|? ? Hue Hur]; subst. cbn [sweep].
    set (t := e_time e) in *.
    assert (Hstep : exists act', (if e_end e then set_remove (e_key e) act else Ok (set_add (e_key e) act)) = Ok act' /\ WF act' r /\
       (forall v, (qsum (map v act') == qsum (map v act) + sgn e * v (e_key e))%Q) /\ (forall k, In k act' -> In k act \/ (k = e_key e /\ e_end e = false))).
    { destruct (WF_step _ _ _ HW) as [[E [Hi HW']]|[E [Hi HW']]]; rewrite E.
      - unfold set_remove. rewrite (proj2 (mem_iff _ _) Hi). eexists. split; [reflexivity|]. split; [exact HW'|]. split.
        + intros v. rewrite remove_sum by (try exact Hi; apply HW). unfold sgn. rewrite E. lra.
        + intros k Hk. apply filter_In in Hk. tauto.
      - unfold set_add. rewrite (proj2 (mem_false _ _) Hi). eexists. split; [reflexivity|]. split; [exact HW'|]. split.
        + intros v. rewrite map_app, qsum_app. cbn. unfold sgn. rewrite E. lra.
        + intros k Hk. apply in_app_or in Hk. destruct Hk as [Hk|[<-|[]]]; auto. }
    destruct Hstep as [act' [-> [HW' [Hsum Hin]]]]. cbn [bind].
    assert (Hlast : (if u <? t then t else u) = t). { destruct (u <? t) eqn:E; [reflexivity|]. apply Z.ltb_ge in E. lia. } rewrite Hlast.
    destruct (IH t act') as [ivs [-> F]]; try assumption.
    { intros e' He'. apply Hst. right. exact He'. }
    { intros k Hk. apply Hin in Hk. destruct Hk as [Hk|[-> E]]; [specialize (Hact k Hk); lia|]. pose proof (Hst e (or_introl eq_refl)) as Q. rewrite E in Q. unfold t. lia. }
    cbn [bind]. eexists. split; [reflexivity|]. destruct F as [F1 F2 F3 F4].
    assert (Hacc : forall v n, t <= n -> (qsum (map v act) + acc v n (e :: r) == qsum (map v act') + acc v n r)%Q).
    { intros v n Hn. unfold acc. cbn [map qsum]. fold t. rewrite (proj2 (Z.leb_le _ _) Hn). rewrite Hsum. lra. }
    assert (F4' : Forall (fun i => i_start i < i_end i /\ NoDup (i_keys i) /\ i_keys i <> [] /\ (forall k, In k (i_keys i) -> st k <= i_start i /\ i_end i <= en k /\ (In k act \/ exists e0, In e0 (e :: r) /\ e_key e0 = k)) /\ exists e0, In e0 (e :: r) /\ e_time e0 = i_end i) ivs).
    { eapply Forall_impl; [|exact F4]. intros i [A [B [B' [C [e0 [D1 D2]]]]]]. cbn. repeat split; auto; try (apply C; assumption).
      - destruct (C k H) as [_ [_ [K|[e1 [K1 K2]]]]]; [|right; exists e1; split; [right; exact K1|exact K2]]. apply Hin in K. destruct K as [K|[-> _]]; [left; exact K|right; exists e; split; [left; reflexivity|reflexivity]].
      - exists e0. split; [right; exact D1|exact D2]. }
    destruct (u <? t) eqn:Elt.
    + apply Z.ltb_lt in Elt. destruct act as [|a act].
      * cbn [app]. constructor; [|eapply Forall_impl; [|exact F2]; cbn; intros; lia|exact F3|exact F4'].
        intros v n Hn. destruct (Z.lt_ge_cases n t) as [L|L].
        -- rewrite (ivsum_before v n t ivs F2 L), acc_later; [cbn; lra|]. constructor; [exact L|]. eapply Forall_impl; [|exact Ht1]. cbn; intros; unfold t in *; lia.
        -- rewrite F1 by lia. symmetry. apply Hacc. lia.
      * set (act0 := a :: act) in *. cbn [app]. constructor.
        -- intros v n Hn. unfold ivsum. cbn [map qsum]. fold (ivsum v n ivs). unfold inside at 1. cbn [i_start i_end i_keys]. rewrite (proj2 (Z.leb_le _ _) Hn). cbn [andb]. destruct (Z.lt_ge_cases n t) as [L|L].
           ++ rewrite (proj2 (Z.ltb_lt _ _) L), (ivsum_before v n t ivs F2 L), acc_later; [reflexivity|]. constructor; [exact L|]. eapply Forall_impl; [|exact Ht1]. cbn; intros; unfold t in *; lia.
           ++ rewrite (proj2 (Z.ltb_ge _ _) L), F1 by lia. rewrite Hacc by lia. lra.
        -- constructor; [cbn; lia|]. eapply Forall_impl; [|exact F2]. cbn; intros; lia.
        -- constructor; [|exact F3]. eapply Forall_impl; [|exact F2]. cbn. intros; lia.
        -- constructor; [|exact F4']. cbn [i_start i_end i_keys]. split; [exact Elt|]. split; [apply HW|]. split; [discriminate|]. split.
           ++ intros k Hk. split; [apply Hact, Hk|]. split; [|left; exact Hk].
              destruct HW as [_ HW]. destruct (HW k) as [[_ A]|[[_ A]|[A _]]]; try contradiction.
              unfold proj in A. destruct (filter (fun e0 => e_key e0 =? k) (e :: r)) as [|f fl] eqn:Ef; [discriminate|]. assert (In f (e :: r) /\ e_key f = k) as [Hf Hk'].
              { assert (In f (filter (fun e0 => e_key e0 =? k) (e :: r))) as Hf by (rewrite Ef; left; reflexivity). apply filter_In in Hf. destruct Hf as [Hf Hf']. apply Z.eqb_eq in Hf'. auto. }
              cbn in A. injection A as A _. pose proof (Hst f Hf) as Q. rewrite A, Hk' in Q. rewrite <- Q. destruct Hf as [<-|Hf]; [unfold t; lia|]. exact (proj1 (Forall_forall _ _) Ht1 f Hf).
           ++ exists e. split; [left; reflexivity|reflexivity].
    + apply Z.ltb_ge in Elt. assert (t = u) by lia. cbn [app]. constructor; [|eapply Forall_impl; [|exact F2]; cbn; intros; lia|exact F3|exact F4'].
      intros v n Hn. rewrite F1 by lia. symmetry. apply Hacc. lia.
Qed.
End Facts.

(** the sorted events of a port-clock *)
Definition ekey (e : event) : Z := 2 * e_time e + (if e_end e then 1 else 0).
Lemma srt_weaken l : srt ekey l -> srt e_time l.
Proof. induction l as [|e l IH]; [exact (fun x => x)|]. intros [H1 H2]. split; [|auto]. eapply Forall_impl; [|exact H1]. cbn. unfold ekey. intros a Ha. destruct (e_end e), (e_end a); lia. Qed.
Lemma acc_perm v n l l' : Permutation l l' -> (acc v n l == acc v n l')%Q.
Proof. intros H. apply qsum_perm, Permutation_map, H. Qed.

Lemma sweep_none e r : e_end e = false -> sweep None [] (e :: r) = sweep (Some (e_time e)) [] (e :: r).
Proof. intros E. cbn. rewrite Z.ltb_irrefl, E. cbn. destruct (sweep _ _ _); reflexivity. Qed.

Definition ev2 (x : Z * Z * Z) : list event :=
  let '(k, s, e) := x in [{| e_time := s; e_end := false; e_key := k |}; {| e_time := e; e_end := true; e_key := k |}].
Definition xk (x : Z * Z * Z) : Z := fst (fst x).

(** items: key, start, end *)
Lemma proj_items : forall xs k, NoDup (map xk xs) ->
  filter (fun e => e_key e =? k) (flat_map ev2 xs) = [] /\ ~ In k (map xk xs) \/ exists s e, In (k, s, e) xs /\ filter (fun e => e_key e =? k) (flat_map ev2 xs) = ev2 (k, s, e).
Proof.
  induction xs as [|[[j s] e] xs IH]; intros k Hn; [left; auto|]. cbn [map] in Hn. inversion Hn as [|? ? Hj Hn']; subst. cbn [flat_map]. rewrite filter_app. cbn [ev2 filter e_key]. unfold xk in Hj at 1. cbn in Hj. destruct (j =? k) eqn:E.
  - apply Z.eqb_eq in E. subst j. right. exists s, e. split; [left; reflexivity|]. destruct (IH k Hn') as [[-> _]|[s' [e' [Hi _]]]]; [reflexivity|]. exfalso. apply Hj. apply in_map_iff. exists (k, s', e'). auto.
  - apply Z.eqb_neq in E. cbn [app]. destruct (IH k Hn') as [[-> A]|[s' [e' [Hi ->]]]]; [left; split; [reflexivity|]|right; exists s', e'; split; [right; exact Hi|reflexivity]].
    cbn. intros [B|B]; [unfold xk in B; cbn in B; congruence|auto].
Qed.

Definition look (xs : list (Z * Z * Z)) (f : Z * Z * Z -> Z) (k : Z) : Z := match find (fun x => xk x =? k) xs with Some x => f x | None => 0 end.
Lemma look_In xs f x : NoDup (map xk xs) -> In x xs -> look xs f (xk x) = f x.
Proof.
  unfold look. induction xs as [|y xs IH]; intros Hn Hi; [destruct Hi|]. cbn [map] in Hn. inversion Hn as [|? ? Hy Hn']; subst. cbn [find]. destruct Hi as [->|Hi]; [rewrite Z.eqb_refl; reflexivity|].
  destruct (xk y =? xk x) eqn:E; [|apply IH; assumption]. apply Z.eqb_eq in E. exfalso. apply Hy. rewrite E. apply in_map, Hi.
Qed.
Definition xs_start (x : Z * Z * Z) : Z := snd (fst x).
Definition xs_end (x : Z * Z * Z) : Z := snd x.
Definition activeb (n : Z) (x : Z * Z * Z) : bool := (xs_start x <=? n) && (n <? xs_end x).

Record group_facts (xs : list (Z * Z * Z)) (ivs : list interval) : Prop := {
  gf_sum : forall v n, (ivsum v n ivs == qsum (map (fun x => if activeb n x then v (xk x) else 0%Q) xs))%Q;
  gf_ord : ForallOrdPairs (fun i j => i_end i <= i_start j) ivs;
  gf_iv : forall i, In i ivs -> i_start i < i_end i /\ NoDup (i_keys i) /\ i_keys i <> [] /\
     (forall k, In k (i_keys i) -> exists x, In x xs /\ xk x = k /\ xs_start x <= i_start i /\ i_end i <= xs_end x) /\
     exists x, In x xs /\ (i_end i = xs_start x \/ i_end i = xs_end x) }.

Lemma sweep_group xs : NoDup (map xk xs) -> Forall (fun x => xs_start x <= xs_end x) xs ->
  exists ivs, sweep None [] (sort_events (flat_map ev2 xs)) = Ok ivs /\ group_facts xs ivs.
Proof.
  intros Hn Hd. set (evs := flat_map ev2 xs). set (s := sort_events evs).
  assert (HP : Permutation s evs) by (apply sorted_perm).
  assert (Hs : srt ekey s) by (apply (sorted_srt ekey)).
  assert (HW : WF [] s).
  { split; [constructor|]. intros k. unfold proj. unfold s, sort_events. rewrite <- (sorted_filter ekey). fold evs.
    destruct (proj_items xs k Hn) as [[E _]|[a [b [Hi E]]]]; fold evs in E; rewrite E; [left; auto|]. right. left. split; [|auto].
    rewrite Forall_forall in Hd. specialize (Hd _ Hi). unfold xs_start, xs_end in Hd. cbn in Hd. rewrite sorted_id; [reflexivity|]. cbn [srt ev2]. split; [constructor; [unfold ekey; cbn [e_time e_end]; lia|constructor]|]. split; [constructor|exact I]. }
  assert (Hev : forall e, In e s -> exists x, In x xs /\ xk x = e_key e /\ e_time e = if e_end e then xs_end x else xs_start x).
  { intros e He. apply (Permutation_in _ HP) in He. apply in_flat_map in He. destruct He as [[[k a] b] [Hx He]]. exists (k, a, b). split; [exact Hx|]. destruct He as [<-|[<-|[]]]; auto. }
  destruct s as [|e r] eqn:Es.
  - exists []. split; [reflexivity|]. assert (xs = []) as ->. { apply Permutation_nil in HP. destruct xs as [|[[k a] b] xs]; [reflexivity|discriminate]. } constructor; [reflexivity|constructor|intros i []].
  - assert (Ee : e_end e = false). { destruct (WF_step _ _ _ HW) as [[_ [[] _]]|[E _]]. exact E. }
    rewrite (sweep_none e r Ee). set (st := look xs xs_start). set (en := look xs xs_end).
    destruct (sweep_ok st en (e :: r) (e_time e) []) as [ivs [Hivs [F1 F2 F3 F4]]].
    + apply srt_weaken, Hs.
    + apply srt_weaken in Hs. destruct Hs as [Hs _]. constructor; [lia|exact Hs].
    + exact HW.
    + intros e' He'. destruct (Hev e' He') as [x [Hx [Hk Ht]]]. unfold st, en. rewrite <- Hk, !look_In by assumption. exact Ht.
    + intros k [].
    + exists ivs. split; [exact Hivs|]. constructor; [|exact F3|].
      * intros v n. assert (Hacc : (acc v n (e :: r) == qsum (map (fun x => if activeb n x then v (xk x) else 0) xs))%Q).
        { rewrite (acc_perm v n _ _ HP). unfold evs. clear -Hd. unfold acc. induction xs as [|[[k a] b] xs IH]; [reflexivity|]. inversion Hd as [|? ? Hx Hd']; subst. cbn [flat_map]. rewrite map_app, qsum_app. rewrite (IH Hd'). clear IH.
          unfold xs_start, xs_end in Hx. cbn in Hx. cbn [map qsum ev2 e_time e_end e_key sgn]. unfold activeb, xs_start, xs_end, xk. cbn [fst snd sgn e_end].
          destruct (Z.leb_spec a n), (Z.leb_spec b n), (Z.ltb_spec n b); cbn [andb]; try lia; unfold sgn; cbn [e_end]; lra. }
        destruct (Z.le_gt_cases (e_time e) n) as [L|L].
        -- rewrite F1 by exact L. cbn [map qsum]. rewrite <- Hacc. lra.
        -- rewrite (ivsum_before v n (e_time e) ivs F2 L), <- Hacc, acc_later; [reflexivity|]. apply srt_weaken in Hs. destruct Hs as [Hs _]. constructor; [exact L|]. eapply Forall_impl; [|exact Hs]. cbn. intros; lia.
      * intros i Hi. rewrite Forall_forall in F4. destruct (F4 i Hi) as [A [B [B' [C [e0 [D1 D2]]]]]]. split; [exact A|]. split; [exact B|]. split; [exact B'|]. split.
        -- intros k Hk. destruct (C k Hk) as [C1 [C2 [[]|[e1 [C3 C4]]]]]. destruct (Hev e1 C3) as [x [Hx [Hxk _]]]. exists x. split; [exact Hx|]. split; [congruence|]. rewrite C4 in Hxk. unfold st, en in C1, C2. rewrite <- Hxk, look_In in C1, C2 by assumption. auto.
        -- destruct (Hev e0 D1) as [x [Hx [_ Ht]]]. exists x. split; [exact Hx|]. destruct (e_end e0); [right|left]; congruence.
Qed.
