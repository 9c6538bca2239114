(** C11: merging consecutive Rz gates preserves the accumulated Z rotation. *)
From Verif Require Import Base RzModel.
From Coq Require Import List.
Open Scope Q_scope.

(** ** Specification *)
(** what is executed: rotations about Z, other operations, and the boundaries of conditional blocks *)
Inductive gate := Rot (q : string) (theta : Q) | Other (a : addr) | Mark (b : bool).
(** the gates a schedule executes, loops unrolled, in the order of the schedulables; the IdlePulse(0) of the pass does nothing *)
Fixpoint exec (rz : addr -> option string) (h : heap) (n : node) : list gate :=
  match n with
  | Leaf a => match rz a with Some q => [Rot q (h a)] | None => [Other a] end
  | Ctrl (Some k) b => List.concat (repeat (exec rz h b) k)
  | Ctrl None b => Mark true :: exec rz h b ++ [Mark false]
  | Sch ops items => let es := map (fun kn => (fst kn, exec rz h (snd kn))) ops in
                     flat_map (fun i => match i with Noop => [] | Key k => match get es k with Some l => l | None => [] end end) items
  end.
(** the total Z rotation of qubit [q] in each stretch between two other gates *)
Fixpoint angles (q : string) (l : list gate) (acc : Q) : list Q :=
  match l with
  | [] => [acc]
  | Rot q' t :: r => angles q r (if String.eqb q q' then acc + t else acc)
  | _ :: r => acc :: angles q r 0
  end.
Definition others (l : list gate) : list gate := filter (fun g => match g with Rot _ _ => false | _ => true end) l.
Definition same_rotations (l l' : list gate) : Prop := others l = others l' /\ forall q, Forall2 Qeq (angles q l 0) (angles q l' 0).

(** The Rz objects that occur: one entry for each schedulable that has the object as its operation, and those in sub-schedules and bodies. *)
Fixpoint occurrences (n : node) : list addr :=
  match n with
  | Leaf a => [a]
  | Ctrl _ b => occurrences b
  | Sch ops items => List.concat (map (fun kn => match snd kn with Leaf _ => [] | _ => occurrences (snd kn) end) ops) ++
                     flat_map (fun i => match i with Noop => [] | Key k => match get ops k with Some (Leaf a) => [a] | _ => [] end end) items
  end.
(** The objects into which a following Rz on the same qubit is merged: those at the head of a run of at least two *)
Fixpoint run_heads (rz : addr -> option string) (ops : list (Z * node)) (last : option node) (items : list item) : list addr :=
  match items with
  | [] => []
  | Noop :: r => run_heads rz ops (Some (Sch [] [])) r
  | Key k :: r => match get ops k, last with
                  | Some (Leaf a), Some (Leaf b) => match rz a, rz b with
                                                    | Some q, Some q' => if String.eqb q q' then b :: run_heads rz ops last r else run_heads rz ops (Some (Leaf a)) r
                                                    | _, _ => run_heads rz ops (Some (Leaf a)) r
                                                    end
                  | x, _ => run_heads rz ops x r
                  end
  end.
Fixpoint heads (rz : addr -> option string) (n : node) : list addr :=
  match n with
  | Leaf _ => []
  | Ctrl _ b => heads rz b
  | Sch ops items => List.concat (map (fun kn => heads rz (snd kn)) ops) ++ run_heads rz ops None items
  end.
Definition unshared_heads (rz : addr -> option string) (n : node) : Prop := forall a, In a (heads rz n) -> count_occ Nat.eq_dec (occurrences n) a = 1%nat.
(** every schedulable has its operation *)
Fixpoint resolvable (n : node) : Prop :=
  match n with
  | Leaf _ => True
  | Ctrl _ b => resolvable b
  | Sch ops items => (fix all (l : list (Z * node)) : Prop := match l with [] => True | (_, x) :: r => resolvable x /\ all r end) ops /\
                     forall k, In (Key k) items -> exists x, get ops k = Some x
  end.

(** ** The equivalence is a congruence *)
Lemma Forall2_Qeq_refl l : Forall2 Qeq l l. Proof. induction l; constructor; [reflexivity|assumption]. Qed.
Lemma Forall2_Qeq_sym l l' : Forall2 Qeq l l' -> Forall2 Qeq l' l. Proof. induction 1; constructor; [symmetry; assumption|assumption]. Qed.
Lemma Forall2_Qeq_trans l l' l'' : Forall2 Qeq l l' -> Forall2 Qeq l' l'' -> Forall2 Qeq l l''. Proof. intros H. revert l''. induction H as [|x y l l' Hx Hl IH]; intros l'' H2; inversion H2; subst; constructor; [etransitivity; eassumption|auto]. Qed.
Lemma same_refl l : same_rotations l l. Proof. split; [reflexivity|intros q; apply Forall2_Qeq_refl]. Qed.
Lemma same_trans l l' l'' : same_rotations l l' -> same_rotations l' l'' -> same_rotations l l''.
Proof. intros [H1 H2] [H3 H4]. split; [congruence|intros q; eapply Forall2_Qeq_trans; eauto]. Qed.
(** [angles] as a list of finished stretches and the current one *)
Fixpoint ini (q : string) (l : list gate) (acc : Q) : list Q := match l with [] => [] | Rot q' t :: r => ini q r (if String.eqb q q' then acc + t else acc) | _ :: r => acc :: ini q r 0 end.
Fixpoint fin (q : string) (l : list gate) (acc : Q) : Q := match l with [] => acc | Rot q' t :: r => fin q r (if String.eqb q q' then acc + t else acc) | _ :: r => fin q r 0 end.
Lemma angles_app q l1 : forall l2 acc, angles q (l1 ++ l2) acc = ini q l1 acc ++ angles q l2 (fin q l1 acc).
Proof. induction l1 as [|[q' t|a|b] l1 IH]; intros l2 acc; cbn [app angles ini fin]; [reflexivity|apply IH|rewrite IH; reflexivity..]. Qed.
Lemma angles_split q l acc : angles q l acc = ini q l acc ++ [fin q l acc].
Proof. rewrite <- (app_nil_r l) at 1. rewrite angles_app. reflexivity. Qed.
(** adding a rotation before changes the first stretch only *)
Lemma angles_acc q l : forall acc acc', acc == acc' -> Forall2 Qeq (angles q l acc) (angles q l acc').
Proof. induction l as [|[q' t|a|b] l IH]; intros acc acc' E; cbn [angles]; [constructor; [exact E|constructor]|apply IH; destruct (String.eqb q q'); [rewrite E; reflexivity|exact E]|constructor; [exact E|apply Forall2_Qeq_refl]..]. Qed.
Definition bump (d : Q) (l : list Q) : list Q := match l with [] => [] | x :: r => (x + d) :: r end.
Lemma angles_bump q l : forall acc d, Forall2 Qeq (angles q l (acc + d)) (bump d (angles q l acc)).
Proof.
  induction l as [|[q' t|a|b] l IH]; intros acc d; cbn [angles bump]; [apply Forall2_Qeq_refl| |apply Forall2_Qeq_refl..]. destruct (String.eqb q q'); [|apply IH].
  eapply Forall2_Qeq_trans; [|apply IH]. apply angles_acc. ring.
Qed.
Lemma bump_eq d d' l l' : d == d' -> Forall2 Qeq l l' -> Forall2 Qeq (bump d l) (bump d' l').
Proof. intros Hd H. destruct H as [|x y l l' Hx Hl]; cbn; constructor; [rewrite Hx, Hd; reflexivity|exact Hl]. Qed.
Lemma angles_any q l l' : Forall2 Qeq (angles q l 0) (angles q l' 0) -> forall acc acc', acc == acc' -> Forall2 Qeq (angles q l acc) (angles q l' acc').
Proof.
  intros H acc acc' E. eapply Forall2_Qeq_trans; [apply (angles_acc q l acc (0 + acc)); ring|]. eapply Forall2_Qeq_trans; [apply angles_bump|]. eapply Forall2_Qeq_trans; [apply (bump_eq acc acc' _ _ E H)|].
  apply Forall2_Qeq_sym. eapply Forall2_Qeq_trans; [apply (angles_acc q l' acc' (0 + acc')); ring|]. apply angles_bump.
Qed.
Lemma same_app l1 l1' l2 l2' : same_rotations l1 l1' -> same_rotations l2 l2' -> same_rotations (l1 ++ l2) (l1' ++ l2').
Proof.
  intros [H1 H2] [H3 H4]. split; [unfold others in *; rewrite !filter_app; congruence|]. intros q. rewrite !angles_app. specialize (H2 q). rewrite !angles_split in H2. apply Forall2_app_inv_l in H2. destruct H2 as (a & b & Ha & Hb & E).
  inversion Hb as [|? y ? b' Hy Hb']; subst. inversion Hb'; subst. apply app_inj_tail in E. destruct E as [E1 E2]. rewrite E1. apply Forall2_app; [exact Ha|]. apply angles_any; [apply H4|]. rewrite E2. exact Hy.
Qed.
Lemma same_concat l l' : Forall2 same_rotations l l' -> same_rotations (List.concat l) (List.concat l').
Proof. induction 1; [apply same_refl|]. cbn. apply same_app; assumption. Qed.
(** moving a rotation forward over Rz gates of any qubit *)
Lemma same_merge q t d mid : Forall (fun g => match g with Rot _ _ => True | _ => False end) mid -> same_rotations (Rot q t :: mid ++ [Rot q d]) (Rot q (t + d) :: mid).
Proof.
  intros Hm. split.
  - unfold others. cbn [filter]. rewrite filter_app. cbn. apply app_nil_r.
  - intros q0. cbn [angles]. assert (G : forall mid acc acc', Forall (fun g => match g with Rot _ _ => True | _ => False end) mid -> acc' == (if String.eqb q0 q then acc + d else acc) -> Forall2 Qeq (angles q0 (mid ++ [Rot q d]) acc) (angles q0 mid acc')).
    { clear. induction mid as [|[q' t'|a|b] mid IH]; intros acc acc' Hm E; cbn [app angles].
      - constructor; [symmetry; exact E|constructor].
      - apply IH; [inversion Hm; assumption|]. destruct (String.eqb q0 q'), (String.eqb q0 q); rewrite E; ring.
      - inversion Hm; contradiction.
      - inversion Hm; contradiction. }
    apply G; [exact Hm|]. destruct (String.eqb q0 q); ring.
Qed.

(** ** Frame *)
Lemma node_nested (P : node -> Prop) : (forall a, P (Leaf a)) -> (forall l b, P b -> P (Ctrl l b)) -> (forall ops items, Forall (fun kn => P (snd kn)) ops -> P (Sch ops items)) -> forall n, P n.
Proof. intros H1 H2 H3. fix IH 1. intros [a|l b|ops items]; [apply H1|apply H2, IH|]. apply H3. induction ops as [|x l IHl]; constructor; [apply IH|exact IHl]. Qed.
Lemma get_map {V W} (f : V -> W) (d : list (Z * V)) k : get (map (fun kn => (fst kn, f (snd kn))) d) k = match get d k with Some v => Some (f v) | None => None end.
Proof. induction d as [|[k' v] d IH]; [reflexivity|]. cbn [map get fst snd]. destruct (Z.eqb k k'); [reflexivity|exact IH]. Qed.
Lemma get_in {V} (d : list (Z * V)) k v : get d k = Some v -> In (k, v) d.
Proof. induction d as [|[k' v'] d IH]; [discriminate|]. cbn [get]. destruct (Z.eqb_spec k k') as [->|_]; [intros [= ->]; left; reflexivity|intros H; right; auto]. Qed.
Definition item_gates (rz : addr -> option string) (h : heap) (ops : list (Z * node)) (i : item) : list gate := match i with Noop => [] | Key k => match get ops k with Some x => exec rz h x | None => [] end end.
Lemma exec_sch rz h ops items : exec rz h (Sch ops items) = flat_map (item_gates rz h ops) items.
Proof.
  cbn [exec]. induction items as [|i l IH]; [reflexivity|]. cbn [flat_map]. rewrite IH. f_equal. destruct i; [|reflexivity]. cbn [item_gates]. rewrite (get_map (exec rz h)). destruct (get ops k); reflexivity.
Qed.
Definition item_occ (ops : list (Z * node)) (i : item) : list addr := match i with Noop => [] | Key k => match get ops k with Some (Leaf a) => [a] | _ => [] end end.
Definition sub_occ (kn : Z * node) : list addr := match snd kn with Leaf _ => [] | _ => occurrences (snd kn) end.
(** only the angles of the objects that occur matter *)
Lemma exec_frame rz h h' : forall n, (forall a, In a (occurrences n) -> h a = h' a) -> exec rz h n = exec rz h' n.
Proof.
  induction n as [a|l b IH|ops items IH] using node_nested; intros H.
  - cbn [exec]. rewrite (H a (or_introl eq_refl)). reflexivity.
  - cbn [exec]. rewrite (IH H). reflexivity.
  - rewrite !exec_sch. cbn [occurrences] in H. rewrite !flat_map_concat_map. f_equal. apply map_ext_in. intros i Hi. destruct i as [k|]; [|reflexivity]. cbn [item_gates]. destruct (get ops k) as [x|] eqn:E; [|reflexivity]. pose proof (get_in _ _ _ E) as Hk.
    pose proof (proj1 (Forall_forall _ _) IH _ Hk) as IHx. cbn [snd] in IHx. apply IHx. intros a Ha. apply H. apply in_or_app. destruct x as [a0| |].
    + right. apply in_flat_map. exists (Key k). split; [exact Hi|]. cbn [item_occ]. rewrite E. exact Ha.
    + left. apply in_concat. exists (occurrences (Ctrl loop x)). split; [|exact Ha]. apply in_map_iff. exists (k, Ctrl loop x). auto.
    + left. apply in_concat. exists (occurrences (Sch ops0 items0)). split; [|exact Ha]. apply in_map_iff. exists (k, Sch ops0 items0). auto.
Qed.
Notation cnt := (count_occ Nat.eq_dec).
Lemma cnt_in a l : In a l -> (1 <= cnt l a)%nat. Proof. intros H. apply (count_occ_In Nat.eq_dec) in H. lia. Qed.
Lemma cnt_notin a l : (cnt l a = 0)%nat -> ~ In a l. Proof. intros H Hi. apply cnt_in in Hi. lia. Qed.
Lemma cnt_le_incl_concat a (l : list (list addr)) x : In x l -> (cnt x a <= cnt (List.concat l) a)%nat.
Proof. induction l as [|y l IH]; [intros []|]. cbn [List.concat]. rewrite count_occ_app. intros [->|H]; [lia|]. apply IH in H. lia. Qed.

(** ** The loop over the schedulables *)
Definition last_occ (last : option node) : list addr := match last with Some (Leaf b) => [b] | _ => [] end.
Definition last_gates (rz : addr -> option string) (h : heap) (last : option node) : list gate := match last with Some (Leaf b) => exec rz h (Leaf b) | _ => [] end.
Lemma run_heads_occ rz ops : forall items last a, In a (run_heads rz ops last items) -> In a (last_occ last ++ flat_map (item_occ ops) items).
Proof.
  induction items as [|i items IH]; intros last a H; [destruct H|]. cbn [flat_map].
  assert (K : forall x, In a (run_heads rz ops x items) -> (forall y, In y (last_occ x) -> In y (item_occ ops i)) -> In a (last_occ last ++ item_occ ops i ++ flat_map (item_occ ops) items)).
  { intros x Hx Hy. apply IH in Hx. apply in_app_or in Hx. rewrite !in_app_iff. destruct Hx as [Hx|Hx]; auto. }
  destruct i as [k|]; cbn [run_heads] in H.
  - destruct (get ops k) as [[b0| |]|] eqn:E; [|eapply K; [exact H|intros y []]..].
    assert (K' : In a (run_heads rz ops (Some (Leaf b0)) items) -> In a (last_occ last ++ item_occ ops (Key k) ++ flat_map (item_occ ops) items)) by (intros Hx; eapply K; [exact Hx|cbn [item_occ]; rewrite E; auto]).
    destruct last as [[b| |]|]; [|apply K', H..]. destruct (rz b0) as [q|], (rz b) as [q'|]; [|apply K', H..]. destruct (String.eqb q q'); [|apply K', H]. destruct H as [<-|H]; [left; reflexivity|]. apply IH in H. rewrite in_app_iff in *. destruct H as [H|H]; [left; exact H|]. right. apply in_or_app. right. exact H.
  - eapply K; [exact H|intros y []].
Qed.
Lemma item_frame rz ops h h' i : (forall a, In a (item_occ ops i ++ List.concat (map sub_occ ops)) -> h a = h' a) -> item_gates rz h ops i = item_gates rz h' ops i.
Proof.
  intros H. destruct i as [k|]; [|reflexivity]. cbn [item_gates]. destruct (get ops k) as [x|] eqn:E; [|reflexivity]. apply exec_frame. intros a Ha. apply H. apply in_or_app. destruct x; [left; cbn [item_occ]; rewrite E; exact Ha|right|right].
  - apply in_concat. exists (sub_occ (k, Ctrl loop x)). split; [apply in_map, get_in, E|exact Ha].
  - apply in_concat. exists (sub_occ (k, Sch ops0 items)). split; [apply in_map, get_in, E|exact Ha].
Qed.
Lemma items_frame rz ops h h' items : (forall a, In a (flat_map (item_occ ops) items ++ List.concat (map sub_occ ops)) -> h a = h' a) -> flat_map (item_gates rz h ops) items = flat_map (item_gates rz h' ops) items.
Proof.
  induction items as [|i l IH]; intros H; [reflexivity|]. cbn [flat_map]. f_equal.
  - apply item_frame. intros a Ha. apply H. cbn [flat_map]. rewrite !in_app_iff in *. tauto.
  - apply IH. intros a Ha. apply H. cbn [flat_map]. rewrite !in_app_iff in *. tauto.
Qed.
Lemma merge_items_same rz ops : forall items h last h' items', merge_items rz ops h last items = Ok (h', items') ->
  (forall a, In a (run_heads rz ops last items) -> (cnt (last_occ last ++ flat_map (item_occ ops) items) a <= 1)%nat /\ ~ In a (List.concat (map sub_occ ops))) ->
  same_rotations (last_gates rz h last ++ flat_map (item_gates rz h ops) items) (last_gates rz h' last ++ flat_map (item_gates rz h' ops) items') /\
  (forall a, ~ In a (run_heads rz ops last items) -> h' a = h a) /\ (forall a, cnt (flat_map (item_occ ops) items') a <= cnt (flat_map (item_occ ops) items) a)%nat.
Proof.
  induction items as [|i items IH]; intros h last h' items' E H; [injection E as <- <-; split; [apply same_refl|split; [reflexivity|intros; lia]]|].
  (* going on with the item as the new last operation *)
  assert (Go : forall x, merge_items rz ops h x items = Ok (h', tl items') -> items' = i :: tl items' -> run_heads rz ops last (i :: items) = run_heads rz ops x items -> last_occ x = item_occ ops i ->
    (forall g, last_gates rz g x = match item_occ ops i with [] => [] | _ => item_gates rz g ops i end) ->
    same_rotations (last_gates rz h last ++ flat_map (item_gates rz h ops) (i :: items)) (last_gates rz h' last ++ flat_map (item_gates rz h' ops) items') /\
    (forall a, ~ In a (run_heads rz ops last (i :: items)) -> h' a = h a) /\ (forall a, cnt (flat_map (item_occ ops) items') a <= cnt (flat_map (item_occ ops) (i :: items)) a)%nat).
  { intros x Em Ei Er Eo Eg. rewrite Er in *. destruct (IH _ _ _ _ Em) as (S1 & F1 & C1).
    { intros a Ha. destruct (H a Ha) as [H1 H2]. split; [|exact H2]. cbn [flat_map] in H1. rewrite count_occ_app in H1 |- *. rewrite Eo in *. rewrite count_occ_app in H1. lia. }
    split; [|split; [exact F1|]].
    - rewrite Ei. cbn [flat_map].
      assert (Hlast : last_gates rz h last = last_gates rz h' last).
      { destruct last as [[b| |]|]; try reflexivity. apply exec_frame. intros a [<-|[]]. symmetry. apply F1. intros Hb. destruct (H b Hb) as [Hc _]. cbn [last_occ flat_map] in Hc. rewrite !count_occ_app in Hc. apply run_heads_occ in Hb. rewrite Eo in Hb. apply in_app_or in Hb.
        assert (1 <= cnt [b] b)%nat by (apply cnt_in; left; reflexivity). destruct Hb as [Hb|Hb]; apply cnt_in in Hb; lia. }
      rewrite Hlast. apply same_app; [apply same_refl|]. rewrite !Eg in S1. destruct (item_occ ops i) as [|a0 l0] eqn:Eio; [|exact S1].
      cbn [app] in S1. apply same_app; [|exact S1]. replace (item_gates rz h ops i) with (item_gates rz h' ops i); [apply same_refl|]. apply item_frame. rewrite Eio. cbn [app]. intros a Ha. apply F1. intros Hr. destruct (H a Hr) as [_ Hn]. auto.
    - intros a. rewrite Ei. cbn [flat_map]. rewrite !count_occ_app. specialize (C1 a). lia. }
  destruct i as [k|]; cbn [merge_items] in E.
  - destruct (get ops k) as [x|] eqn:Ek; [|discriminate].
    assert (Hgo : (do (h0, r') <- merge_items rz ops h (Some x) items; Ok (h0, Key k :: r')) = Ok (h', items') -> run_heads rz ops last (Key k :: items) = run_heads rz ops (Some x) items ->
      same_rotations (last_gates rz h last ++ flat_map (item_gates rz h ops) (Key k :: items)) (last_gates rz h' last ++ flat_map (item_gates rz h' ops) items') /\
      (forall a, ~ In a (run_heads rz ops last (Key k :: items)) -> h' a = h a) /\ (forall a, cnt (flat_map (item_occ ops) items') a <= cnt (flat_map (item_occ ops) (Key k :: items)) a)%nat).
    { intros Em Er. destruct (merge_items rz ops h (Some x) items) as [[h0 r']|] eqn:Emi; [|discriminate]. cbn [bind] in Em. injection Em as <- <-. apply (Go (Some x) Emi eq_refl Er); cbn [item_occ item_gates last_occ last_gates]; rewrite Ek; destruct x; reflexivity. }
    destruct x as [a|l b|o it]; [|apply Hgo; [exact E|cbn [run_heads]; rewrite Ek; reflexivity]..].
    destruct last as [[b| |]|]; [|apply Hgo; [exact E|cbn [run_heads]; rewrite Ek; reflexivity]..].
    destruct (rz a) as [q|] eqn:Eqa; [|apply Hgo; [exact E|cbn [run_heads]; rewrite Ek, Eqa; reflexivity]]. destruct (rz b) as [q'|] eqn:Eqb; [|apply Hgo; [exact E|cbn [run_heads]; rewrite Ek, Eqa, Eqb; reflexivity]].
    destruct (String.eqb q q') eqn:Eq; [|apply Hgo; [exact E|cbn [run_heads]; rewrite Ek, Eqa, Eqb, Eq; reflexivity]].
    (* a merge *)
    clear Hgo Go. assert (Er : run_heads rz ops (Some (Leaf b)) (Key k :: items) = b :: run_heads rz ops (Some (Leaf b)) items) by (cbn [run_heads]; rewrite Ek, Eqa, Eqb, Eq; reflexivity). rewrite Er in *. apply String.eqb_eq in Eq. subst q'.
    destruct (merge_items rz ops (upd h b (h b + h a)) (Some (Leaf b)) items) as [[h0 r']|] eqn:Emi; [|discriminate]. cbn [bind] in E. injection E as <- <-.
    destruct (H b (or_introl eq_refl)) as [Hb1 Hb2]. cbn [last_occ flat_map item_occ] in Hb1. rewrite Ek in Hb1. rewrite !count_occ_app in Hb1. assert (Hbb : (cnt [b] b = 1)%nat) by (cbn; destruct (Nat.eq_dec b b); congruence).
    assert (Hab : a <> b). { intros ->. lia. } assert (Hbr : ~ In b (flat_map (item_occ ops) items)) by (apply cnt_notin; lia).
    destruct (IH _ _ _ _ Emi) as (S1 & F1 & C1).
    { intros a' Ha'. destruct (H a' (or_intror Ha')) as [H1 H2]. split; [|exact H2]. cbn [flat_map] in H1. rewrite !count_occ_app in H1. rewrite count_occ_app. lia. }
    split; [|split].
    + cbn [flat_map item_gates app]. eapply same_trans; [|exact S1]. cbn [last_gates exec item_gates]. rewrite Ek. cbn [exec]. rewrite Eqb, Eqa. unfold upd at 1. rewrite Nat.eqb_refl.
      rewrite (items_frame rz ops h (upd h b (h b + h a))). 2:{ intros c Hc. unfold upd. destruct (Nat.eqb_spec c b) as [->|_]; [|reflexivity]. exfalso. apply in_app_or in Hc. tauto. }
      rewrite app_assoc. apply same_app; [|apply same_refl]. exact (same_merge q (h b) (h a) [] (Forall_nil _)).
    + intros c Hc. rewrite F1; [|intros Hi; apply Hc; right; exact Hi]. unfold upd. destruct (Nat.eqb_spec c b) as [->|_]; [exfalso; apply Hc; left; reflexivity|reflexivity].
    + intros c. cbn [flat_map item_occ app]. rewrite count_occ_app. specialize (C1 c). lia.
  - destruct (merge_items rz ops h (Some (Sch [] [])) items) as [[h0 r']|] eqn:Emi; [|discriminate]. cbn [bind] in E. injection E as <- <-. apply (Go (Some (Sch [] [])) Emi eq_refl); reflexivity.
Qed.

(** ** The whole pass *)
Fixpoint merge_ops (rz : addr -> option string) (h : heap) (l : list (Z * node)) : result (heap * list (Z * node)) :=
  match l with [] => Ok (h, []) | (k, x) :: r => do (h, x') <- merge rz h x; do (h, r') <- merge_ops rz h r; Ok (h, (k, x') :: r') end.
Lemma merge_sch rz h ops items : merge rz h (Sch ops items) = do (h, ops) <- merge_ops rz h ops; do (h, items) <- merge_items rz ops h None items; Ok (h, Sch ops items).
Proof.
  cbn [merge]. assert (G : forall l h, (fix go (h : heap) (l : list (Z * node)) : result (heap * list (Z * node)) := match l with [] => Ok (h, []) | (k, x) :: r => do (h, x') <- merge rz h x; do (h, r') <- go h r; Ok (h, (k, x') :: r') end) h l = merge_ops rz h l); [|rewrite G; reflexivity].
  clear. induction l as [|[k x] l IH]; intros h; [reflexivity|]. cbn [merge_ops]. destruct (merge rz h x) as [[h1 x']|]; [|reflexivity]. cbn [bind]. rewrite IH. reflexivity.
Qed.
Definition is_leaf (n : node) : bool := match n with Leaf _ => true | _ => false end.
Lemma merge_leaf rz h n h' n' : merge rz h n = Ok (h', n') -> (is_leaf n = true -> h' = h /\ n' = n) /\ is_leaf n' = is_leaf n.
Proof.
  destruct n as [a|l b|ops items]; [intros [= <- <-]; auto| |].
  - cbn [merge]. destruct (merge rz h b) as [[h1 b']|]; [|discriminate]. cbn [bind]. intros [= <- <-]. split; [discriminate|reflexivity].
  - rewrite merge_sch. destruct (merge_ops rz h ops) as [[h1 ops']|]; [|discriminate]. cbn [bind]. destruct (merge_items rz ops' h1 None items) as [[h2 items']|]; [|discriminate]. cbn [bind]. intros [= <- <-]. split; [discriminate|reflexivity].
Qed.
(** what the pass does to the dictionary of operations *)
Definition entry_ok (rz : addr -> option string) (h h' : heap) (kn kn' : Z * node) : Prop :=
  fst kn' = fst kn /\ is_leaf (snd kn') = is_leaf (snd kn) /\ (is_leaf (snd kn) = true -> snd kn' = snd kn) /\ (is_leaf (snd kn) = false -> same_rotations (exec rz h (snd kn)) (exec rz h' (snd kn'))) /\ (forall a, cnt (sub_occ kn') a <= cnt (sub_occ kn) a)%nat.
Lemma heads_sch rz ops items : heads rz (Sch ops items) = List.concat (map (fun kn => heads rz (snd kn)) ops) ++ run_heads rz ops None items. Proof. reflexivity. Qed.
Lemma occ_sch ops items : occurrences (Sch ops items) = List.concat (map sub_occ ops) ++ flat_map (item_occ ops) items. Proof. reflexivity. Qed.
Lemma heads_occ rz : forall n a, In a (heads rz n) -> In a (occurrences n) /\ is_leaf n = false.
Proof.
  induction n as [a|l b IH|ops items IH] using node_nested; intros c Hc; [destruct Hc|split; [apply IH, Hc|reflexivity]|]. split; [|reflexivity]. rewrite heads_sch in Hc. rewrite occ_sch. apply in_app_or in Hc. apply in_or_app. destruct Hc as [Hc|Hc].
  - left. apply in_concat in Hc. destruct Hc as (x & Hx & Hc). apply in_map_iff in Hx. destruct Hx as (kn & <- & Hkn). pose proof (proj1 (Forall_forall _ _) IH _ Hkn c Hc) as [H1 H2]. apply in_concat. exists (sub_occ kn). split; [apply in_map, Hkn|]. unfold sub_occ. destruct (snd kn); [discriminate|exact H1..].
  - right. apply run_heads_occ in Hc. exact Hc.
Qed.
Lemma sub_occ_leaf kn a : In a (sub_occ kn) -> is_leaf (snd kn) = false /\ sub_occ kn = occurrences (snd kn). Proof. unfold sub_occ. destruct (snd kn); [intros []|auto..]. Qed.
Lemma sub_occ_nonleaf kn : is_leaf (snd kn) = false -> sub_occ kn = occurrences (snd kn). Proof. unfold sub_occ. destruct (snd kn); [discriminate|auto..]. Qed.
Lemma get_forall2 rz h h' ops ops' : Forall2 (entry_ok rz h h') ops ops' -> forall k, match get ops k, get ops' k with
  | Some x, Some x' => entry_ok rz h h' (k, x) (k, x') | None, None => True | _, _ => False end.
Proof.
  induction 1 as [|[k0 x0] [k1 x1] l l' He Hl IH]; intros k; [exact I|]. cbn [get]. pose proof He as (E1 & _). cbn [fst] in E1. subst k1. destruct (Z.eqb_spec k k0) as [->|_]; [exact He|apply IH].
Qed.
Definition pass_ok (rz : addr -> option string) (n : node) : Prop := forall h h' n', merge rz h n = Ok (h', n') -> (forall a, In a (heads rz n) -> (cnt (occurrences n) a <= 1)%nat) ->
  same_rotations (exec rz h n) (exec rz h' n') /\ (forall a, ~ In a (heads rz n) -> h' a = h a) /\ (forall a, cnt (occurrences n') a <= cnt (occurrences n) a)%nat.
Lemma merge_ops_ok rz : forall ops, Forall (fun kn => pass_ok rz (snd kn)) ops -> forall h h' ops', merge_ops rz h ops = Ok (h', ops') ->
  (forall a, In a (List.concat (map (fun kn => heads rz (snd kn)) ops)) -> (cnt (List.concat (map sub_occ ops)) a <= 1)%nat) ->
  Forall2 (entry_ok rz h h') ops ops' /\ (forall a, ~ In a (List.concat (map (fun kn => heads rz (snd kn)) ops)) -> h' a = h a).
Proof.
  induction ops as [|[k x] ops IH]; intros Hp h h' ops' E Hu; cbn [merge_ops] in E; [injection E as <- <-; split; [constructor|reflexivity]|].
  inversion Hp as [|? ? Hx Hr]; subst. cbn [snd] in Hx. destruct (merge rz h x) as [[hx x']|] eqn:Ex; [|discriminate]. cbn [bind] in E. destruct (merge_ops rz hx ops) as [[h1 r']|] eqn:Er; [|discriminate]. cbn [bind] in E. injection E as <- <-.
  cbn [map List.concat snd] in Hu.
  assert (Hocc : forall a, In a (List.concat (map (fun kn => heads rz (snd kn)) ops)) -> In a (List.concat (map sub_occ ops))).
  { intros a Ha. apply in_concat in Ha. destruct Ha as (l & Hl & Ha). apply in_map_iff in Hl. destruct Hl as (kn & <- & Hkn). destruct (heads_occ _ _ _ Ha) as [Ho Hleaf]. apply in_concat. exists (sub_occ kn). split; [apply in_map, Hkn|]. rewrite (sub_occ_nonleaf _ Hleaf). exact Ho. }
  destruct (IH Hr hx h1 r' Er) as [F2 Fr].
  { intros a Ha. specialize (Hu a (in_or_app _ _ _ (or_intror Ha))). rewrite count_occ_app in Hu. lia. }
  destruct (merge_leaf _ _ _ _ _ Ex) as [Hl1 Hl2].
  (* what processing x leaves alone, and what processing the rest leaves alone *)
  assert (Fx : forall a, ~ In a (heads rz x) -> hx a = h a).
  { destruct (is_leaf x) eqn:Elx; [intros a _; destruct (Hl1 eq_refl) as [-> _]; reflexivity|]. apply (Hx h hx x' Ex). intros a Ha. specialize (Hu a (in_or_app _ _ _ (or_introl Ha))). rewrite count_occ_app in Hu. rewrite (sub_occ_nonleaf (k, x)) in Hu by exact Elx. cbn [snd] in Hu. lia. }
  split.
  - constructor.
    + split; [reflexivity|]. cbn [snd fst]. split; [exact Hl2|]. split; [intros Hl; apply Hl1, Hl|]. assert (Hcnt : is_leaf x = false -> same_rotations (exec rz h x) (exec rz hx x') /\ (forall a, cnt (occurrences x') a <= cnt (occurrences x) a)%nat).
      { intros Hl. destruct (Hx h hx x' Ex) as (S1 & _ & C1); [|auto]. intros a Ha. specialize (Hu a (in_or_app _ _ _ (or_introl Ha))). rewrite count_occ_app in Hu. rewrite (sub_occ_nonleaf (k, x)) in Hu by exact Hl. cbn [snd] in Hu. lia. }
      split.
      * intros Hl. destruct (Hcnt Hl) as [S1 C1]. replace (exec rz h1 x') with (exec rz hx x'); [exact S1|]. apply exec_frame. intros a Ha. symmetry. apply Fr. intros Hi. pose proof (Hocc a Hi) as Hoi. specialize (Hu a (in_or_app _ _ _ (or_intror Hi))). rewrite count_occ_app in Hu.
        rewrite (sub_occ_nonleaf (k, x)) in Hu by exact Hl. cbn [snd] in Hu. apply cnt_in in Ha, Hoi. specialize (C1 a). lia.
      * intros a. destruct (is_leaf x) eqn:Elx; [unfold sub_occ; cbn [snd]; destruct x'; [destruct x; [reflexivity|discriminate..]|discriminate..]|]. rewrite !sub_occ_nonleaf by (cbn [snd]; congruence). apply Hcnt. reflexivity.
    + assert (Hsub : forall y, In y ops -> is_leaf (snd y) = false -> exec rz h (snd y) = exec rz hx (snd y)).
      { intros y Hy Hly. apply exec_frame. intros a Ha. symmetry. apply Fx. intros Hi. destruct (heads_occ _ _ _ Hi) as [Hox Hlx]. specialize (Hu a (in_or_app _ _ _ (or_introl Hi))). rewrite count_occ_app in Hu. rewrite (sub_occ_nonleaf (k, x)) in Hu by exact Hlx. cbn [snd] in Hu.
        pose proof (cnt_le_incl_concat a (map sub_occ ops) (sub_occ y) (in_map _ _ _ Hy)) as Hle. rewrite (sub_occ_nonleaf y Hly) in Hle. apply cnt_in in Ha, Hox. lia. }
      clear - F2 Hsub. induction F2 as [|y y' l l' He Hl IHl]; constructor.
      * destruct He as (E1 & E2 & E3 & E4 & E5). repeat (split; [assumption|]). split; [|exact E5]. intros Hly. rewrite (Hsub y (or_introl eq_refl) Hly). apply E4, Hly.
      * apply IHl. intros z Hz. apply Hsub. right. exact Hz.
  - intros a Ha. cbn [map List.concat snd] in Ha. rewrite Fr, Fx; [reflexivity|intros Hi; apply Ha, in_or_app; auto..].
Qed.
Lemma merge_ok rz : forall n, pass_ok rz n.
Proof.
  induction n as [a|l b IH|ops items IH] using node_nested; intros h h' n' E Hu.
  - injection E as <- <-. split; [apply same_refl|]. split; [reflexivity|intros; lia].
  - cbn [merge] in E. destruct (merge rz h b) as [[h1 b']|] eqn:Eb; [|discriminate]. cbn [bind] in E. injection E as <- <-. destruct (IH _ _ _ Eb Hu) as (S1 & F1 & C1). split; [|split; assumption]. cbn [exec]. destruct l as [k|].
    + apply same_concat. clear - S1. induction k; cbn; constructor; assumption.
    + apply (same_app [Mark true] [Mark true]); [apply same_refl|]. apply same_app; [exact S1|apply same_refl].
  - rewrite merge_sch in E. destruct (merge_ops rz h ops) as [[h1 ops']|] eqn:Eo; [|discriminate]. cbn [bind] in E. destruct (merge_items rz ops' h1 None items) as [[h2 items']|] eqn:Ei; [|discriminate]. cbn [bind] in E. injection E as <- <-.
    rewrite heads_sch, occ_sch in Hu. destruct (merge_ops_ok rz ops IH h h1 ops' Eo) as [F2 Fr].
    { intros a Ha. specialize (Hu a (in_or_app _ _ _ (or_introl Ha))). rewrite count_occ_app in Hu. lia. }
    pose proof (get_forall2 _ _ _ _ _ F2) as Hget.
    assert (Hio : forall i, item_occ ops' i = item_occ ops i). { intros [k|]; [|reflexivity]. cbn [item_occ]. specialize (Hget k). destruct (get ops k) as [x|], (get ops' k) as [x'|]; try contradiction; [|reflexivity]. destruct Hget as (_ & E2 & E3 & _). cbn [snd] in *. destruct x; [rewrite (E3 eq_refl); reflexivity|destruct x'; [discriminate|reflexivity..]..]. }
    assert (Hrh : forall items last last', (forall a, last = Some (Leaf a) <-> last' = Some (Leaf a)) -> run_heads rz ops' last' items = run_heads rz ops last items).
    { clear - Hget. induction items as [|i items IH]; intros last last' Hl; [reflexivity|]. destruct i as [k|]; cbn [run_heads]; [|apply IH; intros a; split; discriminate]. specialize (Hget k) as Hg. destruct (get ops k) as [x|], (get ops' k) as [x'|]; try contradiction; [|destruct last as [[]|], last' as [[]|]; apply IH; intros; reflexivity].
      destruct Hg as (_ & E2 & E3 & _). cbn [snd] in *. destruct x as [a|l b|o it].
      - rewrite (E3 eq_refl). destruct last as [[b| |]|]; [rewrite (proj1 (Hl b) eq_refl); destruct (rz a) as [q|], (rz b) as [q'|]; [destruct (String.eqb q q'); [f_equal|]|..]; apply IH; intros; reflexivity|..].
        + destruct last' as [[b'| |]|]; [pose proof (proj2 (Hl b') eq_refl); discriminate|apply IH; intros; reflexivity..].
        + destruct last' as [[b'| |]|]; [pose proof (proj2 (Hl b') eq_refl); discriminate|apply IH; intros; reflexivity..].
        + destruct last' as [[b'| |]|]; [pose proof (proj2 (Hl b') eq_refl); discriminate|apply IH; intros; reflexivity..].
      - destruct x'; [discriminate| |]; (destruct last as [[]|], last' as [[]|]; apply IH; intros; split; discriminate).
      - destruct x'; [discriminate| |]; (destruct last as [[]|], last' as [[]|]; apply IH; intros; split; discriminate). }
    assert (Hfm : flat_map (item_occ ops') items = flat_map (item_occ ops) items) by (rewrite !flat_map_concat_map; f_equal; apply map_ext, Hio).
    assert (Hsub : forall a, (cnt (List.concat (map sub_occ ops')) a <= cnt (List.concat (map sub_occ ops)) a)%nat).
    { clear - F2. intros a. induction F2 as [|y y' l l' He Hl IHl]; [cbn; lia|]. cbn [map List.concat]. rewrite !count_occ_app. destruct He as (_ & _ & _ & _ & He). specialize (He a). lia. }
    destruct (merge_items_same rz ops' items h1 None h2 items' Ei) as (S2 & F3 & C2).
    { intros a Ha. rewrite (Hrh items None None) in Ha by (intros; reflexivity). specialize (Hu a (in_or_app _ _ _ (or_intror Ha))). rewrite count_occ_app in Hu. rewrite Hfm. cbn [last_occ app]. split; [lia|]. intros Hi. apply cnt_in in Hi. specialize (Hsub a). apply run_heads_occ in Ha. cbn [last_occ app] in Ha. apply cnt_in in Ha. lia. }
    split; [|split].
    + rewrite !exec_sch. cbn [last_gates app] in S2. eapply same_trans; [|exact S2]. rewrite !flat_map_concat_map. apply same_concat.
      assert (Hi : forall i, In i items -> same_rotations (item_gates rz h ops i) (item_gates rz h1 ops' i)).
      { intros [k|] Hin; [|apply same_refl]. cbn [item_gates]. specialize (Hget k) as Hg. destruct (get ops k) as [x|] eqn:Ek, (get ops' k) as [x'|]; try contradiction; [|apply same_refl]. destruct Hg as (_ & E2 & E3 & E4 & _). cbn [snd] in *. destruct (is_leaf x) eqn:El; [|apply E4; reflexivity].
        rewrite (E3 eq_refl). destruct x as [a| |]; try discriminate. replace (exec rz h1 (Leaf a)) with (exec rz h (Leaf a)); [apply same_refl|]. apply exec_frame. intros a' [<-|[]]. symmetry. apply Fr. intros Hh. specialize (Hu a (in_or_app _ _ _ (or_introl Hh))). rewrite count_occ_app in Hu.
        assert (H1 : In a (flat_map (item_occ ops) items)) by (apply in_flat_map; exists (Key k); split; [exact Hin|cbn [item_occ]; rewrite Ek; left; reflexivity]).
        assert (H2 : In a (List.concat (map sub_occ ops))). { apply in_concat in Hh. destruct Hh as (l & Hl & Hh). apply in_map_iff in Hl. destruct Hl as (kn & <- & Hkn). destruct (heads_occ _ _ _ Hh) as [Ho Hleaf]. apply in_concat. exists (sub_occ kn). split; [apply in_map, Hkn|]. rewrite (sub_occ_nonleaf _ Hleaf). exact Ho. }
        apply cnt_in in H1, H2. lia. }
      clear - Hi. induction items as [|i l IHl]; cbn; constructor; [apply Hi; left; reflexivity|apply IHl; intros j Hj; apply Hi; right; exact Hj].
    + intros a Ha. rewrite heads_sch in Ha. rewrite F3, Fr; [reflexivity| |]; intros Hi; apply Ha, in_or_app; [left; exact Hi|right]. rewrite (Hrh items None None) in Hi by (intros; reflexivity). exact Hi.
    + intros a. rewrite !occ_sch, !count_occ_app. specialize (C2 a). specialize (Hsub a). rewrite Hfm in C2. lia.
Qed.

(** ** C11 *)
(** If no object that accumulates a following Rz is used anywhere else, the pass keeps, for each qubit, the Z rotation in every stretch between two other gates, and the other gates themselves.
    Missing: the program does not ensure that condition (it stores equal gates as one object), see the refutations. *)
Theorem C11_merge_partial : forall rz h n h' n', merge rz h n = Ok (h', n') -> unshared_heads rz n -> same_rotations (exec rz h n) (exec rz h' n').
Proof. intros rz h n h' n' E Hu. apply (merge_ok rz n h h' n' E). intros a Ha. rewrite (Hu a Ha). lia. Qed.
(** In particular if no gate object is used twice ... *)
Corollary C11_distinct_objects : forall rz h n h' n', merge rz h n = Ok (h', n') -> NoDup (occurrences n) -> same_rotations (exec rz h n) (exec rz h' n').
Proof. intros rz h n h' n' E Hn. apply (merge_ok rz n h h' n' E). intros a _. apply (proj1 (NoDup_count_occ Nat.eq_dec _) Hn). Qed.
(** ... or if there is nothing to merge: then gates may be shared, and nothing changes at all. *)
Theorem C11_nothing_to_merge : forall rz h n h' n', merge rz h n = Ok (h', n') -> heads rz n = [] -> forall a, h' a = h a.
Proof. intros rz h n h' n' E Hn a. apply (merge_ok rz n h h' n' E); rewrite Hn; [intros ? []|intros []]. Qed.
(** It always completes on resolvable schedules. *)
Theorem C11_total : forall rz n h, resolvable n -> exists h' n', merge rz h n = Ok (h', n').
Proof.
  intros rz. induction n as [a|l b IH|ops items IH] using node_nested; intros h H.
  - repeat eexists.
  - destruct (IH h H) as (h' & b' & E). cbn [merge]. rewrite E. repeat eexists.
  - rewrite merge_sch. destruct H as [H1 H2]. assert (G1 : forall h, exists h' ops', merge_ops rz h ops = Ok (h', ops') /\ forall k x, get ops k = Some x -> exists x', get ops' k = Some x').
    { clear H2 h. induction ops as [|[k x] ops IHo]; intros h; [exists h, []; split; [reflexivity|discriminate]|]. destruct H1 as [Hx H1]. inversion IH as [|? ? IHx IHr]; subst. cbn [snd] in IHx. destruct (IHx h Hx) as (h1 & x' & E1). destruct (IHo IHr H1 h1) as (h2 & ops' & E2 & G). cbn [merge_ops]. rewrite E1. cbn [bind]. rewrite E2. cbn [bind].
      exists h2, ((k, x') :: ops'). split; [reflexivity|]. intros k0 y. cbn [get]. destruct (Z.eqb k0 k); [eauto|apply G]. }
    destruct (G1 h) as (h1 & ops' & E1 & G). rewrite E1. cbn [bind]. assert (H2' : forall k, In (Key k) items -> exists x, get ops' k = Some x) by (intros k Hk; destruct (H2 k Hk) as [x Hx]; eapply G; exact Hx).
    assert (G2 : forall items h last, (forall k, In (Key k) items -> exists x, get ops' k = Some x) -> exists h' items', merge_items rz ops' h last items = Ok (h', items')).
    { clear. induction items as [|i items IH]; intros h last H; [repeat eexists|]. assert (H' : forall k, In (Key k) items -> exists x, get ops' k = Some x) by (intros k Hk; apply H; right; exact Hk). destruct i as [k|]; cbn [merge_items].
      - destruct (H k (or_introl eq_refl)) as [x Ex]. rewrite Ex. assert (Hgo : exists h' items', (do (h0, r') <- merge_items rz ops' h (Some x) items; Ok (h0, Key k :: r')) = Ok (h', items')) by (destruct (IH h (Some x) H') as (h1 & i1 & ->); repeat eexists).
        destruct x as [a| |]; [|exact Hgo..]. destruct last as [[b| |]|]; [|exact Hgo..]. destruct (rz a), (rz b); [|exact Hgo..]. destruct (String.eqb _ _); [|exact Hgo]. destruct (IH (upd h b (h b + h a)) (Some (Leaf b)) H') as (h1 & i1 & ->). repeat eexists.
      - destruct (IH h (Some (Sch [] [])) H') as (h1 & i1 & ->). repeat eexists. }
    destruct (G2 items h1 None H2') as (h2 & items' & ->). repeat eexists.
Qed.

(** No schedulable is added, removed or reordered, so labels and timing constraints keep their meaning: each schedulable keeps its operation or gets the zero-length IdlePulse in place of an Rz, and sub-schedules, loops and conditionals stay where they are. *)
Inductive kept (rz : addr -> option string) : node -> node -> Prop :=
  | KLeaf a : kept rz (Leaf a) (Leaf a)
  | KCtrl l b b' : kept rz b b' -> kept rz (Ctrl l b) (Ctrl l b')
  | KSch ops ops' items items' : Forall2 (fun x y => fst x = fst y /\ kept rz (snd x) (snd y)) ops ops' ->
      Forall2 (fun i j => i = j \/ exists k a q, i = Key k /\ j = Noop /\ get ops k = Some (Leaf a) /\ rz a = Some q) items items' -> kept rz (Sch ops items) (Sch ops' items').
Theorem C11_schedulables_kept : forall rz n h h' n', merge rz h n = Ok (h', n') -> kept rz n n'.
Proof.
  intros rz. induction n as [a|l b IH|ops items IH] using node_nested; intros h h' n' E.
  - injection E as <- <-. constructor.
  - cbn [merge] in E. destruct (merge rz h b) as [[h1 b']|] eqn:Eb; [|discriminate]. cbn [bind] in E. injection E as <- <-. constructor. eapply IH, Eb.
  - rewrite merge_sch in E. destruct (merge_ops rz h ops) as [[h1 ops']|] eqn:Eo; [|discriminate]. cbn [bind] in E. destruct (merge_items rz ops' h1 None items) as [[h2 items']|] eqn:Ei; [|discriminate]. cbn [bind] in E. injection E as <- <-.
    assert (Ho : Forall2 (fun x y => fst x = fst y /\ kept rz (snd x) (snd y)) ops ops').
    { clear Ei. revert h h1 ops' Eo. induction IH as [|[k x] ops Hx Hr IHr]; intros h h1 ops' Eo; cbn [merge_ops] in Eo; [injection Eo as <- <-; constructor|]. destruct (merge rz h x) as [[hx x']|] eqn:Ex; [|discriminate]. cbn [bind] in Eo. destruct (merge_ops rz hx ops) as [[hr r']|] eqn:Er; [|discriminate]. cbn [bind] in Eo. injection Eo as <- <-.
      constructor; [split; [reflexivity|cbn [snd] in *; eapply Hx, Ex]|eapply IHr, Er]. }
    assert (Hg : forall k a, get ops' k = Some (Leaf a) -> get ops k = Some (Leaf a)).
    { clear - Ho. intros k a. induction Ho as [|[k1 x] [k2 y] l l' [H1 H2] Hl IHl]; [discriminate|]. cbn [fst snd] in *. subst k2. cbn [get]. destruct (Z.eqb k k1); [|exact IHl]. intros [= ->]. inversion H2; subst. reflexivity. }
    constructor; [exact Ho|]. clear - Ei Hg. revert h1 h2 items' Ei. generalize (@None node). induction items as [|i items IHi]; intros last h1 h2 items' Ei; [injection Ei as <- <-; constructor|]. destruct i as [k|]; cbn [merge_items] in Ei.
    + destruct (get ops' k) as [x|] eqn:Ek; [|discriminate].
      assert (Hgo : (do (h0, r') <- merge_items rz ops' h1 (Some x) items; Ok (h0, Key k :: r')) = Ok (h2, items') -> Forall2 (fun i j => i = j \/ exists k a q, i = Key k /\ j = Noop /\ get ops k = Some (Leaf a) /\ rz a = Some q) (Key k :: items) items').
      { intros E. destruct (merge_items rz ops' h1 (Some x) items) as [[h0 r']|] eqn:Em; [|discriminate]. cbn [bind] in E. injection E as <- <-. constructor; [left; reflexivity|eapply IHi, Em]. }
      destruct x as [a| |]; [|apply Hgo, Ei..]. destruct last as [[b| |]|]; [|apply Hgo, Ei..]. destruct (rz a) as [q|] eqn:Eq; [|apply Hgo, Ei]. destruct (rz b) as [q'|]; [|apply Hgo, Ei]. destruct (String.eqb q q'); [|apply Hgo, Ei].
      destruct (merge_items rz ops' (upd h1 b (h1 b + h1 a)) (Some (Leaf b)) items) as [[h0 r']|] eqn:Em; [|discriminate]. cbn [bind] in Ei. injection Ei as <- <-. constructor; [right; exists k, a, q; repeat split; [apply Hg, Ek|exact Eq]|eapply IHi, Em].
    + destruct (merge_items rz ops' h1 (Some (Sch [] [])) items) as [[h0 r']|] eqn:Em; [|discriminate]. cbn [bind] in Ei. injection Ei as <- <-. constructor; [left; reflexivity|eapply IHi, Em].
Qed.

(** ** Where it fails *)
Definition on_q0 : addr -> option string := fun a => match a with 9%nat => None | _ => Some "q0"%string end.
Definition ninety : heap := fun _ => 90.
(** Schedule.add stores gates with equal contents once: three Rz(90) on one qubit are three schedulables of one object. The pass makes it 360 degrees instead of 270. *)
Theorem C11_three_equal_refuted : exists h' n', let n := Sch [(1%Z, Leaf 0)] [Key 1; Key 1; Key 1] in merge on_q0 ninety n = Ok (h', n') /\
  angles "q0" (exec on_q0 ninety n) 0 = [270] /\ angles "q0" (exec on_q0 h' n') 0 = [360].
Proof. eexists. eexists. cbn zeta. split; [vm_compute; reflexivity|]. split; vm_compute; reflexivity. Qed.
(** A merge also changes equal gates elsewhere: Rz(90) Rz(90) X Rz(90) ends with 180 degrees after the X instead of 90. *)
Theorem C11_elsewhere_refuted : exists h' n', let n := Sch [(1%Z, Leaf 0); (2%Z, Leaf 9)] [Key 1; Key 1; Key 2; Key 1] in merge on_q0 ninety n = Ok (h', n') /\
  angles "q0" (exec on_q0 ninety n) 0 = [180; 90] /\ angles "q0" (exec on_q0 h' n') 0 = [180; 180].
Proof. eexists. eexists. cbn zeta. split; [vm_compute; reflexivity|]. split; vm_compute; reflexivity. Qed.
(** "Consecutive" means added consecutively, not executed consecutively: X is added first, then an Rz that ends where X starts and an Rz that starts where X ends (executed order: schedulables 1, 0, 2).
    The second rotation is moved to before the X. *)
Theorem C11_time_order_refuted : exists h' items', let ops := [(1%Z, Leaf 9); (2%Z, Leaf 0); (3%Z, Leaf 1)] in let items := [Key 1; Key 2; Key 3] in let in_time (l : list item) := map (fun i => nth i l Noop) [1; 0; 2]%nat in
  merge on_q0 ninety (Sch ops items) = Ok (h', Sch ops items') /\
  angles "q0" (exec on_q0 ninety (Sch ops (in_time items))) 0 = [90; 90] /\ angles "q0" (exec on_q0 h' (Sch ops (in_time items'))) 0 = [180; 0].
Proof. eexists. eexists. cbn zeta. split; [vm_compute; reflexivity|]. split; vm_compute; reflexivity. Qed.

(** non-trivial instance: runs on two qubits inside a loop in a sub-schedule and around an X, a shared gate that is not merged *)
Definition ex_rz : addr -> option string := fun a => match a with 9%nat => None | 3%nat => Some "q1"%string | _ => Some "q0"%string end.
Definition ex_node : node := Sch [(1%Z, Leaf 0); (2%Z, Leaf 1); (3%Z, Leaf 9); (4%Z, Leaf 2); (5%Z, Ctrl (Some 2%nat) (Sch [(1%Z, Leaf 4); (2%Z, Leaf 5); (3%Z, Leaf 3)] [Key 3; Key 1; Key 2]))] [Key 1; Key 2; Key 3; Key 4; Key 3; Key 4; Key 5].
Example C11_ex : unshared_heads ex_rz ex_node /\ heads ex_rz ex_node = [4; 0]%nat /\ exists h' n', merge ex_rz (fun a => inject_Z (Z.of_nat a)) ex_node = Ok (h', n') /\ angles "q0" (exec ex_rz h' n') 0 = [1; 2; 20].
Proof. split; [intros a Ha; cbn in Ha; destruct Ha as [<-|[<-|[]]]; reflexivity|]. split; [reflexivity|]. eexists. eexists. split; vm_compute; reflexivity. Qed.
Print Assumptions C11_merge_partial.
