(** C23: acquisition indices are unique and contiguous per channel. *)
From Verif Require Import Base UpdModel UpdProps AcqChanModel.
From Coq Require Import Permutation.
Open Scope Z_scope.

(** ** Specification: the acquisitions of a schedule *)
(** one acquisition occurring in the schedule: where, in which loops, which acquisition of the operation *)
Record occ := { o_path : path; o_reps : list nat; o_num : nat; o_info : info }.
Definition o_key (o : occ) : key := (o_path o, o_num o).
Definition o_chan (o : occ) : Z := i_chan (o_info o).

Fixpoint number (n : nat) (p : path) (reps : list nat) (l : list info) : list occ :=
  match l with [] => [] | a :: r => {| o_path := p; o_reps := reps; o_num := n; o_info := a |} :: number (S n) p reps r end.
(** all acquisitions of a schedule, inside every schedule in the order of the start times *)
Fixpoint occs (x : tree) (p : path) (reps : list nat) {struct x} : list occ :=
  match x with
  | TOp acqs => number 0 p reps acqs
  | TSched l => flat_map snd (sorted_by fst (map (fun y => (snd (fst y), occs (snd y) (p ++ [Some (fst (fst y))]) reps)) l))
  | TLoop n b => occs b (p ++ [None]) (reps ++ [n])
  | TCond b => occs b (p ++ [None]) reps
  end.
Definition acquisitions (x : tree) : list occ := occs x [] [].

(** labels are unique inside each schedule (C08) *)
Fixpoint unique_labels (x : tree) : Prop :=
  match x with
  | TOp _ => True
  | TSched l => NoDup (map (fun y => fst (fst y)) l) /\ (fix all l := match l with [] => True | y :: r => unique_labels (snd y) /\ all r end) l
  | TLoop _ b | TCond b => unique_labels b
  end.

Definition averaging (o : occ) : bool := is_binned_average (i_proto (o_info o)) (i_mode (o_info o)).
Definition appending (o : occ) : bool :=
  is_binned_append (i_proto (o_info o)) (i_mode (o_info o)) || match i_proto (o_info o), i_mode (o_info o) with TimetagTrace, APPEND => true | _, _ => false end.
Definition binned (o : occ) : bool := averaging o || appending o.

(** how often its result is stored separately: once in average mode, once per iteration of all enclosing loops in append mode *)
Definition executions (o : occ) : nat := if averaging o then 1%nat else fold_right Nat.mul 1%nat (o_reps o).
(** coordinates expected for execution [j] *)
Definition expected_coord (o : occ) (j : nat) : coord :=
  {| c_user := i_coords (o_info o);
     c_loop := if averaging o then None else match o_reps o with [] => None | _ => Some (Z.of_nat j) end;
     c_legacy := if averaging o then None else i_index (o_info o) |}.

Definition indices (v : acqidx) : list Z := match v with One i => [i] | Many l => l end.
(** the acquisition indices the compiler assigned to an acquisition *)
Definition assigned (s : state) (o : occ) : list Z := match getk (o_key o) (labels s) with Some v => indices v | None => [] end.

(** ** Lemmas *)
Lemma getk_same k v d : getk k (putk k v d) = Some v.
Proof. induction d as [|[k' v'] d IH]; cbn; [destruct (key_eq_dec k k); congruence|]. destruct (key_eq_dec k k') as [->|Hn]; cbn; [destruct (key_eq_dec k' k'); congruence|]. destruct (key_eq_dec k k'); [congruence|exact IH]. Qed.
Lemma getk_other k k2 v d : k2 <> k -> getk k2 (putk k v d) = getk k2 d.
Proof.
  intros H. induction d as [|[k' v'] d IH]; cbn; [destruct (key_eq_dec k2 k); congruence|]. destruct (key_eq_dec k k') as [->|Hn]; cbn.
  - destruct (key_eq_dec k2 k'); [congruence|reflexivity].
  - destruct (key_eq_dec k2 k'); [reflexivity|exact IH].
Qed.
Lemma getc_same k v d : getc k (putc k v d) = Some v.
Proof. induction d as [|[k' v'] d IH]; cbn; [rewrite Z.eqb_refl; reflexivity|]. destruct (k =? k') eqn:E; cbn; [rewrite Z.eqb_refl; reflexivity|rewrite E; exact IH]. Qed.
Lemma getc_other k k2 v d : k2 <> k -> getc k2 (putc k v d) = getc k2 d.
Proof.
  intros H. induction d as [|[k' v'] d IH]; cbn; [destruct (k2 =? k) eqn:E; [apply Z.eqb_eq in E; congruence|reflexivity]|].
  destruct (k =? k') eqn:E; cbn.
  - apply Z.eqb_eq in E. subst k'. destruct (k2 =? k) eqn:E2; [apply Z.eqb_eq in E2; congruence|reflexivity].
  - destruct (k2 =? k'); [reflexivity|exact IH].
Qed.

Lemma tree_ind2 (Q : tree -> Prop) : (forall l, Q (TOp l)) -> (forall l, Forall (fun y => Q (snd y)) l -> Q (TSched l)) ->
  (forall n b, Q b -> Q (TLoop n b)) -> (forall b, Q b -> Q (TCond b)) -> forall x, Q x.
Proof.
  intros H1 H2 H3 H4. fix IH 1. intros [l|l|n b|b]; [apply H1| |apply H3, IH|apply H4, IH]. apply H2. induction l as [|[[a t] y] l IHl]; constructor; [apply IH|exact IHl].
Qed.

Definition istep (s : state) (o : occ) : result state := step (o_path o) (o_reps o) (o_num o) (o_info o) s.
Lemma foldM_app {A B} (f : B -> A -> result B) l1 : forall l2 b, foldM f (l1 ++ l2) b = do b1 <- foldM f l1 b; foldM f l2 b1.
Proof. induction l1 as [|x l1 IH]; intros l2 b; [reflexivity|]. cbn. destruct (f b x); cbn; [apply IH|reflexivity]. Qed.

(** a pass of the compiler is one loop over the selected acquisitions *)
Lemma do_infos_occs ex p reps l : forall n s, do_infos ex p reps n l s = foldM istep (filter (fun o => sel ex (o_info o)) (number n p reps l)) s.
Proof.
  induction l as [|a l IH]; intros n s; [reflexivity|]. cbn [do_infos number filter o_info]. destruct (sel ex a).
  - cbn [foldM istep o_path o_reps o_num o_info]. unfold istep at 1. cbn [o_path o_reps o_num o_info]. destruct (step p reps n a s); cbn [bind]; [apply IH|reflexivity].
  - cbn [bind]. apply IH.
Qed.
Lemma gen_occs ex : forall x p reps s, gen ex x p reps s = foldM istep (filter (fun o => sel ex (o_info o)) (occs x p reps)) s.
Proof.
  apply (tree_ind2 (fun x => forall p reps s, gen ex x p reps s = foldM istep (filter (fun o => sel ex (o_info o)) (occs x p reps)) s)).
  - intros l p reps s. apply do_infos_occs.
  - intros l Hl p reps s. cbn [gen occs].
    assert (E : forall L : list (Z * (Z * Z * tree)), (forall z, In z L -> In (snd z) l) ->
       run_all (map (fun z => (fst z, gen ex (snd (snd z)) (p ++ [Some (fst (fst (snd z)))]) reps)) L) s =
       foldM istep (filter (fun o => sel ex (o_info o)) (flat_map snd (map (fun z => (fst z, occs (snd (snd z)) (p ++ [Some (fst (fst (snd z)))]) reps)) L))) s).
    { intros L HL. revert s. rewrite Forall_forall in Hl. induction L as [|z L IH]; intros s; [reflexivity|]. cbn [map run_all flat_map snd]. rewrite filter_app, foldM_app.
      rewrite (Hl (snd z) (HL z (or_introl eq_refl))). destruct (foldM istep (filter _ (occs _ _ _)) s); cbn [bind]; [|reflexivity]. apply IH. intros w Hw. apply HL. right. exact Hw. }
    set (L := sorted_by fst (map (fun y => (snd (fst y), y)) l)).
    assert (E1 : sorted_by fst (map (fun y => (snd (fst y), gen ex (snd y) (p ++ [Some (fst (fst y))]) reps)) l) = map (fun z => (fst z, gen ex (snd (snd z)) (p ++ [Some (fst (fst (snd z)))]) reps)) L).
    { unfold L. rewrite <- (sorted_map fst (fun z : Z * (Z * Z * tree) => (fst z, gen ex (snd (snd z)) (p ++ [Some (fst (fst (snd z)))]) reps))). rewrite map_map. reflexivity. }
    assert (E2 : sorted_by fst (map (fun y => (snd (fst y), occs (snd y) (p ++ [Some (fst (fst y))]) reps)) l) = map (fun z => (fst z, occs (snd (snd z)) (p ++ [Some (fst (fst (snd z)))]) reps)) L).
    { unfold L. rewrite <- (sorted_map fst (fun z : Z * (Z * Z * tree) => (fst z, occs (snd (snd z)) (p ++ [Some (fst (fst (snd z)))]) reps))). rewrite map_map. reflexivity. }
    rewrite E1, E2. apply E. intros z Hz. unfold L in Hz. apply sorted_In, in_map_iff in Hz. destruct Hz as [y [<- Hy]]. exact Hy.
  - intros n b IH p reps s. apply IH.
  - intros b IH p reps s. apply IH.
Qed.

Definition explicit_first (x : tree) : list occ :=
  filter (fun o => sel true (o_info o)) (acquisitions x) ++ filter (fun o => sel false (o_info o)) (acquisitions x).
Lemma generate_fold x : generate_acq x = foldM istep (explicit_first x) state0.
Proof. unfold generate_acq, explicit_first. rewrite foldM_app, gen_occs. destruct (foldM _ _ state0); cbn [bind]; [apply gen_occs|reflexivity]. Qed.

Lemma perm_split {A} (f g : A -> bool) l : (forall a, g a = negb (f a)) -> Permutation (filter f l ++ filter g l) l.
Proof.
  intros H. induction l as [|a l IH]; [constructor|]. cbn. rewrite H. destruct (f a); cbn; [constructor; exact IH|].
  rewrite <- Permutation_middle. constructor. exact IH.
Qed.
Lemma explicit_first_perm x : Permutation (explicit_first x) (acquisitions x).
Proof. apply perm_split. intros o. unfold sel. destruct (i_index (o_info o)); reflexivity. Qed.

(** *** keys are unique *)
Lemma insert_perm {A} (key : A -> Z) x l : Permutation (insert key x l) (x :: l).
Proof. induction l as [|y l IH]; cbn; [constructor; constructor|]. destruct (key x <=? key y); [reflexivity|]. rewrite IH. constructor. Qed.
Lemma sorted_perm {A} (key : A -> Z) l : Permutation (sorted_by key l) l.
Proof. induction l as [|x l IH]; [constructor|]. change (sorted_by key (x :: l)) with (insert key x (sorted_by key l)). rewrite insert_perm. constructor. exact IH. Qed.
Lemma perm_flat_map {A B} (f : A -> list B) l l' : Permutation l l' -> Permutation (flat_map f l) (flat_map f l').
Proof.
  induction 1; cbn; [constructor|apply Permutation_app_head; assumption| |etransitivity; eassumption].
  rewrite !app_assoc. apply Permutation_app_tail, Permutation_app_comm.
Qed.
Lemma perm_filter {A} (f : A -> bool) l l' : Permutation l l' -> Permutation (filter f l) (filter f l').
Proof.
  induction 1; cbn; [constructor| | |etransitivity; eassumption]; try destruct (f x); try destruct (f y); auto; try constructor; auto. 
Qed.

Lemma number_keys p reps l : forall n, map o_key (number n p reps l) = map (fun j => (p, j)) (seq n (List.length l)).
Proof. induction l as [|a l IH]; intros n; [reflexivity|]. cbn. f_equal. apply IH. Qed.

Lemma NoDup_app2 {A} (l1 l2 : list A) : NoDup l1 -> NoDup l2 -> (forall a, In a l1 -> ~ In a l2) -> NoDup (l1 ++ l2).
Proof.
  induction 1 as [|a l1 Ha Hn IH]; intros H2 Hd; [exact H2|]. cbn. constructor.
  - rewrite in_app_iff. intros [H|H]; [auto|]. exact (Hd a (or_introl eq_refl) H).
  - apply IH; [exact H2|]. intros b Hb. apply Hd. right. exact Hb.
Qed.

Lemma occs_prefix : forall x p reps o, In o (occs x p reps) -> exists q, o_path o = p ++ q.
Proof.
  apply (tree_ind2 (fun x => forall p reps o, In o (occs x p reps) -> exists q, o_path o = p ++ q)).
  - intros l p reps o H. exists []. rewrite app_nil_r. cbn [occs] in H. revert H. generalize 0%nat. induction l as [|a l IH]; intros n H; [destruct H|]. destruct H as [<-|H]; [reflexivity|]. eapply IH; eauto.
  - intros l Hl p reps o H. cbn [occs] in H. apply in_flat_map in H. destruct H as [z [Hz Ho]]. apply sorted_In, in_map_iff in Hz. destruct Hz as [y [<- Hy]]. cbn [snd] in Ho.
    rewrite Forall_forall in Hl. destruct (Hl y Hy _ _ _ Ho) as [q ->]. exists (Some (fst (fst y)) :: q). rewrite <- app_assoc. reflexivity.
  - intros n b IH p reps o H. destruct (IH _ _ _ H) as [q ->]. exists (None :: q). rewrite <- app_assoc. reflexivity.
  - intros b IH p reps o H. destruct (IH _ _ _ H) as [q ->]. exists (None :: q). rewrite <- app_assoc. reflexivity.
Qed.
Lemma occs_nodup : forall x p reps, unique_labels x -> NoDup (map o_key (occs x p reps)).
Proof.
  apply (tree_ind2 (fun x => forall p reps, unique_labels x -> NoDup (map o_key (occs x p reps)))).
  - intros l p reps _. cbn [occs]. rewrite number_keys. apply FinFun.Injective_map_NoDup; [intros a b H; congruence|apply seq_NoDup].
  - intros l Hl p reps [HN HU]. cbn [occs].
    apply (Permutation_NoDup (l := map o_key (flat_map (fun y => occs (snd y) (p ++ [Some (fst (fst y))]) reps) l))).
    { apply Permutation_map. rewrite (perm_flat_map snd _ _ (sorted_perm fst _)). rewrite flat_map_concat_map, flat_map_concat_map, map_map. reflexivity. }
    induction l as [|y l IH]; [constructor|]. cbn [flat_map map]. rewrite map_app. inversion Hl as [|? ? Hy Hl']; subst. cbn [map] in HN. inversion HN as [|? ? Hn HN']; subst. destruct HU as [Hu HU].
    apply NoDup_app2; [apply Hy; exact Hu|apply IH; assumption|]. intros k Hk1 Hk2. apply in_map_iff in Hk1. destruct Hk1 as [o1 [<- Ho1]]. apply in_map_iff in Hk2. destruct Hk2 as [o2 [Hk Ho2]].
    apply in_flat_map in Ho2. destruct Ho2 as [z [Hz Ho2]]. apply occs_prefix in Ho1, Ho2. destruct Ho1 as [q1 E1]. destruct Ho2 as [q2 E2].
    unfold o_key in Hk. injection Hk as Hk _. rewrite E1, E2, <- !app_assoc in Hk. apply app_inv_head in Hk. injection Hk as Hk _. apply Hn. rewrite <- Hk. apply (in_map (fun y => fst (fst y))). exact Hz.
  - intros n b IH p reps H. apply IH. exact H.
  - intros b IH p reps H. apply IH. exact H.
Qed.

(** *** the invariant of the loop over the acquisitions *)
Definition new_coords (o : occ) : list coord :=
  if averaging o then [{| c_user := i_coords (o_info o); c_loop := None; c_legacy := None |}] else append_coords (o_reps o) (o_info o).
Definition on (c : Z) (l : list occ) : list occ := filter (fun o => o_chan o =? c) l.
Definition count (c : Z) (l : list occ) : nat := List.length (flat_map new_coords (on c l)).
Definition idx_of (base : nat) (o : occ) : acqidx :=
  if averaging o then One (Z.of_nat base) else Many (zseq (Z.of_nat base) (List.length (new_coords o))).
Definition like (d : chdata) (o : occ) : Prop := i_proto (o_info o) = d_proto d /\ i_mode (o_info o) = d_mode d.

Record Inv (dn : list occ) (s : state) : Prop := {
  I_none : forall c, getc c (chans s) = None -> on c dn = [];
  I_some : forall c d, getc c (chans s) = Some d -> exists o r, on c dn = o :: r /\ Forall (like d) (on c dn) /\
     (if binned o then d_coords d = CList (flat_map new_coords (on c dn)) else exists u, d_coords d = COne u);
  I_lab : forall pre o post, dn = pre ++ o :: post -> binned o = true -> getk (o_key o) (labels s) = Some (idx_of (count (o_chan o) pre) o);
  I_expl : forall pre o post i, dn = pre ++ o :: post -> averaging o = true -> i_index (o_info o) = Some i -> i = Z.of_nat (count (o_chan o) pre);
  I_trace : forall o, In o dn -> i_proto (o_info o) = Trace -> on (o_chan o) dn = [o]
}.

Lemma on_app c l1 l2 : on c (l1 ++ l2) = on c l1 ++ on c l2. Proof. apply filter_app. Qed.
Lemma on_one_same o : on (o_chan o) [o] = [o]. Proof. unfold on. cbn. rewrite Z.eqb_refl. reflexivity. Qed.
Lemma on_one_other c o : c <> o_chan o -> on c [o] = []. Proof. intros H. unfold on. cbn. destruct (o_chan o =? c) eqn:E; [apply Z.eqb_eq in E; congruence|reflexivity]. Qed.
Lemma like_binned d o o' : like d o -> like d o' -> binned o = binned o' /\ averaging o = averaging o'.
Proof. intros [A B] [A' B']. unfold binned, averaging, appending. rewrite A, B, A', B'. auto. Qed.

Lemma split_last {A} (dn pre : list A) o x post : dn ++ [x] = pre ++ o :: post -> (post = [] /\ dn = pre /\ o = x) \/ (exists p', post = p' ++ [x] /\ dn = pre ++ o :: p').
Proof.
  intros H. destruct (exists_last (l := o :: post)) as [l' [y Hy]]; [discriminate|]. rewrite Hy, app_assoc in H. apply app_inj_tail in H. destruct H as [H1 <-].
  destruct l' as [|z l']; cbn in Hy; injection Hy as -> Hy.
  - left. rewrite app_nil_r in H1. auto.
  - right. exists l'. auto.
Qed.

Lemma step_inv dn s o s' : Inv dn s -> istep s o = Ok s' -> NoDup (map o_key (dn ++ [o])) -> Inv (dn ++ [o]) s'.
Proof.
  intros HI H Hnd. unfold istep, step in H. fold (o_chan o) in H.
  set (chk := match getc (o_chan o) (chans s) with Some d => _ | None => Ok tt end) in H.
  assert (Hlike : forall d, getc (o_chan o) (chans s) = Some d -> chk = Ok tt -> like d o).
  { intros d Hd Hc. unfold chk in Hc. rewrite Hd in Hc. destruct (proto_eq_dec _ _); [|discriminate]. destruct (bmode_eq_dec _ _); [|discriminate]. split; auto. }
  destruct chk as [[]|] eqn:Echk; [|discriminate]. cbn [bind] in H. specialize (fun d Hd => Hlike d Hd eq_refl). clear chk Echk.
  fold (averaging o) in H. fold (appending o) in H.
  (* the binned cases *)
  assert (HB : forall l, binned o = true -> (match getc (o_chan o) (chans s) with Some d => d_coords d | None => CList [] end) = CList l ->
     (averaging o = true -> forall i, i_index (o_info o) = Some i -> i = Z.of_nat (List.length l)) ->
     s' = {| chans := putc (o_chan o) {| d_proto := i_proto (o_info o); d_mode := i_mode (o_info o); d_coords := CList (l ++ new_coords o) |} (chans s);
             labels := putk (o_key o) (idx_of (List.length l) o) (labels s) |} -> Inv (dn ++ [o]) s').
  { intros l Hb Hl He ->.
    assert (Hl' : l = flat_map new_coords (on (o_chan o) dn)).
    { destruct (getc (o_chan o) (chans s)) as [d|] eqn:Ed.
      - destruct (I_some _ _ HI _ _ Ed) as [o0 [r [E0 [F0 C0]]]]. rewrite E0 in F0. inversion F0 as [|? ? L0 _]; subst.
        rewrite (proj1 (like_binned _ _ _ L0 (Hlike _ eq_refl))), Hb in C0. congruence.
      - rewrite (I_none _ _ HI _ Ed). injection Hl as <-. reflexivity. }
    assert (HC : count (o_chan o) dn = List.length l) by (unfold count; rewrite <- Hl'; reflexivity).
    assert (Hfresh : forall o', In o' dn -> o_key o' <> o_key o).
    { intros o' Hin Heq. rewrite map_app in Hnd. apply NoDup_remove_2 in Hnd. apply Hnd. rewrite app_nil_r, <- Heq. apply in_map. exact Hin. }
    split; cbn [chans labels].
    - intros c Hc. destruct (Z.eq_dec c (o_chan o)) as [->|Hne]; [rewrite getc_same in Hc; discriminate|]. rewrite getc_other in Hc by exact Hne.
      rewrite on_app, (on_one_other _ _ Hne), (I_none _ _ HI _ Hc). reflexivity.
    - intros c d Hc. destruct (Z.eq_dec c (o_chan o)) as [->|Hne].
      + rewrite getc_same in Hc. injection Hc as <-. rewrite on_app, on_one_same.
        assert (HF : Forall (like {| d_proto := i_proto (o_info o); d_mode := i_mode (o_info o); d_coords := CList (l ++ new_coords o) |}) (on (o_chan o) dn)).
        { destruct (getc (o_chan o) (chans s)) as [d|] eqn:Ed; [|rewrite (I_none _ _ HI _ Ed); constructor].
          destruct (I_some _ _ HI _ _ Ed) as [o0 [r [E0 [F0 C0]]]]. eapply Forall_impl; [|exact F0]. intros o' [A B]. destruct (Hlike _ eq_refl) as [A' B']. split; cbn; congruence. }
        destruct (on (o_chan o) dn ++ [o]) as [|o0 r] eqn:E0; [apply app_eq_nil in E0; destruct E0; discriminate|]. exists o0, r. split; [reflexivity|]. rewrite <- E0.
        assert (HF2 : Forall (like {| d_proto := i_proto (o_info o); d_mode := i_mode (o_info o); d_coords := CList (l ++ new_coords o) |}) (on (o_chan o) dn ++ [o])).
        { apply Forall_app. split; [exact HF|]. constructor; [split; reflexivity|constructor]. }
        split; [exact HF2|]. rewrite E0 in HF2. inversion HF2 as [|? ? L0 _]; subst.
        rewrite (proj1 (like_binned _ _ o L0 (conj eq_refl eq_refl))), Hb. cbn [d_coords]. rewrite flat_map_app. cbn [flat_map]. rewrite app_nil_r. reflexivity.
      + rewrite getc_other in Hc by exact Hne. rewrite on_app, (on_one_other _ _ Hne), app_nil_r. apply (I_some _ _ HI _ _ Hc).
    - intros pre o' post Hs Hb'. destruct (split_last _ _ _ _ _ Hs) as [[-> [<- ->]]|[p' [-> ->]]].
      + rewrite getk_same, HC. reflexivity.
      + rewrite getk_other by (apply Hfresh; apply in_app_iff; right; left; reflexivity). apply (I_lab _ _ HI pre o' p' eq_refl Hb').
    - intros pre o' post i Hs Ha Hi. destruct (split_last _ _ _ _ _ Hs) as [[-> [<- ->]]|[p' [-> ->]]].
      + rewrite HC. apply He; assumption.
      + apply (I_expl _ _ HI pre o' p' i eq_refl Ha Hi).
    - intros o' Hin Ht. apply in_app_iff in Hin. destruct Hin as [Hin|[<-|[]]].
      + rewrite on_app, (I_trace _ _ HI _ Hin Ht). destruct (Z.eq_dec (o_chan o') (o_chan o)) as [He2|Hne]; [exfalso|rewrite (on_one_other _ _ Hne); reflexivity].
        destruct (getc (o_chan o) (chans s)) as [d|] eqn:Ed.
        * destruct (I_some _ _ HI _ _ Ed) as [o0 [r [E0 [F0 C0]]]]. rewrite <- He2, (I_trace _ _ HI _ Hin Ht) in F0. inversion F0 as [|? ? [L0 _] _]; subst.
          destruct (Hlike _ eq_refl) as [L1 _]. unfold binned, averaging, appending in Hb. rewrite L1, <- L0, Ht in Hb. discriminate.
        * assert (on (o_chan o') dn = []) by (rewrite He2; apply (I_none _ _ HI _ Ed)). rewrite (I_trace _ _ HI _ Hin Ht) in H0. discriminate.
      + unfold binned, averaging, appending in Hb. rewrite Ht in Hb. discriminate. }
  (* the other protocols *)
  assert (HO : binned o = false -> s' = {| chans := putc (o_chan o) {| d_proto := i_proto (o_info o); d_mode := i_mode (o_info o); d_coords := COne (i_coords (o_info o)) |} (chans s); labels := labels s |} ->
     (i_proto (o_info o) = Trace -> getc (o_chan o) (chans s) = None) -> Inv (dn ++ [o]) s').
  { intros Hb -> Htr. split; cbn [chans labels].
    - intros c Hc. destruct (Z.eq_dec c (o_chan o)) as [->|Hne]; [rewrite getc_same in Hc; discriminate|]. rewrite getc_other in Hc by exact Hne.
      rewrite on_app, (on_one_other _ _ Hne), (I_none _ _ HI _ Hc). reflexivity.
    - intros c d Hc. destruct (Z.eq_dec c (o_chan o)) as [->|Hne].
      + rewrite getc_same in Hc. injection Hc as <-. rewrite on_app, on_one_same.
        assert (HF2 : Forall (like {| d_proto := i_proto (o_info o); d_mode := i_mode (o_info o); d_coords := COne (i_coords (o_info o)) |}) (on (o_chan o) dn ++ [o])).
        { apply Forall_app. split; [|constructor; [split; reflexivity|constructor]].
          destruct (getc (o_chan o) (chans s)) as [d|] eqn:Ed; [|rewrite (I_none _ _ HI _ Ed); constructor].
          destruct (I_some _ _ HI _ _ Ed) as [o0 [r [E0 [F0 C0]]]]. eapply Forall_impl; [|exact F0]. intros o' [A B]. destruct (Hlike _ eq_refl) as [A' B']. split; cbn; congruence. }
        destruct (on (o_chan o) dn ++ [o]) as [|o0 r] eqn:E0; [apply app_eq_nil in E0; destruct E0; discriminate|]. exists o0, r. split; [reflexivity|]. split; [exact HF2|].
        inversion HF2 as [|? ? L0 _]; subst. rewrite (proj1 (like_binned _ _ o L0 (conj eq_refl eq_refl))), Hb. eexists. reflexivity.
      + rewrite getc_other in Hc by exact Hne. rewrite on_app, (on_one_other _ _ Hne), app_nil_r. apply (I_some _ _ HI _ _ Hc).
    - intros pre o' post Hs Hb'. destruct (split_last _ _ _ _ _ Hs) as [[-> [<- ->]]|[p' [-> ->]]]; [congruence|]. apply (I_lab _ _ HI pre o' p' eq_refl Hb').
    - intros pre o' post i Hs Ha Hi. destruct (split_last _ _ _ _ _ Hs) as [[-> [<- ->]]|[p' [-> ->]]]; [unfold binned in Hb; rewrite Ha in Hb; discriminate|]. apply (I_expl _ _ HI pre o' p' i eq_refl Ha Hi).
    - intros o' Hin Ht. apply in_app_iff in Hin. destruct Hin as [Hin|[<-|[]]].
      + rewrite on_app, (I_trace _ _ HI _ Hin Ht). destruct (Z.eq_dec (o_chan o') (o_chan o)) as [He2|Hne]; [exfalso|rewrite (on_one_other _ _ Hne); reflexivity].
        destruct (getc (o_chan o) (chans s)) as [d|] eqn:Ed.
        * destruct (I_some _ _ HI _ _ Ed) as [o0 [r [E0 [F0 C0]]]]. rewrite <- He2, (I_trace _ _ HI _ Hin Ht) in F0. inversion F0 as [|? ? [L0 _] _]; subst.
          destruct (Hlike _ eq_refl) as [L1 _]. specialize (Htr ltac:(congruence)). discriminate.
        * assert (H0 : on (o_chan o') dn = []) by (rewrite He2; apply (I_none _ _ HI _ Ed)). rewrite (I_trace _ _ HI _ Hin Ht) in H0. discriminate.
      + rewrite on_app, on_one_same, (I_none _ _ HI _ (Htr Ht)). reflexivity. }
  destruct (averaging o) eqn:Ea.
  - destruct (match getc (o_chan o) (chans s) with Some d => d_coords d | None => CList [] end) as [l|] eqn:El; [|discriminate].
    destruct (match i_index (o_info o) with Some i => negb (i =? Z.of_nat (List.length l)) | None => false end) eqn:Ei; [discriminate|]. injection H as <-.
    apply (HB l); [unfold binned; rewrite Ea; reflexivity|reflexivity| |].
    + intros _ i Hi. rewrite Hi in Ei. apply negb_false_iff, Z.eqb_eq in Ei. exact Ei.
    + unfold new_coords, idx_of. rewrite Ea. reflexivity.
  - destruct (appending o) eqn:Ep.
    + destruct (match getc (o_chan o) (chans s) with Some d => d_coords d | None => CList [] end) as [l|] eqn:El; [|discriminate]. injection H as <-.
      apply (HB l); [unfold binned; rewrite Ep; apply orb_true_r|reflexivity|discriminate|]. unfold idx_of, new_coords. rewrite Ea. reflexivity.
    + assert (Hb : binned o = false) by (unfold binned; rewrite Ea, Ep; reflexivity).
      destruct (i_proto (o_info o)) eqn:Epr; try discriminate; destruct (i_mode (o_info o)) eqn:Emo; try discriminate.
      * injection H as <-. apply HO; [exact Hb|reflexivity|discriminate].
      * destruct (getc (o_chan o) (chans s)) eqn:Eg; [discriminate|]. injection H as <-. apply HO; [exact Hb|reflexivity|auto].
      * destruct (getc (o_chan o) (chans s)) eqn:Eg; [discriminate|]. injection H as <-. apply HO; [exact Hb|reflexivity|auto].
Qed.

Lemma fold_inv l : forall dn s s', Inv dn s -> foldM istep l s = Ok s' -> NoDup (map o_key (dn ++ l)) -> Inv (dn ++ l) s'.
Proof.
  induction l as [|o l IH]; intros dn s s' HI H Hn; [injection H as <-; rewrite app_nil_r; exact HI|]. cbn [foldM] in H. destruct (istep s o) as [s1|] eqn:E; [|discriminate]. cbn [bind] in H.
  change (o :: l) with ([o] ++ l) in *. rewrite app_assoc in *. apply (IH (dn ++ [o]) s1 s'); auto. eapply step_inv; eauto.
  rewrite map_app in Hn. clear -Hn. induction (map o_key (dn ++ [o])) as [|k r IHr]; [constructor|]. cbn in Hn. inversion Hn; subst. constructor; [intros Hin; apply H1; apply in_app_iff; auto|auto].
Qed.
Lemma Inv0 : Inv [] state0.
Proof.
  split; cbn; intros; try reflexivity; try discriminate; try (destruct pre; discriminate). destruct H.
Qed.

Lemma generate_inv x s : unique_labels x -> generate_acq x = Ok s -> Inv (explicit_first x) s.
Proof.
  intros HU H. rewrite generate_fold in H. apply (fold_inv _ [] _ _ Inv0 H). cbn [app]. eapply Permutation_NoDup; [apply Permutation_map; symmetry; apply explicit_first_perm|]. apply occs_nodup. exact HU.
Qed.

Lemma zseq_length a n : List.length (zseq a n) = n. Proof. unfold zseq. rewrite map_length, seq_length. reflexivity. Qed.
Lemma zseq_nth a n j : (j < n)%nat -> nth_error (zseq a n) j = Some (a + Z.of_nat j).
Proof. intros H. unfold zseq. rewrite nth_error_map, (nth_error_nth' _ 0%nat) by (rewrite seq_length; exact H). rewrite seq_nth by exact H. reflexivity. Qed.
Lemma new_coords_length o : List.length (new_coords o) = executions o.
Proof.
  unfold new_coords, executions. destruct (averaging o); [reflexivity|]. unfold append_coords. destruct (o_reps o) as [|n r]; [reflexivity|]. rewrite map_length, zseq_length. reflexivity.
Qed.
Lemma new_coords_nth o j : (j < executions o)%nat -> nth_error (new_coords o) j = Some (expected_coord o j).
Proof.
  intros H. unfold new_coords, executions, expected_coord in *. destruct (averaging o).
  - destruct j as [|j]; [reflexivity|lia].
  - unfold append_coords. destruct (o_reps o) as [|n r]; [cbn in H; destruct j as [|j]; [reflexivity|lia]|]. rewrite nth_error_map, zseq_nth by exact H. reflexivity.
Qed.
Lemma idx_of_indices base o : indices (idx_of base o) = zseq (Z.of_nat base) (executions o).
Proof.
  unfold idx_of. destruct (averaging o) eqn:E; [|cbn; rewrite new_coords_length; reflexivity]. unfold executions. rewrite E. cbn. rewrite Z.add_0_r. reflexivity.
Qed.
Lemma zseq_app a m n : zseq a m ++ zseq (a + Z.of_nat m) n = zseq a (m + n).
Proof.
  unfold zseq. rewrite seq_app, map_app. f_equal.
  assert (H : forall k, map (fun j => a + Z.of_nat m + Z.of_nat j) (seq k n) = map (fun j => a + Z.of_nat j) (seq (m + k) n)).
  { induction n as [|n IH]; intros k; [reflexivity|]. cbn [seq map]. f_equal; [lia|]. rewrite IH. f_equal. f_equal. lia. }
  rewrite (H 0%nat). f_equal. f_equal. lia.
Qed.

(** Listed channel by channel, explicitly indexed acquisitions first and then by time, the assigned indices count 0, 1, 2, ... *)
Lemma assigned_in_order s c : forall l, Inv l s -> (forall o, In o (on c l) -> binned o = true) ->
  flat_map (assigned s) (on c l) = zseq 0 (count c l).
Proof.
  intros l HI Hb.
  assert (G : forall post pre, l = pre ++ post -> flat_map (assigned s) (on c post) = zseq (Z.of_nat (count c pre)) (List.length (flat_map new_coords (on c post)))).
  { induction post as [|o post IH]; intros pre Hs; [reflexivity|]. unfold on. cbn [filter]. fold (on c post).
    specialize (IH (pre ++ [o]) ltac:(rewrite <- app_assoc; exact Hs)). unfold count in IH at 1. rewrite on_app in IH. change (on c [o]) with (if o_chan o =? c then [o] else []) in IH.
    destruct (o_chan o =? c) eqn:E.
    - apply Z.eqb_eq in E. cbn [flat_map]. rewrite IH. unfold assigned.
      assert (Hin : In o (on c l)) by (unfold on; rewrite Hs, filter_app; apply in_app_iff; right; cbn [filter]; rewrite (proj2 (Z.eqb_eq _ _) E); left; reflexivity).
      rewrite (I_lab _ _ HI _ _ _ Hs (Hb o Hin)), idx_of_indices, E. rewrite flat_map_app, !app_length. cbn [flat_map List.length]. fold (count c pre).
      rewrite app_length, Nat.add_0_r, new_coords_length, Nat2Z.inj_add. apply zseq_app.
    - rewrite app_nil_r in IH. exact IH. }
  apply (G l []). reflexivity.
Qed.

(** ** C23 *)
Theorem C23_acquisition_indices : forall x s, unique_labels x -> generate_acq x = Ok s ->
  (* one protocol and bin mode per channel *)
  (forall o o', In o (acquisitions x) -> In o' (acquisitions x) -> o_chan o = o_chan o' ->
     i_proto (o_info o) = i_proto (o_info o') /\ i_mode (o_info o) = i_mode (o_info o')) /\
  (* every binned acquisition gets one index per execution, with its own coordinates *)
  (forall o, In o (acquisitions x) -> binned o = true ->
     List.length (assigned s o) = executions o /\
     exists d l, getc (o_chan o) (chans s) = Some d /\ d_coords d = CList l /\
     forall j, (j < executions o)%nat -> exists i, nth_error (assigned s o) j = Some (Z.of_nat i) /\ nth_error l i = Some (expected_coord o j)) /\
  (* per channel the assigned indices are 0..n-1, each exactly once, n being the number of coordinates of the channel *)
  (forall c d l, getc c (chans s) = Some d -> d_coords d = CList l ->
     Permutation (flat_map (assigned s) (on c (acquisitions x))) (zseq 0 (List.length l))) /\
  (* explicit indices are honoured in average mode *)
  (forall o i, In o (acquisitions x) -> averaging o = true -> i_index (o_info o) = Some i -> assigned s o = [i]) /\
  (* a trace is the only acquisition of its channel *)
  (forall o, In o (acquisitions x) -> i_proto (o_info o) = Trace -> on (o_chan o) (acquisitions x) = [o]).
Proof.
  intros x s HU H. pose proof (generate_inv x s HU H) as HI. pose proof (explicit_first_perm x) as HP.
  assert (Hin : forall o, In o (acquisitions x) -> In o (explicit_first x)) by (intros o Ho; eapply Permutation_in; [symmetry; exact HP|exact Ho]).
  assert (Hdata : forall o, In o (acquisitions x) -> exists d o0 r, getc (o_chan o) (chans s) = Some d /\ on (o_chan o) (explicit_first x) = o0 :: r /\ Forall (like d) (on (o_chan o) (explicit_first x)) /\
     (if binned o0 then d_coords d = CList (flat_map new_coords (on (o_chan o) (explicit_first x))) else exists u, d_coords d = COne u)).
  { intros o Ho. assert (Hon : In o (on (o_chan o) (explicit_first x))) by (apply filter_In; split; [auto|apply Z.eqb_refl]).
    destruct (getc (o_chan o) (chans s)) as [d|] eqn:Ed.
    - destruct (I_some _ _ HI _ _ Ed) as [o0 [r [A [B C]]]]. exists d, o0, r. auto.
    - rewrite (I_none _ _ HI _ Ed) in Hon. destruct Hon. }
  assert (Hlike : forall o d, In o (acquisitions x) -> getc (o_chan o) (chans s) = Some d -> like d o).
  { intros o d Ho Hd. destruct (Hdata o Ho) as [d' [o0 [r [A [B [C _]]]]]]. assert (d' = d) by congruence. subst d'. rewrite Forall_forall in C. apply C. apply filter_In; split; [auto|apply Z.eqb_refl]. }
  split; [|split; [|split; [|split]]].
  - intros o o' Ho Ho' Hc. destruct (Hdata o Ho) as [d [_ [_ [Hd _]]]]. destruct (Hlike o d Ho Hd) as [A B]. rewrite Hc in Hd. destruct (Hlike o' d Ho' Hd) as [A' B']. split; congruence.
  - intros o Ho Hb. destruct (Hdata o Ho) as [d [o0 [r [Hd [E0 [F0 C0]]]]]]. destruct (in_split _ _ (Hin o Ho)) as [pre [post Hs]].
    assert (Ha : assigned s o = zseq (Z.of_nat (count (o_chan o) pre)) (executions o)) by (unfold assigned; rewrite (I_lab _ _ HI _ _ _ Hs Hb); apply idx_of_indices).
    rewrite Ha. split; [apply zseq_length|]. rewrite E0 in F0. inversion F0 as [|? ? L0 _]; subst. rewrite (proj1 (like_binned _ _ o L0 (Hlike o d Ho Hd))), Hb in C0.
    exists d. eexists. split; [exact Hd|]. split; [exact C0|]. intros j Hj. exists (count (o_chan o) pre + j)%nat. split; [rewrite zseq_nth by exact Hj; f_equal; lia|].
    rewrite Hs, on_app, flat_map_app. rewrite nth_error_app2 by (unfold count; lia). unfold count. replace (_ + j - _)%nat with j by lia.
    unfold on. cbn [filter]. rewrite Z.eqb_refl. cbn [flat_map]. rewrite nth_error_app1 by (rewrite new_coords_length; exact Hj). apply new_coords_nth. exact Hj.
  - intros c d l Hd Hl. destruct (I_some _ _ HI _ _ Hd) as [o0 [r [E0 [F0 C0]]]].
    assert (Hb0 : binned o0 = true) by (destruct (binned o0); [reflexivity|destruct C0 as [u C0]; congruence]). rewrite Hb0 in C0.
    assert (HL : List.length l = count c (explicit_first x)) by (unfold count; congruence). rewrite HL.
    transitivity (flat_map (assigned s) (on c (explicit_first x))); [apply perm_flat_map, perm_filter; symmetry; exact HP|].
    rewrite (assigned_in_order s c _ HI); [reflexivity|]. intros o Ho. rewrite E0 in F0. inversion F0 as [|? ? L0 _]; subst.
    rewrite <- E0 in F0. rewrite Forall_forall in F0. rewrite (proj1 (like_binned _ _ o0 (F0 o Ho) L0)). exact Hb0.
  - intros o i Ho Ha Hi. destruct (in_split _ _ (Hin o Ho)) as [pre [post Hs]]. unfold assigned. rewrite (I_lab _ _ HI _ _ _ Hs); [|unfold binned; rewrite Ha; reflexivity].
    rewrite (I_expl _ _ HI _ _ _ _ Hs Ha Hi). unfold idx_of. rewrite Ha. reflexivity.
  - intros o Ho Ht. apply Permutation_length_1_inv. rewrite <- (I_trace _ _ HI o (Hin o Ho) Ht). apply perm_filter. exact HP.
Qed.

(** no two executions of a channel share an index *)
Theorem C23_no_index_shared : forall x s c d l, unique_labels x -> generate_acq x = Ok s -> getc c (chans s) = Some d -> d_coords d = CList l ->
  NoDup (flat_map (assigned s) (on c (acquisitions x))).
Proof.
  intros x s c d l HU H Hd Hl. destruct (C23_acquisition_indices x s HU H) as [_ [_ [HP _]]]. eapply Permutation_NoDup; [symmetry; apply (HP c d l Hd Hl)|].
  unfold zseq. apply FinFun.Injective_map_NoDup; [intros a b Hab; lia|apply seq_NoDup].
Qed.

Lemma filter_all {A} (f : A -> bool) l : (forall a, In a l -> f a = true) -> filter f l = l.
Proof. induction l as [|a l IH]; intros H; [reflexivity|]. cbn. rewrite (H a (or_introl eq_refl)), IH; [reflexivity|]. intros b Hb. apply H. right. exact Hb. Qed.
Lemma filter_none {A} (f : A -> bool) l : (forall a, In a l -> f a = false) -> filter f l = [].
Proof. induction l as [|a l IH]; intros H; [reflexivity|]. cbn. rewrite (H a (or_introl eq_refl)), IH; [reflexivity|]. intros b Hb. apply H. right. exact Hb. Qed.

(** Without explicit indices, the indices of a channel increase with time. *)
Theorem C23_indices_in_time_order : forall x s c d l, unique_labels x -> generate_acq x = Ok s -> getc c (chans s) = Some d -> d_coords d = CList l ->
  (forall o, In o (acquisitions x) -> i_index (o_info o) = None) ->
  flat_map (assigned s) (on c (acquisitions x)) = zseq 0 (List.length l).
Proof.
  intros x s c d l HU H Hd Hl Hno. pose proof (generate_inv x s HU H) as HI.
  assert (HE : explicit_first x = acquisitions x).
  { unfold explicit_first. rewrite filter_none, filter_all; [reflexivity| |]; intros o Ho; unfold sel; rewrite (Hno o Ho); reflexivity. }
  rewrite HE in HI. destruct (I_some _ _ HI _ _ Hd) as [o0 [r [E0 [F0 C0]]]].
  assert (Hb0 : binned o0 = true) by (destruct (binned o0); [reflexivity|destruct C0 as [u C0]; congruence]). rewrite Hb0 in C0.
  assert (HL : List.length l = count c (acquisitions x)) by (unfold count; congruence). rewrite HL. apply assigned_in_order; [exact HI|].
  intros o Ho. rewrite E0 in F0. inversion F0 as [|? ? L0 _]; subst. rewrite <- E0 in F0. rewrite Forall_forall in F0. rewrite (proj1 (like_binned _ _ o0 (F0 o Ho) L0)). exact Hb0.
Qed.

(** the only exception is ValueError *)
Lemma step_error dn s o e : Inv dn s -> istep s o = Err e -> e = ValueError.
Proof.
  intros HI H. unfold istep, step in H. fold (o_chan o) in H.
  set (chk := match getc (o_chan o) (chans s) with Some d => _ | None => Ok tt end) in H.
  assert (HC : chk = Err ValueError \/ (chk = Ok tt /\ forall d, getc (o_chan o) (chans s) = Some d -> like d o)).
  { unfold chk. destruct (getc (o_chan o) (chans s)) as [d|]; [|right; split; [reflexivity|discriminate]]. destruct (proto_eq_dec _ _); [|auto]. destruct (bmode_eq_dec _ _); [|auto]. right. split; [reflexivity|]. intros d' Hd. injection Hd as <-. split; auto. }
  destruct HC as [->|[-> Hlike]]; [cbn in H; congruence|]. cbn [bind] in H. fold (averaging o) in H. fold (appending o) in H.
  assert (Hlist : binned o = true -> exists l, (match getc (o_chan o) (chans s) with Some d => d_coords d | None => CList [] end) = CList l).
  { intros Hb. destruct (getc (o_chan o) (chans s)) as [d|] eqn:Ed; [|eauto]. destruct (I_some _ _ HI _ _ Ed) as [o0 [r [E0 [F0 C0]]]]. rewrite E0 in F0. inversion F0 as [|? ? L0 _]; subst.
    rewrite (proj1 (like_binned _ _ o L0 (Hlike d eq_refl))), Hb in C0. eauto. }
  destruct (averaging o) eqn:Ea.
  - destruct Hlist as [l Hl]; [unfold binned; rewrite Ea; reflexivity|]. rewrite Hl in H. destruct (match i_index (o_info o) with Some i => _ | None => false end); congruence.
  - destruct (appending o) eqn:Ep.
    + destruct Hlist as [l Hl]; [unfold binned; rewrite Ep; apply orb_true_r|]. rewrite Hl in H. discriminate.
    + destruct (i_proto (o_info o)), (i_mode (o_info o)); try congruence; destruct (getc (o_chan o) (chans s)); congruence.
Qed.
Lemma fold_error l : forall dn s e, Inv dn s -> NoDup (map o_key (dn ++ l)) -> foldM istep l s = Err e -> e = ValueError.
Proof.
  induction l as [|o l IH]; intros dn s e HI Hn H; [discriminate|]. cbn [foldM] in H. destruct (istep s o) as [s1|e1] eqn:E; cbn [bind] in H.
  - change (o :: l) with ([o] ++ l) in Hn. rewrite app_assoc in Hn. eapply (IH (dn ++ [o]) s1 e); [|exact Hn|exact H]. eapply step_inv; eauto.
    rewrite map_app in Hn. clear -Hn. induction (map o_key (dn ++ [o])) as [|k r IHr]; [constructor|]. cbn in Hn. inversion Hn; subst. constructor; [intros Hin; apply H1; apply in_app_iff; auto|auto].
  - injection H as <-. eapply step_error; eauto.
Qed.
Theorem C23_mixed_channel_rejected : forall x o o', unique_labels x -> In o (acquisitions x) -> In o' (acquisitions x) -> o_chan o = o_chan o' ->
  i_proto (o_info o) <> i_proto (o_info o') \/ i_mode (o_info o) <> i_mode (o_info o') ->
  generate_acq x = Err ValueError.
Proof.
  intros x o o' HU Ho Ho' Hc Hd. destruct (generate_acq x) as [s|e] eqn:E.
  - exfalso. destruct (C23_acquisition_indices x s HU E) as [HM _]. destruct (HM o o' Ho Ho' Hc). destruct Hd; congruence.
  - f_equal. rewrite generate_fold in E. apply (fold_error _ [] _ _ Inv0) in E; [exact E|]. cbn [app]. eapply Permutation_NoDup; [apply Permutation_map; symmetry; apply explicit_first_perm|]. apply occs_nodup. exact HU.
Qed.

(** In append mode an explicit index is not honoured. *)
Definition ssb (c : Z) (m : bmode) (i : option Z) : info := {| i_chan := c; i_proto := SSBIntegrationComplex; i_mode := m; i_index := i; i_coords := 0 |}.
Theorem C23_explicit_append_refuted : exists x s o, unique_labels x /\ generate_acq x = Ok s /\ In o (acquisitions x) /\
  i_index (o_info o) = Some 1 /\ assigned s o = [0].
Proof.
  exists (TSched [(1, 0, TOp [ssb 0 APPEND (Some 1)]); (2, 10, TOp [ssb 0 APPEND (Some 0)])]). eexists. eexists. split; [|split; [vm_compute; reflexivity|split; [left; reflexivity|split; reflexivity]]].
  cbn. repeat split. repeat constructor; cbn; intuition lia.
Qed.

(** a schedule with a loop of 2 x 3 append-mode acquisitions, one outside, an averaging channel with an explicit index out of time order, and a trace *)
Example C23_example :
  let x := TSched [(1, 500, TOp [ssb 0 APPEND None]); (2, 0, TLoop 2 (TSched [(1, 0, TLoop 3 (TOp [ssb 0 APPEND None]))]));
                   (3, 600, TOp [ssb 1 AVERAGE None]); (4, 700, TOp [ssb 1 AVERAGE (Some 0)]);
                   (5, 900, TOp [{| i_chan := 2; i_proto := Trace; i_mode := AVERAGE; i_index := None; i_coords := 0 |}])] in
  unique_labels x /\ exists s, generate_acq x = Ok s /\
  map (assigned s) (acquisitions x) = [[0; 1; 2; 3; 4; 5]; [6]; [1]; [0]; []].
Proof.
  cbv zeta. split; [|eexists; split; [vm_compute; reflexivity|vm_compute; reflexivity]].
  cbn. repeat split; repeat constructor; cbn; intuition lia.
Qed.
