(** C73: time references of time tags, and the trigger input of a cluster. *)
From Verif Require Import Base PathModel TrefModel.
From Coq Require Import Ascii.
Local Open Scope string_scope.
Local Open Scope list_scope.
Local Open Scope Z_scope.

(** ** Specification *)
(** an acquisition with a time reference of the kind PORT *)
Definition by_port (o : op) : Prop := o_acq o = true /\ o_ref o = Some RPort.
(** the operations of the module use port [r] with the port-clock combination [n] *)
Definition uses (l : ops) (r : string) (n : string) : Prop := exists port clock, In (port, clock) (map fst l) /\ port = r /\ n = String.append port (String.append "-" clock).
(** the same channels of the same module of the same cluster *)
Definition same_channel (p q : path) : Prop :=
  p_cl p = p_cl q /\ p_mod p = p_mod q /\ p_ch p = p_ch q /\ p_idx p = p_idx q /\
  match p_meas p, p_meas q with None, None => True | Some a, Some b => forall x, In x a <-> In x b | _, _ => False end.
(** port [r] is connected to exactly one channel of the module, with index [i] *)
Definition one_channel (l : ops) (paths : list (string * path)) (r : string) (i : Z) : Prop :=
  exists n p, uses l r n /\ find_path n paths = Some p /\ channel_idx p = Ok i /\
  forall n' p', uses l r n' -> find_path n' paths = Some p' -> same_channel p p'.
Definition with_ref (o : op) (i : Z) : op := {| o_id := o_id o; o_acq := o_acq o; o_ref := o_ref o; o_refport := o_refport o; o_refch := Some i |}.
(** what becomes of one operation *)
Definition referenced (l : ops) (paths : list (string * path)) (o o' : op) : Prop :=
  (by_port o /\ exists r i, o_refport o = Some r /\ one_channel l paths r i /\ o' = with_ref o i) \/ (~ by_port o /\ o' = o).

Lemma memb_In x l : memb x l = true <-> In x l.
Proof. unfold memb. rewrite existsb_exists. split; [intros [y [H E]]; apply String.eqb_eq in E; subst; exact H|intros H; exists x; split; [exact H|apply String.eqb_refl]]. Qed.
Lemma same_set_iff a b : same_set a b = true <-> match a, b with None, None => True | Some a, Some b => forall x, In x a <-> In x b | _, _ => False end.
Proof.
  destruct a as [a|], b as [b|]; cbn; [|split; [discriminate|tauto]|split; [discriminate|tauto]|tauto]. rewrite andb_true_iff, !forallb_forall. split.
  - intros [A B] x. split; intros H; apply memb_In; auto.
  - intros H. split; intros x Hx; apply memb_In, H, Hx.
Qed.
Lemma path_eqb_iff p q : path_eqb p q = true <-> same_channel p q.
Proof. unfold path_eqb, same_channel. rewrite !andb_true_iff, !String.eqb_eq, Z.eqb_eq, same_set_iff. tauto. Qed.
Lemma same_channel_refl p : same_channel p p.
Proof. unfold same_channel. destruct (p_meas p); tauto. Qed.

Lemma mapM_f2 {A B} (f : A -> result B) : forall l m, mapM f l = Ok m -> Forall2 (fun a b => f a = Ok b) l m.
Proof.
  induction l as [|a l IH]; intros m H; cbn [mapM] in H; [injection H as <-; constructor|].
  destruct (f a) as [b|] eqn:E; [|discriminate]. cbn [bind] in H. destruct (mapM f l) as [t|]; [|discriminate]. cbn [bind] in H. injection H as <-. constructor; auto.
Qed.
Lemma mapM_total {A B} (f : A -> result B) l : (forall a, In a l -> exists b, f a = Ok b) -> exists m, mapM f l = Ok m.
Proof.
  induction l as [|a l IH]; intros H; [exists []; reflexivity|]. destruct (H a (or_introl eq_refl)) as [b E]. destruct IH as [m Em]; [intros; apply H; right; assumption|].
  exists (b :: m). cbn. rewrite E, Em. reflexivity.
Qed.
Lemma f2_in {A B} (R : A -> B -> Prop) l m : Forall2 R l m -> forall a, In a l -> exists b, In b m /\ R a b.
Proof. induction 1 as [|x y l m H HF IH]; intros a Ha; [destruct Ha|]. destruct Ha as [<-|Ha]; [exists y; split; [left; reflexivity|exact H]|]. destruct (IH a Ha) as [b [A1 A2]]. exists b. split; [right; exact A1|exact A2]. Qed.

Lemma matching_iff (l : ops) r n : In n (map pc_name (filter (fun k => String.eqb (fst k) r) (map fst l))) <-> uses l r n.
Proof.
  rewrite in_map_iff. unfold uses, pc_name. split.
  - intros [[p c] [E H]]. apply filter_In in H. destruct H as [H1 H2]. apply String.eqb_eq in H2. exists p, c. cbn in *. auto.
  - intros [p [c [H [E ->]]]]. exists (p, c). split; [reflexivity|]. apply filter_In. split; [exact H|]. apply String.eqb_eq. exact E.
Qed.

Lemma by_port_dec o : {by_port o} + {~ by_port o}.
Proof. unfold by_port. destruct (o_acq o), (o_ref o) as [[|]|]; first [left; split; reflexivity|right; intros [? ?]; discriminate]. Qed.
Lemma set_ref_other keys paths o : ~ by_port o -> set_ref keys paths o = Ok o.
Proof. unfold by_port, set_ref. destruct (o_acq o), (o_ref o) as [[|]|]; intros H; try reflexivity. destruct H; auto. Qed.

(** every port-clock combination used has a path (C43: the compiler computes one for each) *)
Definition connected (l : ops) (paths : list (string * path)) : Prop := forall k, In k (map fst l) -> exists p, find_path (pc_name k) paths = Some p.

Lemma set_ref_iff l paths o o' : connected l paths -> (set_ref (map fst l) paths o = Ok o' <-> referenced l paths o o').
Proof.
  intros HC. destruct (by_port_dec o) as [HB|HB].
  2:{ rewrite set_ref_other by exact HB. unfold referenced. split; [intros H; injection H as <-; right; auto|intros [[H _]|[_ ->]]; [contradiction|reflexivity]]. }
  destruct HB as [Ha Hr]. unfold set_ref. rewrite Ha, Hr. destruct (o_refport o) as [r|] eqn:Ep.
  2:{ assert (filter (fun k : string * string => false) (map fst l) = []) as -> by (induction (map fst l); auto). cbn [map]. split; [discriminate|]. intros [[_ [r [i [H _]]]]|[H _]]; [congruence|destruct H; split; assumption]. }
  set (ms := map pc_name (filter (fun k => String.eqb (fst k) r) (map fst l))).
  assert (HM : forall n, In n ms <-> uses l r n) by (intros n; apply matching_iff).
  assert (HG : forall n, In n ms -> exists p, find_path n paths = Some p).
  { intros n Hn. unfold ms in Hn. apply in_map_iff in Hn. destruct Hn as [k [<- Hk]]. apply filter_In in Hk. apply HC, Hk. }
  clearbody ms. destruct ms as [|n rest].
  { split; [discriminate|]. intros [[_ [r' [i [H1 [[n [p [Hu _]]] _]]]]]|[H _]]; [|destruct H; split; assumption]. assert (r' = r) by congruence. subst. apply HM in Hu. destruct Hu. }
  destruct (HG n (or_introl eq_refl)) as [p Hp].
  assert (HE : exists b, (match rest with [] => Ok tt | _ => do ps <- mapM (get_path paths) (n :: rest); match ps with p :: r => if forallb (path_eqb p) r then Ok tt else Err ValueError | [] => Ok tt end end) = (if b : bool then Ok tt else Err ValueError) /\
     (b = true <-> forall n' p', In n' (n :: rest) -> find_path n' paths = Some p' -> same_channel p p')).
  { destruct rest as [|n2 rest].
    - exists true. split; [reflexivity|]. split; [|reflexivity]. intros _ n' p' [<-|[]] Hp'. assert (p' = p) by congruence. subst. apply same_channel_refl.
    - destruct (mapM_total (get_path paths) (n2 :: rest)) as [ps Eps]; [intros a Ha'; destruct (HG a (or_intror Ha')) as [q Hq]; exists q; unfold get_path; rewrite Hq; reflexivity|].
      exists (forallb (path_eqb p) ps). split.
      + change (mapM (get_path paths) (n :: n2 :: rest)) with (do y <- get_path paths n; do ys <- mapM (get_path paths) (n2 :: rest); Ok (y :: ys)). rewrite Eps. unfold get_path. rewrite Hp. reflexivity.
      + apply mapM_f2 in Eps. rewrite forallb_forall. split.
        * intros HA n' p' [<-|Hn] Hp'; [assert (p' = p) by congruence; subst; apply same_channel_refl|].
          destruct (f2_in _ _ _ Eps n' Hn) as [q [Hq Eq]]. unfold get_path in Eq. rewrite Hp' in Eq. injection Eq as <-. apply path_eqb_iff, HA, Hq.
        * intros HA q Hq. apply path_eqb_iff. assert (HS : exists a, In a (n2 :: rest) /\ get_path paths a = Ok q).
          { clear -Eps Hq. induction Eps as [|x y xs ys H HF IH]; [destruct Hq|]. destruct Hq as [<-|Hq]; [exists x; split; [left; reflexivity|exact H]|]. destruct (IH Hq) as [a [A1 A2]]. exists a. split; [right; exact A1|exact A2]. }
          destruct HS as [a [Ha1 Ha2]]. unfold get_path in Ha2. destruct (find_path a paths) as [q'|] eqn:E; [|discriminate]. injection Ha2 as ->. apply (HA a q); [right; exact Ha1|exact E]. }
  destruct HE as [b [-> Hb]]. destruct b; cbn [bind].
  - unfold get_path. rewrite Hp. cbn [bind]. destruct (channel_idx p) as [i|e] eqn:Ei; cbn [bind].
    + split.
      * intros H. injection H as <-. left. split; [split; assumption|]. exists r, i. split; [exact Ep|]. split; [|unfold with_ref; rewrite Ha, Hr, Ep; reflexivity].
        exists n, p. split; [apply HM; left; reflexivity|]. split; [exact Hp|]. split; [exact Ei|]. intros n' p' Hu. apply (proj1 Hb eq_refl). apply HM, Hu.
      * intros [[_ [r' [i' [H1 [[n' [p' [Hu [Hp' [Hi' _]]]]] ->]]]]]|[H _]]; [|destruct H; split; assumption]. assert (r' = r) by congruence. subst r'.
        assert (S1 : same_channel p p') by (apply (proj1 Hb eq_refl n' p'); [apply HM, Hu|exact Hp']). destruct S1 as [_ [_ [S1 _]]]. unfold channel_idx in *. rewrite S1 in Ei. assert (i' = i) by congruence. subst. unfold with_ref. rewrite Ha, Hr, Ep. reflexivity.
    + split; [discriminate|]. intros [[_ [r' [i' [H1 [[n' [p' [Hu [Hp' [Hi' _]]]]] _]]]]]|[H _]]; [|destruct H; split; assumption]. assert (r' = r) by congruence. subst r'.
      assert (S1 : same_channel p p') by (apply (proj1 Hb eq_refl n' p'); [apply HM, Hu|exact Hp']). destruct S1 as [_ [_ [S1 _]]]. unfold channel_idx in *. rewrite S1 in Ei. congruence.
  - split; [discriminate|]. intros [[_ [r' [i' [H1 [[n' [p' [Hu [Hp' [Hi' Hall]]]]] _]]]]]|[H _]]; [|destruct H; split; assumption]. assert (r' = r) by congruence. subst r'. exfalso.
    assert (false = true); [|discriminate]. apply Hb. intros n2 p2 Hn2 Hp2.
    pose proof (Hall n p (proj1 (HM n) (or_introl eq_refl)) Hp) as [a1 [a2 [a3 [a4 a5]]]]. pose proof (Hall n2 p2 (proj1 (HM n2) Hn2) Hp2) as [b1 [b2 [b3 [b4 b5]]]].
    unfold same_channel. repeat split; try congruence. destruct (p_meas p') as [m'|], (p_meas p) as [m|], (p_meas p2) as [m2|]; try tauto. intros x. rewrite <- a5. apply b5.
Qed.

(** ** Every time reference to a port becomes the index of the one channel connected to that port; nothing else changes. *)
Theorem C73_time_reference : forall l paths l', connected l paths ->
  (set_time_ref l paths = Ok l' <-> Forall2 (fun e e' => fst e = fst e' /\ Forall2 (referenced l paths) (snd e) (snd e')) l l').
Proof.
  intros l paths l' HC. assert (HK : forall o o', set_ref (map fst l) paths o = Ok o' <-> referenced l paths o o') by (intros; apply set_ref_iff, HC).
  unfold set_time_ref. revert HK. generalize (referenced l paths) as R. generalize (set_ref (map fst l) paths) as F. intros F R HK. clear HC.
  assert (HI : forall os os', mapM F os = Ok os' <-> Forall2 R os os').
  { intros os. induction os as [|o os IH]; intros os'; cbn [mapM].
    - split; [intros H; injection H as <-; constructor|intros H; inversion H; reflexivity].
    - split.
      + destruct (F o) as [y|] eqn:E; [|discriminate]. cbn [bind]. destruct (mapM F os) as [t|] eqn:Et; [|discriminate]. cbn [bind]. intros H. injection H as <-. constructor; [apply HK, E|apply IH; reflexivity].
      + intros H. inversion H as [|? y ? t H1 H2]; subst. apply HK in H1. apply IH in H2. rewrite H1, H2. reflexivity. }
  revert l'. induction l as [|e l IH]; intros l'; cbn [mapM].
  - split; [intros H; injection H as <-; constructor|intros H; inversion H; reflexivity].
  - split.
    + destruct (mapM F (snd e)) as [os|] eqn:E; [|discriminate]. cbn [bind]. destruct (mapM _ l) as [t|] eqn:Et; [|discriminate]. cbn [bind]. intros H. injection H as <-. constructor; [split; [reflexivity|apply HI, E]|apply IH; reflexivity].
    + intros H. inversion H as [|? [k os] ? t [H1 H1'] H2]; subst. apply HI in H1'. apply IH in H2. cbn [fst snd] in *. rewrite H1', H2. cbn [bind]. rewrite H1. reflexivity.
Qed.
