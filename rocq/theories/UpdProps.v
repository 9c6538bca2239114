(** C20: removing redundant parameter updates. *)
From Verif Require Import Base UpdModel.
Open Scope Z_scope.

(** ** Sorting *)
Section Sort.
Context {A : Type} (key : A -> Z).
Definition le_all (x : A) (l : list A) := Forall (fun y => key x <= key y) l.
Fixpoint srt (l : list A) : Prop := match l with [] => True | x :: r => le_all x r /\ srt r end.
Lemma insert_all (p : A -> Prop) x l : p x -> Forall p l -> Forall p (insert key x l).
Proof. intros Hx. induction 1; cbn; [auto|]. destruct (key x <=? key x0); auto. Qed.
Lemma insert_srt x l : srt l -> srt (insert key x l).
Proof.
  induction l as [|y l IH]; cbn; intros H; [repeat constructor|]. destruct H as [H1 H2]. destruct (key x <=? key y) eqn:E.
  - apply Z.leb_le in E. cbn. split; [constructor; [exact E|]|auto]. eapply Forall_impl; [|exact H1]. cbn. intros; lia.
  - apply Z.leb_gt in E. cbn. split; [|auto]. apply insert_all; [lia|exact H1].
Qed.
Lemma sorted_srt l : srt (sorted_by key l). Proof. induction l; [exact I|]. apply insert_srt. exact IHl. Qed.

Lemma insert_filter f x l : srt l -> f x = true -> insert key x (filter f l) = filter f (insert key x l).
Proof.
  intros Hs Hx. induction l as [|y l IH]; cbn; [rewrite Hx; reflexivity|]. destruct Hs as [H1 H2]. destruct (key x <=? key y) eqn:E.
  - cbn. rewrite Hx. destruct (f y) eqn:Ey; cbn; [rewrite E; reflexivity|].
    apply Z.leb_le in E. clear IH. assert (Ha : Forall (fun z => key x <= key z) (filter f l)).
    { apply Forall_forall. intros z Hz. apply filter_In in Hz. destruct Hz as [Hz _]. unfold le_all in H1. rewrite Forall_forall in H1. specialize (H1 _ Hz). lia. }
    destruct (filter f l) as [|z r]; [reflexivity|]. inversion Ha; subst. cbn. rewrite (proj2 (Z.leb_le _ _)) by assumption. reflexivity.
  - cbn. destruct (f y) eqn:Ey; cbn; [rewrite E|]; rewrite IH by exact H2; reflexivity.
Qed.
Lemma insert_filter_out f x l : f x = false -> filter f (insert key x l) = filter f l.
Proof.
  intros Hx. induction l as [|y l IH]; cbn; [rewrite Hx; reflexivity|]. destruct (key x <=? key y); cbn; [rewrite Hx; reflexivity|].
  rewrite IH. reflexivity.
Qed.
Lemma sorted_filter f l : sorted_by key (filter f l) = filter f (sorted_by key l).
Proof.
  induction l as [|x l IH]; [reflexivity|]. change (sorted_by key (x :: l)) with (insert key x (sorted_by key l)). cbn [filter]. destruct (f x) eqn:E.
  - change (sorted_by key (x :: filter f l)) with (insert key x (sorted_by key (filter f l))). rewrite IH. apply insert_filter; [apply sorted_srt|exact E].
  - rewrite insert_filter_out by exact E. exact IH.
Qed.
Lemma insert_In x l y : In y (insert key x l) <-> y = x \/ In y l.
Proof.
  induction l as [|z l IH]; cbn; [intuition congruence|]. destruct (key x <=? key z); cbn; [intuition congruence|]. rewrite IH. intuition.
Qed.
Lemma sorted_In l y : In y (sorted_by key l) <-> In y l.
Proof. induction l as [|x l IH]; [reflexivity|]. change (sorted_by key (x :: l)) with (insert key x (sorted_by key l)). rewrite insert_In, IH. cbn. intuition congruence. Qed.
Lemma insert_length x l : List.length (insert key x l) = S (List.length l).
Proof. induction l as [|z l IH]; cbn; [reflexivity|]. destruct (key x <=? key z); cbn; [reflexivity|rewrite IH; reflexivity]. Qed.
Lemma sorted_id l : srt l -> sorted_by key l = l.
Proof.
  induction l as [|x l IH]; [reflexivity|]. intros [H1 H2]. change (sorted_by key (x :: l)) with (insert key x (sorted_by key l)). rewrite (IH H2). destruct l as [|y r]; [reflexivity|].
  cbn. inversion H1; subst. rewrite (proj2 (Z.leb_le _ _)) by assumption. reflexivity.
Qed.
End Sort.

Lemma insert_map {A B} (key : B -> Z) (g : A -> B) x l : insert key (g x) (map g l) = map g (insert (fun a => key (g a)) x l).
Proof. induction l as [|y l IH]; cbn; [reflexivity|]. destruct (key (g x) <=? key (g y)); cbn; [reflexivity|rewrite IH; reflexivity]. Qed.
Lemma sorted_map {A B} (key : B -> Z) (g : A -> B) l : sorted_by key (map g l) = map g (sorted_by (fun a => key (g a)) l).
Proof. induction l as [|x l IH]; [reflexivity|]. cbn [map]. change (sorted_by key (g x :: map g l)) with (insert key (g x) (sorted_by key (map g l))). rewrite IH. apply insert_map. Qed.

Lemma insert_nodup {A} (key : A -> Z) (g : A -> nat) x l : NoDup (map g (x :: l)) -> NoDup (map g (insert key x l)).
Proof.
  induction l as [|y l IH]; cbn [insert]; intros H; [exact H|]. destruct (key x <=? key y); [exact H|]. cbn [map]. cbn [map] in H, IH. inversion H as [|? ? H1 H2]; subst. inversion H2 as [|? ? H3 H4]; subst.
  constructor.
  - intros Hin. apply in_map_iff in Hin. destruct Hin as [z [Hz Hi]]. apply insert_In in Hi. destruct Hi as [->|Hi]; [apply H1; left; congruence|].
    apply H3. apply in_map_iff. exists z. auto.
  - apply IH. constructor; [|assumption]. intros Hin. apply H1. right. exact Hin.
Qed.
Lemma sorted_nodup {A} (key : A -> Z) (g : A -> nat) l : NoDup (map g l) -> NoDup (map g (sorted_by key l)).
Proof.
  induction l as [|x l IH]; intros H; [exact H|]. cbn [sorted_by fold_right]. apply insert_nodup. cbn [map]. cbn [map] in H. inversion H as [|? ? H2 H3]; subst. constructor.
  - intros Hin. apply in_map_iff in Hin. destruct Hin as [z [Hz Hi]]. apply sorted_In in Hi. apply H2. apply in_map_iff. exists z. auto.
  - apply IH. assumption.
Qed.

Section Upd.
Context {P : Type}.
Notation sop := (sop P). Notation node := (node P). Notation ev := (ev P). Notation st := (st P).

(** ** The passes on ordered lists *)
Definition upd_last (rv : bool) (last : option Z) (o : sop) : bool * option Z :=
  match o with
  | SOp t PU => match last with Some u => if u =? t then (false, last) else (true, Some t) | None => (true, Some t) end
  | SOp t (RT _) => (true, Some t)
  | SOp t (PI _) => (true, if rv then last else None)
  | SOp t (Other _) => (true, last)
  | SCond _ _ => (true, if rv then None else last)
  | SLoop _ _ | SRet _ => (true, None)
  end.
(** kept operations, in order, and the final [last_updated_timing] *)
Fixpoint keep (rv : bool) (last : option Z) (l : list sop) : list sop * option Z :=
  match l with
  | [] => ([], last)
  | o :: r => let '(k, last1) := upd_last rv last o in let '(r', last2) := keep rv last1 r in ((if k then [o] else []) ++ r', last2)
  end.
Lemma keep_app rv l1 : forall last l2, keep rv last (l1 ++ l2) =
  let '(a, u) := keep rv last l1 in let '(b, w) := keep rv u l2 in (a ++ b, w).
Proof.
  induction l1 as [|o l1 IH]; intros last l2; cbn; [destruct (keep rv last l2); reflexivity|]. destruct (upd_last rv last o) as [k u]. rewrite IH.
  destruct (keep rv u l1) as [a w]. destruct (keep rv w l2) as [b z]. rewrite app_assoc. reflexivity.
Qed.

Lemma to_remove_step rv last i o r : to_remove rv last ((i, o) :: r) =
  (if fst (upd_last rv last o) then [] else [i]) ++ to_remove rv (snd (upd_last rv last o)) r.
Proof.
  cbn [to_remove]. destruct o as [t a| | | ]; try reflexivity. destruct a; try reflexivity. cbn [upd_last]. destruct last as [u|]; [|reflexivity]. destruct (u =? t); reflexivity.
Qed.
Lemma to_remove_in rv : forall (l : list (nat * sop)) last i, In i (to_remove rv last l) -> In i (map fst l).
Proof.
  induction l as [|[j o] r IH]; intros last i H; [destruct H|]. rewrite to_remove_step in H. apply in_app_iff in H. destruct H as [H|H].
  - destruct (fst (upd_last rv last o)); [destruct H|]. destruct H as [->|[]]. left. reflexivity.
  - right. eapply IH; eauto.
Qed.
Lemma mem_In i l : existsb (Nat.eqb i) l = true <-> In i l.
Proof. rewrite existsb_exists. split; [intros [x [H1 H2]]; apply Nat.eqb_eq in H2; subst; exact H1|intros H; exists i; split; [exact H|apply Nat.eqb_refl]]. Qed.

Lemma filter_keep rv : forall (l : list (nat * sop)) last, NoDup (map fst l) ->
  map snd (filter (fun p => negb (existsb (Nat.eqb (fst p)) (to_remove rv last l))) l) = fst (keep rv last (map snd l)).
Proof.
  induction l as [|[i o] r IH]; intros last Hn; [reflexivity|]. cbn [map fst] in Hn. inversion Hn as [|? ? Hi Hr]; subst. rewrite to_remove_step. cbn [map snd keep filter fst].
  destruct (upd_last rv last o) as [k u] eqn:E. cbn [fst snd].
  assert (Hnot : existsb (Nat.eqb i) (to_remove rv u r) = false). { apply not_true_iff_false. rewrite mem_In. intros H. apply Hi. eapply to_remove_in; eauto. }
  assert (Hfil : forall p, In p r -> existsb (Nat.eqb (fst p)) ((if k then [] else [i]) ++ to_remove rv u r) = existsb (Nat.eqb (fst p)) (to_remove rv u r)).
  { intros p Hp. destruct k; [reflexivity|]. cbn [app existsb]. destruct (Nat.eqb (fst p) i) eqn:Ei; [|reflexivity]. apply Nat.eqb_eq in Ei. exfalso. apply Hi. rewrite <- Ei. apply in_map. exact Hp. }
  assert (HF : filter (fun p => negb (existsb (Nat.eqb (fst p)) ((if k then [] else [i]) ++ to_remove rv u r))) r = filter (fun p => negb (existsb (Nat.eqb (fst p)) (to_remove rv u r))) r).
  { apply filter_ext_in. intros p Hp. rewrite Hfil by exact Hp. reflexivity. }
  rewrite HF. specialize (IH u Hr). destruct (keep rv u (map snd r)) as [r' w]. cbn [fst] in *. destruct k.
  - cbn [app]. rewrite Hnot. cbn [negb map snd]. rewrite IH. reflexivity.
  - cbn [app existsb]. rewrite Nat.eqb_refl. cbn [orb negb]. exact IH.
Qed.

Lemma removal_pass_ordered rv ops : ordered (removal_pass rv ops) =
  if rv then rev (fst (keep true None (rev (ordered ops)))) else fst (keep false None (ordered ops)).
Proof.
  unfold ordered, removal_pass. set (en := combine (seq 0 (List.length ops)) ops).
  assert (Hsnd : map snd en = ops).
  { unfold en. assert (HL : List.length (seq 0 (List.length ops)) = List.length ops) by apply seq_length. revert HL. generalize (seq 0 (List.length ops)). clear. induction ops as [|o ops IH]; intros [|i l] H; try discriminate; [reflexivity|]. cbn. f_equal. apply IH. injection H as H. exact H. }
  assert (Hnd : NoDup (map fst en)).
  { unfold en. assert (HL : List.length (seq 0 (List.length ops)) = List.length ops) by apply seq_length. pose proof (seq_NoDup (List.length ops) 0) as Hn. revert HL Hn. generalize (seq 0 (List.length ops)). clear.
    induction ops as [|o ops IH]; intros [|i l] H Hn; try discriminate; [constructor|]. cbn. inversion Hn; subst. injection H as H. constructor; [|apply IH; assumption].
    intros Hin. apply in_map_iff in Hin. destruct Hin as [[a b] [<- Hab]]. apply in_combine_l in Hab. auto. }
  set (s := sorted_by (fun p => time (snd p)) en). set (rm := to_remove rv None (if rv then rev s else s)).
  rewrite sorted_map. rewrite sorted_filter. fold s.
  assert (Hs : map snd s = sorted_by time ops). { unfold s. transitivity (sorted_by time (map snd en)); [symmetry; apply sorted_map|rewrite Hsnd; reflexivity]. }
  assert (Hns : NoDup (map fst s)) by (apply sorted_nodup; exact Hnd).
  rewrite <- Hs. destruct rv.
  - rewrite <- map_rev. rewrite <- (filter_keep true (rev s) None) by (rewrite map_rev; apply NoDup_rev; exact Hns). fold rm.
    rewrite <- map_rev. f_equal. rewrite <- (rev_involutive s) at 1. generalize (rev s) as l. intros l. clear.
    induction l as [|x l IH]; [reflexivity|]. cbn [rev filter]. rewrite filter_app, IH. cbn [filter]. destruct (negb _); cbn [rev]; [reflexivity|apply app_nil_r].
  - rewrite <- (filter_keep false s None) by exact Hns. reflexivity.
Qed.

(** ** The passes on forests *)
Definition fwd_list (fw : option Z -> node -> list node * option Z) : option Z -> list node -> list node * option Z :=
  fix go last l := match l with [] => ([], last) | x :: r => let '(a, u) := fw last x in let '(b, w) := go u r in (a ++ b, w) end.
Fixpoint fwd (last : option Z) (x : node) {struct x} : list node * option Z :=
  match x with
  | NOp t a => let '(k, u) := upd_last false last (SOp t a) in (if k then [NOp t a] else [], u)
  | NLoop t n b te => ([NLoop t n (fst (fwd_list fwd None b)) te], None)
  | NCond t c b te => ([NCond t c (fst (fwd_list fwd last b)) te], None)
  end.
Definition bwd_list (bw : node -> option Z -> list node * option Z) : list node -> option Z -> list node * option Z :=
  fix go l last := match l with [] => ([], last) | x :: r => let '(b, w) := go r last in let '(a, u) := bw x w in (a ++ b, u) end.
Fixpoint bwd (x : node) (last : option Z) {struct x} : list node * option Z :=
  match x with
  | NOp t a => let '(k, u) := upd_last true last (SOp t a) in (if k then [NOp t a] else [], u)
  | NLoop t n b te => ([NLoop t n (fst (bwd_list bwd b None)) te], None)
  | NCond t c b te => ([NCond t c (fst (bwd_list bwd b None)) te], None)
  end.

Lemma node_ind2 (Q : node -> Prop) : (forall t a, Q (NOp t a)) -> (forall t n b te, Forall Q b -> Q (NLoop t n b te)) ->
  (forall t c b te, Forall Q b -> Q (NCond t c b te)) -> forall x, Q x.
Proof.
  intros H1 H2 H3. fix IH 1. intros [t a|t n b te|t c b te]; [apply H1|apply H2|apply H3]; induction b; constructor; auto.
Qed.

Lemma fwd_flat : forall x last, keep false last (flat x) = (flat_map flat (fst (fwd last x)), snd (fwd last x)).
Proof.
  assert (HL : forall b, Forall (fun x => forall last, keep false last (flat x) = (flat_map flat (fst (fwd last x)), snd (fwd last x))) b ->
     forall last, keep false last (flat_map flat b) = (flat_map flat (fst (fwd_list fwd last b)), snd (fwd_list fwd last b))).
  { induction 1 as [|x b Hx Hb IH]; intros last; [reflexivity|]. cbn [flat_map]. rewrite keep_app, Hx. cbn [fwd_list]. fold (fwd_list fwd).
    destruct (fwd last x) as [a u]. cbn [fst snd]. rewrite IH. destruct (fwd_list fwd u b) as [b' w]. cbn [fst snd]. rewrite flat_map_app. reflexivity. }
  apply (node_ind2 (fun x => forall last, keep false last (flat x) = (flat_map flat (fst (fwd last x)), snd (fwd last x)))).
  - intros t a last. cbn [flat keep fwd]. destruct (upd_last false last (SOp t a)) as [[] u]; reflexivity.
  - intros t n b te Hb last. cbn [flat keep upd_last]. rewrite keep_app. rewrite (HL b Hb). destruct (fwd_list fwd None b) as [b' w] eqn:E. cbn [fst snd keep upd_last app fwd flat_map]. rewrite E. cbn [fst]. rewrite app_nil_r. reflexivity.
  - intros t c b te Hb last. cbn [flat keep upd_last]. rewrite keep_app. rewrite (HL b Hb). destruct (fwd_list fwd last b) as [b' w] eqn:E. cbn [fst snd keep upd_last app fwd flat_map]. rewrite E. cbn [fst]. rewrite app_nil_r. reflexivity.
Qed.
Lemma fwd_list_flat b : forall last, keep false last (flat_map flat b) = (flat_map flat (fst (fwd_list fwd last b)), snd (fwd_list fwd last b)).
Proof.
  induction b as [|x b IH]; intros last; [reflexivity|]. cbn [flat_map]. rewrite keep_app, fwd_flat. cbn [fwd_list]. fold (fwd_list fwd).
  destruct (fwd last x) as [a u]. cbn [fst snd]. rewrite IH. destruct (fwd_list fwd u b) as [b' w]. cbn [fst snd]. rewrite flat_map_app. reflexivity.
Qed.

Lemma bwd_list_flat0 b : Forall (fun x => forall last, keep true last (rev (flat x)) = (rev (flat_map flat (fst (bwd x last))), snd (bwd x last))) b ->
     forall last, keep true last (rev (flat_map flat b)) = (rev (flat_map flat (fst (bwd_list bwd b last))), snd (bwd_list bwd b last)).
Proof.
  induction 1 as [|x b Hx Hb IH]; intros last; [reflexivity|]. cbn [flat_map]. rewrite rev_app_distr, keep_app, IH. cbn [bwd_list]. fold (bwd_list bwd).
  destruct (bwd_list bwd b last) as [b' w]. cbn [fst snd]. rewrite Hx. destruct (bwd x w) as [a u]. cbn [fst snd]. rewrite flat_map_app, rev_app_distr. reflexivity.
Qed.
Lemma bwd_flat : forall x last, keep true last (rev (flat x)) = (rev (flat_map flat (fst (bwd x last))), snd (bwd x last)).
Proof.
  apply (node_ind2 (fun x => forall last, keep true last (rev (flat x)) = (rev (flat_map flat (fst (bwd x last))), snd (bwd x last)))).
  - intros t a last. cbn [flat keep bwd rev app]. destruct (upd_last true last (SOp t a)) as [[] u]; reflexivity.
  - intros t n b te Hb last. cbn [flat rev]. rewrite rev_app_distr. cbn [rev app keep upd_last]. rewrite keep_app, (bwd_list_flat0 b Hb).
    cbn [bwd flat_map fst snd flat]. destruct (bwd_list bwd b None) as [b' w]. cbn [fst snd keep upd_last app rev]. rewrite app_nil_r, rev_app_distr. reflexivity.
  - intros t n b te Hb last. cbn [flat rev]. rewrite rev_app_distr. cbn [rev app keep upd_last]. rewrite keep_app, (bwd_list_flat0 b Hb).
    cbn [bwd flat_map fst snd flat]. destruct (bwd_list bwd b None) as [b' w]. cbn [fst snd keep upd_last app rev]. rewrite app_nil_r, rev_app_distr. reflexivity.
Qed.
Lemma bwd_list_flat b last : keep true last (rev (flat_map flat b)) = (rev (flat_map flat (fst (bwd_list bwd b last))), snd (bwd_list bwd b last)).
Proof. apply bwd_list_flat0. apply Forall_forall. intros x _. apply bwd_flat. Qed.

(** ** Execution *)
Variable env : Z -> Z -> bool.
Variable T : Z.
Notation exec := (@exec P env).
Notation execl := (@exec_list P exec).
Lemma execl_cons x l off s : execl (x :: l) off s = let '(e1, s1) := exec x off s in let '(e2, s2) := execl l off s1 in (e1 ++ e2, s2).
Proof. reflexivity. Qed.
Lemma execl_app l1 : forall l2 off s, execl (l1 ++ l2) off s = let '(e1, s1) := execl l1 off s in let '(e2, s2) := execl l2 off s1 in (e1 ++ e2, s2).
Proof.
  induction l1 as [|x l1 IH]; intros l2 off s; [cbn; destruct (execl l2 off s); reflexivity|]. cbn [app]. rewrite !execl_cons. destruct (exec x off s) as [e1 s1]. rewrite IH.
  destruct (execl l1 off s1) as [e2 s2]. destruct (execl l2 off s2) as [e3 s3]. rewrite app_assoc. reflexivity.
Qed.
Lemma played_app e1 e2 : played (e1 ++ e2) = played e1 ++ played (P:=P) e2. Proof. apply flat_map_app. Qed.
Lemma value_app v e1 e2 : value_at T v (e1 ++ e2) = value_at T (value_at T v e1) (e2 : list ev). Proof. apply fold_left_app. Qed.

(** same observations from given current values *)
Definition Same (v1 v2 : P) (a b : list ev * st) : Prop :=
  played (fst a) = played (fst b) /\ snd a = snd b /\ value_at T v1 (fst a) = value_at T v2 (fst b).

Lemma Same_iter (f g : Z -> st -> list ev * st) : (forall off s v, Same v v (f off s) (g off s)) ->
  forall n off d s v, Same v v (iter_exec f n off d s) (iter_exec g n off d s).
Proof.
  intros H. induction n as [|n IH]; intros off d s v; [repeat split|]. cbn [iter_exec]. destruct (H off s v) as [A [B C]]. destruct (f off s) as [e1 s1]. destruct (g off s) as [e1' s1'].
  cbn [fst snd] in *. subst s1'. specialize (IH (off + d) d s1 (value_at T v e1)). destruct (iter_exec f n (off + d) d s1) as [e2 s2]. destruct (iter_exec g n (off + d) d s1) as [e2' s2'].
  destruct IH as [A' [B' C']]. cbn [fst snd] in *. subst s2'. repeat split; cbn [fst snd].
  - rewrite !played_app. congruence.
  - rewrite !value_app. rewrite <- C. exact C'.
Qed.

(** *** Forward pass *)
Definition FInv (off : Z) (last : option Z) (s : st) (v : P) : Prop :=
  match last with Some t => pend s = lat s /\ (off + t <= T -> v = lat s) | None => True end.

Definition FOk (x : node) : Prop := forall last off s v, FInv off last s v ->
  Same v v (exec x off s) (execl (fst (fwd last x)) off s) /\
  FInv off (snd (fwd last x)) (snd (exec x off s)) (value_at T v (fst (exec x off s))).
Lemma fwd_list_ok b : Forall FOk b -> forall last off s v, FInv off last s v ->
  Same v v (execl b off s) (execl (fst (fwd_list fwd last b)) off s) /\
  FInv off (snd (fwd_list fwd last b)) (snd (execl b off s)) (value_at T v (fst (execl b off s))).
Proof.
  induction 1 as [|x b Hx Hb IH]; intros last off s v HI; [repeat split; exact HI|]. rewrite execl_cons. cbn [fwd_list]. fold (fwd_list fwd).
  destruct (Hx last off s v HI) as [[A [B C]] HI1]. destruct (fwd last x) as [xs u]. cbn [fst snd] in *. destruct (exec x off s) as [e1 s1]. destruct (execl xs off s) as [e1' s1'] eqn:E'. cbn [fst snd] in *. subst s1'.
  destruct (IH u off s1 _ HI1) as [[A' [B' C']] HI2]. destruct (fwd_list fwd u b) as [b' w]. cbn [fst snd] in *. rewrite execl_app, E'.
  destruct (execl b off s1) as [e2 s2]. destruct (execl b' off s1) as [e2' s2']. cbn [fst snd] in *. subst s2'. split.
  - repeat split; cbn [fst snd]; [rewrite !played_app; congruence|]. rewrite !value_app, <- C. exact C'.
  - rewrite value_app. exact HI2.
Qed.
Lemma fwd_ok : forall x, FOk x.
Proof.
  apply node_ind2.
  - intros t a last off s v HI. unfold FOk. destruct a as [|id|f|id]; cbn [fwd upd_last exec].
    + assert (Hk : Same v v ([{| e_time := off + t; e_rt := None; e_val := pend s |}], {| pend := pend s; lat := pend s |}) (execl [NOp t PU] off s)) by (repeat split).
      assert (HI' : FInv off (Some t) {| pend := pend s; lat := pend s |} (value_at T v [{| e_time := off + t; e_rt := None; e_val := pend s |}])).
      { cbn [FInv pend lat]. split; [reflexivity|]. intros H. cbn. rewrite (proj2 (Z.leb_le _ _)) by exact H. reflexivity. }
      destruct last as [u|]; [|split; [exact Hk|exact HI']]. destruct (u =? t) eqn:E; [|split; [exact Hk|exact HI']].
      apply Z.eqb_eq in E. subst u. destruct HI as [H1 H2]. cbn [fst snd exec_list]. split.
      * split; [reflexivity|]. cbn [fst snd value_at fold_left e_time e_val]. split; [destruct s; cbn in *; congruence|].
        destruct (off + t <=? T) eqn:E; [|reflexivity]. apply Z.leb_le in E. rewrite (H2 E). exact H1.
      * exact HI'.
    + split; [repeat split|]. cbn [fst snd FInv pend lat]. split; [reflexivity|]. intros H. cbn. rewrite (proj2 (Z.leb_le _ _)) by exact H. reflexivity.
    + split; [repeat split|exact I].
    + split; [repeat split|exact HI].
  - intros t n b te Hb last off s v HI. cbn [fwd exec fst snd]. split; [|exact I].
    rewrite execl_cons. cbn [exec]. pose proof (Same_iter (execl b) (execl (fst (fwd_list fwd None b)))) as HS.
    assert (H0 : forall off s v, Same v v (execl b off s) (execl (fst (fwd_list fwd None b)) off s)) by (intros off' s' v'; apply (fwd_list_ok b Hb None off' s' v' I)).
    specialize (HS H0 n off (te - t) s v). destruct (iter_exec (execl (fst (fwd_list fwd None b))) n off (te - t) s) as [e' s']. cbn [exec_list]. rewrite app_nil_r. exact HS.
  - intros t c b te Hb last off s v HI. cbn [fwd exec fst snd]. split; [|exact I]. rewrite execl_cons. cbn [exec].
    destruct (env (off + t) c); [|repeat split]. pose proof (fwd_list_ok b Hb last off s v HI) as [HS _].
    destruct (execl (fst (fwd_list fwd last b)) off s) as [e' s']. cbn [exec_list]. rewrite app_nil_r. exact HS.
Qed.

(** *** Backward pass *)
(** [Forgets off last l]: at the beginning of [l] the latched value does not matter, because it is overwritten at the same instant *)
Definition Forgets (off : Z) (last : option Z) (l : list node) : Prop :=
  match last with
  | None => True
  | Some t => forall p l1 l2 v1 v2, (T < off + t -> v1 = v2) ->
      Same v1 v2 (execl l off {| pend := p; lat := l1 |}) (execl l off {| pend := p; lat := l2 |})
  end.
Definition BOk (x : node) : Prop := forall last off r, Forgets off last r ->
  Forgets off (snd (bwd x last)) (fst (bwd x last) ++ r) /\
  forall s v, Same v v (execl (x :: r) off s) (execl (fst (bwd x last) ++ r) off s).

Lemma Same_refl v a : Same v v a a. Proof. repeat split. Qed.
Lemma Same_trans v1 v2 v3 a b c : Same v1 v2 a b -> Same v2 v3 b c -> Same v1 v3 a c.
Proof. intros [A [B C]] [A' [B' C']]. repeat split; congruence. Qed.
Lemma Same_cons x l l' off s v : (forall s v, Same v v (execl l off s) (execl l' off s)) -> Same v v (execl (x :: l) off s) (execl (x :: l') off s).
Proof.
  intros H. rewrite !execl_cons. destruct (exec x off s) as [e1 s1]. destruct (H s1 (value_at T v e1)) as [A [B C]]. destruct (execl l off s1) as [e2 s2]. destruct (execl l' off s1) as [e2' s2'].
  cbn [fst snd] in *. repeat split; cbn [fst snd]; [rewrite !played_app; congruence|exact B|rewrite !value_app; exact C].
Qed.

Lemma bwd_list_ok b : Forall BOk b -> forall last off r, Forgets off last r ->
  Forgets off (snd (bwd_list bwd b last)) (fst (bwd_list bwd b last) ++ r) /\
  forall s v, Same v v (execl (b ++ r) off s) (execl (fst (bwd_list bwd b last) ++ r) off s).
Proof.
  induction 1 as [|x b Hx Hb IH]; intros last off r HF; [split; [exact HF|intros; apply Same_refl]|]. cbn [bwd_list]. fold (bwd_list bwd).
  destruct (IH last off r HF) as [F1 S1]. destruct (bwd_list bwd b last) as [b' w]. cbn [fst snd] in *.
  destruct (Hx w off (b' ++ r) F1) as [F2 S2]. destruct (bwd x w) as [a u]. cbn [fst snd] in *. rewrite <- app_assoc. split; [exact F2|].
  intros s v. cbn [app]. eapply Same_trans; [|apply S2]. apply Same_cons. exact S1.
Qed.

Lemma Forgets_latch off t a r : (a = PU \/ exists id, a = RT id) -> Forgets off (Some t) (NOp t a :: r).
Proof.
  intros Ha. cbn [Forgets]. intros p l1 l2 v1 v2 Hv. rewrite !execl_cons.
  destruct Ha as [->|[id ->]]; cbn [exec pend]; destruct (execl r off {| pend := p; lat := p |}) as [e2 s2]; (split; [reflexivity|]; split; [reflexivity|]);
  cbn [fst]; rewrite !value_app; cbn [value_at fold_left e_time e_val]; destruct (off + t <=? T) eqn:E; try reflexivity; apply Z.leb_gt in E; rewrite (Hv ltac:(lia)); reflexivity.
Qed.

Lemma bwd_ok : forall x, BOk x.
Proof.
  apply node_ind2.
  - intros t a last off r HF. destruct a as [|id|f|id]; cbn [bwd upd_last].
    + assert (Hkeep : Forgets off (Some t) ([NOp t PU] ++ r) /\ forall s v, Same v v (execl (NOp t PU :: r) off s) (execl ([NOp t PU] ++ r) off s)).
      { split; [apply Forgets_latch; auto|]. intros; apply Same_refl. }
      destruct last as [u|]; [|exact Hkeep]. destruct (u =? t) eqn:E; [|exact Hkeep]. apply Z.eqb_eq in E. subst u. cbn [fst snd app]. split; [exact HF|].
      intros [p l0] v. rewrite execl_cons. cbn [exec pend].
      specialize (HF p p l0 (if off + t <=? T then p else v) v). destruct HF as [A [B C]].
      { intros H. rewrite (proj2 (Z.leb_gt _ _)) by exact H. reflexivity. }
      destruct (execl r off {| pend := p; lat := p |}) as [e2 s2]. cbn [fst snd] in *. repeat split; cbn [fst snd].
      * rewrite played_app. exact A.
      * exact B.
      * rewrite value_app. exact C.
    + cbn [fst snd app]. split; [apply Forgets_latch; eauto|]. intros; apply Same_refl.
    + cbn [fst snd app]. split; [|intros; apply Same_refl]. destruct last as [u|]; [|exact I]. cbn [Forgets] in *. intros p l1 l2 v1 v2 Hv. rewrite !execl_cons. cbn [exec pend lat].
      specialize (HF (f p) l1 l2 v1 v2 Hv). destruct (execl r off {| pend := f p; lat := l1 |}), (execl r off {| pend := f p; lat := l2 |}). exact HF.
    + cbn [fst snd app]. split; [|intros; apply Same_refl]. destruct last as [u|]; [|exact I]. cbn [Forgets] in *. intros p l1 l2 v1 v2 Hv. rewrite !execl_cons. cbn [exec pend lat].
      specialize (HF p l1 l2 v1 v2 Hv). destruct (execl r off {| pend := p; lat := l1 |}), (execl r off {| pend := p; lat := l2 |}). exact HF.
  - intros t n b te Hb last off r HF. cbn [bwd fst snd app]. split; [exact I|]. intros s v. rewrite !execl_cons. cbn [exec].
    assert (H0 : forall off s v, Same v v (execl b off s) (execl (fst (bwd_list bwd b None)) off s)).
    { intros off' s' v'. destruct (bwd_list_ok b Hb None off' [] I) as [_ HS]. rewrite !app_nil_r in HS. apply HS. }
    pose proof (Same_iter _ _ H0 n off (te - t) s v) as [A [B C]].
    destruct (iter_exec (execl b) n off (te - t) s) as [e1 s1]. destruct (iter_exec (execl (fst (bwd_list bwd b None))) n off (te - t) s) as [e1' s1']. cbn [fst snd] in *. subst s1'.
    destruct (execl r off s1) as [e2 s2]. repeat split; cbn [fst snd]; [rewrite !played_app; congruence|rewrite !value_app; congruence].
  - intros t c b te Hb last off r HF. cbn [bwd fst snd app]. split; [exact I|]. intros s v. rewrite !execl_cons. cbn [exec].
    destruct (env (off + t) c).
    + destruct (bwd_list_ok b Hb None off [] I) as [_ HS]. rewrite !app_nil_r in HS. destruct (HS s v) as [A [B C]].
      destruct (execl b off s) as [e1 s1]. destruct (execl (fst (bwd_list bwd b None)) off s) as [e1' s1']. cbn [fst snd] in *. subst s1'.
      destruct (execl r off s1) as [e2 s2]. repeat split; cbn [fst snd]; [rewrite !played_app; congruence|rewrite !value_app; congruence].
    + apply Same_refl.
Qed.
End Upd.

(** ** Nothing else is removed *)
Lemma keep_others {P} rv : forall (l : list (sop P)) last, filter (fun o => negb (is_update o)) (fst (keep rv last l)) = filter (fun o => negb (is_update o)) l.
Proof.
  induction l as [|o l IH]; intros last; [reflexivity|]. cbn [keep filter]. destruct (upd_last rv last o) as [k u] eqn:E. specialize (IH u). destruct (keep rv u l) as [r w]. cbn [fst] in *.
  rewrite filter_app, IH. destruct k; [cbn; destruct (is_update o); reflexivity|].
  destruct o as [t a| | |]; try discriminate. destruct a; try discriminate. reflexivity.
Qed.
Lemma filter_rev {A} (f : A -> bool) l : filter f (rev l) = rev (filter f l).
Proof. induction l as [|x l IH]; [reflexivity|]. cbn. rewrite filter_app, IH. cbn. destruct (f x); cbn; [reflexivity|apply app_nil_r]. Qed.

(** ** C20 *)
(** [ops]: the operations of a sequencer as assigned to it (in any order); ordered by time they form the control flow [f].
    After the removal the ordered operations form a control flow [f'] with the same non-update operations, such that for every outcome of the
    conditions ([env]) and every initial state: the same things are played at the same times with the same parameter values, the parameter values in
    effect at every time T are the same, and so are the final values. *)
Theorem C20_updates_removed_safely : forall (P : Type) (ops : list (sop P)) (f : list (node P)), ordered ops = flat_map flat f ->
  filter (fun o => negb (is_update o)) (ordered (remove_redundant ops)) = filter (fun o => negb (is_update o)) (ordered ops) /\
  exists f', ordered (remove_redundant ops) = flat_map flat f' /\
  forall env s, let '(es, s1) := run env f s in let '(es', s1') := run env f' s in
    played es' = played es /\ s1' = s1 /\ forall T init, value_at T init es' = value_at T init es.
Proof.
  intros P ops f Hf. set (f1 := fst (fwd_list fwd None f)). set (f2 := fst (bwd_list bwd f1 None)).
  assert (H1 : ordered (removal_pass false ops) = flat_map flat f1) by (rewrite removal_pass_ordered, Hf, fwd_list_flat; reflexivity).
  assert (H2 : ordered (remove_redundant ops) = flat_map flat f2).
  { unfold remove_redundant. rewrite removal_pass_ordered, H1, bwd_list_flat. cbn [fst]. apply rev_involutive. }
  split.
  - unfold remove_redundant. rewrite removal_pass_ordered, filter_rev, keep_others, filter_rev, rev_involutive, removal_pass_ordered. apply keep_others.
  - exists f2. split; [exact H2|]. intros env s.
    assert (HS : forall T v, Same T v v (run env f s) (run env f2 s)).
    { intros T v. unfold run. eapply Same_trans.
      - apply (fwd_list_ok env T f (proj2 (Forall_forall _ _) (fun x _ => fwd_ok env T x)) None 0 s v I).
      - fold f1. pose proof (bwd_list_ok env T f1 (proj2 (Forall_forall _ _) (fun x _ => bwd_ok env T x)) None 0 [] I) as [_ HB]. rewrite !app_nil_r in HB. apply HB. }
    destruct (run env f s) as [es s1]. destruct (run env f2 s) as [es' s1']. destruct (HS 0 (lat s)) as [A [B _]]. cbn [fst snd] in *.
    split; [auto|]. split; [auto|]. intros T init. destruct (HS T init) as [_ [_ C]]. cbn [fst] in C. auto.
Qed.

(** An offset set with an update just before a play, an update directly after a play, a conditional and a loop: two updates are removed. *)
Example C20_example :
  let ops : list (sop Z) := [SOp 0 (PI (fun _ => 5)); SOp 0 PU; SOp 0 (RT 1); SLoop 100 3; SOp 100 PU; SOp 100 (PI (fun v => v + 1)); SOp 108 PU; SRet 200;
                             SOp 204 (RT 2); SCond 204 7; SOp 204 PU; SOp 300 (RT 3); SRet 400] in
  ordered ops = flat_map flat [NOp 0 (PI (fun _ => 5)); NOp 0 PU; NOp 0 (RT 1); NLoop 100 3 [NOp 100 PU; NOp 100 (PI (fun v => v + 1)); NOp 108 PU] 200;
                               NOp 204 (RT 2); NCond 204 7 [NOp 204 PU; NOp 300 (RT 3)] 400] /\
  remove_redundant ops = [SOp 0 (PI (fun _ => 5)); SOp 0 (RT 1); SLoop 100 3; SOp 100 PU; SOp 100 (PI (fun v => v + 1)); SOp 108 PU; SRet 200;
                             SOp 204 (RT 2); SCond 204 7; SOp 300 (RT 3); SRet 400].
Proof. split; reflexivity. Qed.
