(** Invariants of sessions, for C58. *)
From Coq Require Import Ascii.
From Verif Require Import Base DevModel DevSpec.
Local Open Scope string_scope.

Lemma bindE : forall A B (x : result A) (f : A -> result B) b, bind x f = Ok b -> exists a, x = Ok a /\ f a = Ok b.
Proof. intros A B [a|e] f b H; cbn in H; [eauto | discriminate H]. Qed.
Ltac inv H := first [apply bindE in H; let a := fresh "a" in let E := fresh "E" in destruct H as [a [E H]]].

Lemma lookup_in : forall A k (v : A) l, lookup k l = Some v -> In (k, v) l.
Proof.
  induction l as [|[k' v'] r IH]; cbn; [discriminate|]. destruct (k =? k') eqn:E; intros H.
  - apply String.eqb_eq in E. injection H as ->. subst. now left.
  - right. auto.
Qed.
Lemma in_lookup : forall A k (v : A) l, NoDup (map fst l) -> In (k, v) l -> lookup k l = Some v.
Proof.
  induction l as [|[k' v'] r IH]; cbn; [easy|]. intros N [E|H]; inversion N as [|a b Na Nb]; subst.
  - injection E as -> ->. now rewrite String.eqb_refl.
  - destruct (k =? k') eqn:E; [|auto]. apply String.eqb_eq in E. subst. exfalso. apply Na. apply in_map_iff. now exists (k', v).
Qed.
Lemma lookup_none : forall A k (l : list (string * A)), lookup k l = None <-> ~ In k (map fst l).
Proof.
  induction l as [|[k' v'] r IH]; cbn; [intuition discriminate|]. destruct (k =? k') eqn:E.
  - apply String.eqb_eq in E. subst. split; [discriminate|]. intros H. exfalso. auto.
  - apply String.eqb_neq in E. rewrite IH. intuition congruence.
Qed.
Lemma lookup_insert : forall A k k' (v : A) l, lookup k (insert k' v l) = if k =? k' then Some v else lookup k l.
Proof.
  induction l as [|[a b] r IH]; cbn.
  - destruct (k =? k') eqn:E; [reflexivity|]. now rewrite ?E.
  - destruct (k' =? a) eqn:E; cbn.
    + apply String.eqb_eq in E. subst. destruct (k =? a) eqn:F; reflexivity.
    + destruct (k =? a) eqn:F; [|exact IH]. apply String.eqb_eq in F. subst. rewrite String.eqb_sym in E. now rewrite E.
Qed.
Lemma insert_keys : forall A k (v : A) l, In k (map fst l) -> map fst (insert k v l) = map fst l.
Proof.
  induction l as [|[a b] r IH]; cbn; [easy|]. intros H. destruct (k =? a) eqn:E; cbn.
  - apply String.eqb_eq in E. now subst.
  - f_equal. apply IH. destruct H as [H|H]; [|exact H]. apply String.eqb_neq in E. congruence.
Qed.
Lemma insert_new : forall A k (v : A) l, ~ In k (map fst l) -> insert k v l = (l ++ [(k, v)])%list.
Proof.
  induction l as [|[a b] r IH]; cbn; [easy|]. intros H. destruct (k =? a) eqn:E.
  - apply String.eqb_eq in E. subst. exfalso. auto.
  - f_equal. apply IH. auto.
Qed.
Lemma insert_in : forall A k (v : A) l x, In x (insert k v l) -> x = (k, v) \/ In x l.
Proof.
  induction l as [|[a b] r IH]; cbn; intros x H; [intuition|]. destruct (k =? a); cbn in H; intuition.
  destruct (IH x H0); intuition.
Qed.
Lemma mem_in : forall k l, mem k l = true <-> In k l.
Proof. intros. unfold mem. rewrite existsb_exists. split; [intros [x [H E]]; apply String.eqb_eq in E; now subst | intros H; exists k; split; [easy | apply String.eqb_refl]]. Qed.
Lemma mem_not : forall k l, mem k l = false <-> ~ In k l.
Proof. intros. rewrite <- mem_in. destruct (mem k l); intuition congruence. Qed.

(** ** Stored values *)
Definition stored_ok (p : pspec) (v : val) : Prop := (v = VNone /\ exists d, pinit p = Default d) \/ validate (pvals p) v = Ok tt.
(** the parameters of a submodule, one by one *)
Definition direct_ok (l : list pspec) (d : list (string * val)) : Prop := Forall2 (fun p pv => pname p = fst pv /\ stored_ok p (snd pv)) l d.
Definition sub_ok (m : string * submod) (s : string * sub) : Prop :=
  fst m = fst s /\ direct_ok (params (snd m)) (direct (snd s)) /\ NoDup (map fst (direct (snd s))) /\ (reference (snd m) = true <-> exists r, refm (snd s) = Some r).
Definition fits (x : instr) : Prop := kind_ok (icls x) (iid x) = true /\ name_ok (iid x) = true /\ Forall2 sub_ok (schema (icls x) (iid x)) (isubs x).

Lemma schema_nodup : forall c i, NoDup (map fst (schema c i)).
Proof.
  intros c i. unfold schema. destruct i; destruct c; cbn; repeat constructor; cbn; intuition discriminate.
Qed.

Lemma f2_fst : forall (l : list (string * submod)) (m : list (string * sub)), Forall2 sub_ok l m -> map fst l = map fst m.
Proof. induction 1 as [|x y l m [E _] F IH]; cbn; [easy|]. now rewrite E, IH. Qed.
Lemma f2_names : forall l d, direct_ok l d -> map pname l = map fst d.
Proof. induction 1 as [|x y l m [E _] F IH]; cbn; [easy|]. now rewrite E, IH. Qed.

Definition ifnone_sound (p : pspec) : Prop := forall d, pinit p = IfNone d -> validate (pvals p) VNone <> Ok tt.
Definition orname_sound (p : pspec) : Prop := forall s, pinit p = OrName s -> validate (pvals p) (VStr s) = Ok tt /\ forall t, validate (pvals p) (VStr t) = Ok tt.

(** in every class, a parameter with [IfNone] refuses None, and one with [OrName] accepts every string and is in the submodule "ports" *)
Lemma schema_params : forall c i s m p, In (s, m) (schema c i) -> In p (params m) ->
  match pinit p with
  | Default _ => True
  | OrName _ => s = "ports" /\ forall t, validate (pvals p) (VStr t) = Ok tt
  | IfNone d => validate (pvals p) VNone <> Ok tt /\ d <> VNone /\ validate (pvals p) d = Ok tt
  end.
Proof.
  intros c i s m p H Hp.
  assert (A : forall (l : list (string * submod)), l = schema c i ->
     Forall (fun sm => Forall (fun p => match pinit p with
       | Default _ => True
       | OrName _ => fst sm = "ports" /\ forall t, validate (pvals p) (VStr t) = Ok tt
       | IfNone d => validate (pvals p) VNone <> Ok tt /\ d <> VNone /\ validate (pvals p) d = Ok tt end) (params (snd sm))) l).
  { intros l ->. unfold schema. destruct i; destruct c; cbn; repeat constructor; cbn; try discriminate. }
  specialize (A _ eq_refl). rewrite Forall_forall in A. specialize (A _ H). cbn in A. rewrite Forall_forall in A. now apply A.
Qed.
