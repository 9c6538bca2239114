(** Construction of instruments, for C58. *)
From Coq Require Import Ascii.
From Verif Require Import Base DevModel DevSpec DevProps.
Local Open Scope string_scope.

Lemma params_made : forall n kw l acc d, foldM (make_param n kw) l acc = Ok d -> NoDup (map fst acc) ->
  exists d', d = (acc ++ d')%list /\ NoDup (map fst d) /\
    Forall2 (fun p pv => pname p = fst pv /\ initial n (pinit p) (lookup (pname p) kw) = Ok (snd pv) /\ (snd pv = VNone \/ validate (pvals p) (snd pv) = Ok tt)) l d'.
Proof.
  induction l as [|p l IH]; cbn; intros acc d H N.
  - injection H as <-. exists []. rewrite app_nil_r. repeat split; auto.
  - inv H. unfold make_param in E. inv E. inv E. destruct (mem (pname p) (map fst acc)) eqn:M; [discriminate E|]. injection E as <-.
    apply mem_not in M. apply IH in H.
    + destruct H as [d' [-> [N' F]]]. exists ((pname p, a0) :: d'). rewrite <- app_assoc. cbn. repeat split.
      * rewrite <- app_assoc in N'. exact N'.
      * constructor; [|exact F]. cbn. repeat split; auto. destruct a1. destruct a0; auto.
    + rewrite map_app. cbn. clear - N M. induction (map fst acc) as [|y r I]; cbn; [repeat constructor; easy|].
      inversion N; subst. constructor.
      * rewrite in_app_iff. cbn. intros [Q|[Q|[]]]; [auto | apply M; now left].
      * apply I; auto. intros Q. apply M. now right.
Qed.

Lemma params_remade : forall n kw l d acc,
  Forall2 (fun p pv => pname p = fst pv /\ initial n (pinit p) (lookup (pname p) kw) = Ok (snd pv) /\ (snd pv = VNone \/ validate (pvals p) (snd pv) = Ok tt)) l d ->
  NoDup (map fst (acc ++ d)) -> foldM (make_param n kw) l acc = Ok (acc ++ d)%list.
Proof.
  induction l as [|p l IH]; intros d acc F N; inversion F as [|x y l' d' [E [I V]] G]; subst; cbn.
  - now rewrite app_nil_r.
  - unfold make_param at 1. rewrite I. cbn [bind]. destruct y as [k v]; cbn [fst snd] in *. subst k.
    assert (R : (match v with VNone => Ok tt | _ => validate (pvals p) v end) = Ok tt) by (destruct V as [-> | V]; [easy|destruct v; auto]).
    rewrite R. cbn [bind].
    assert (M : mem (pname p) (map fst acc) = false).
    { apply mem_not. intros Q. rewrite map_app in N. cbn in N. apply NoDup_remove_2 in N. apply N. apply in_or_app. now left. }
    rewrite M. cbn [bind]. change ((pname p, v) :: d') with ([(pname p, v)] ++ d')%list. rewrite app_assoc. apply IH; [exact G|].
    rewrite <- app_assoc. exact N.
Qed.

Lemma initial_stored : forall c i s m p kw v, In (s, m) (schema c i) -> In p (params m) -> initial (iname i) (pinit p) kw = Ok v ->
  (v = VNone \/ validate (pvals p) v = Ok tt) -> stored_ok p v.
Proof.
  intros c i s m p kw v H Hp I [-> | V]; [|now right]. left. split; [easy|]. pose proof (schema_params c i s m p H Hp) as S.
  destruct (pinit p) as [d|sf|d]; [eauto| |]; cbn in I.
  - destruct kw as [k|]; [|discriminate I]. inv I. destruct a; [|discriminate I]. injection I as ->. discriminate E.
  - destruct S as [_ [S _]]. destruct kw as [[]|]; try discriminate I; injection I as E; congruence.
Qed.

Lemma mapM_f2 : forall A B (f : A -> result B) l m, mapM f l = Ok m -> Forall2 (fun a b => f a = Ok b) l m.
Proof. induction l as [|a l IH]; cbn; intros m H; [injection H as <-; constructor|]. inv H. inv H. injection H as <-. constructor; auto. Qed.
Lemma f2_mapM : forall A B (f : A -> result B) l m, Forall2 (fun a b => f a = Ok b) l m -> mapM f l = Ok m.
Proof. induction 1 as [|a b l m E F IH]; cbn; [easy|]. now rewrite E, IH. Qed.
Lemma f2_impl_in : forall A B (R R' : A -> B -> Prop) l m, (forall a b, In a l -> In b m -> R a b -> R' a b) -> Forall2 R l m -> Forall2 R' l m.
Proof. intros A B R R' l m H F. induction F as [|a b l m E F IH]; constructor; [apply H; cbn; auto | apply IH; intros; apply H; cbn; auto]. Qed.

Lemma construct_fits : forall c i kw x, construct c i kw = Ok x -> fits x /\ icls x = c /\ iid x = i.
Proof.
  intros c i kw x H. unfold construct in H.
  destruct (kind_ok c i) eqn:K; [|discriminate H]. destruct (name_ok i) eqn:N; [|discriminate H]. cbn in H.
  destruct (forallb _ kw); [|discriminate H]. cbn in H. inv H. injection H as <-. cbn. repeat split; auto. cbn.
  apply mapM_f2 in E. revert E. apply f2_impl_in. intros [s m] [s' y] Hin _ E. cbn [fst snd] in E. inv E. injection E as <- <-.
  unfold make_sub in E0. destruct (strict m && _)%bool; [discriminate E0|]. inv E0. inv E0. injection E0 as <-.
  apply params_made in E; [|constructor]. destruct E as [d [-> [ND F]]]. cbn [List.app] in *.
  unfold sub_ok. cbn. repeat split; auto.
  - revert F. apply f2_impl_in. intros p pv Hp _ [E [I V]]. split; [exact E|]. eapply initial_stored; eauto.
  - intros R. rewrite R in E1. inv E1. injection E1 as <-. eauto.
  - intros [r R]. destruct (reference m); [easy|]. injection E1 as <-. discriminate R.
Qed.

(** ** Loading what was saved *)
Definition forget_sub (y : sub) : sub := {| direct := direct y; refm := option_map (fun _ => undefined) (refm y) |}.
Definition forget (x : instr) : instr := {| icls := icls x; iid := iid x; isubs := map (fun ns => (fst ns, forget_sub (snd ns))) (isubs x) |}.

Fixpoint json_plain (v : val) (H : plain v) {struct v} : json v = v.
Proof.
  destruct v; try reflexivity; cbn.
  - f_equal. assert (F : Forall plain l) by (now inversion H). clear H. induction l as [|a l IH]; cbn; [easy|].
    inversion F; subst. rewrite (json_plain a) by assumption. now rewrite IH.
  - inversion H.
  - f_equal. assert (F : Forall plain l) by (now inversion H). clear H. induction l as [|a l IH]; cbn; [easy|].
    inversion F; subst. rewrite (json_plain a) by assumption. now rewrite IH.
Qed.

Lemma lookup_map : forall A B (f : A -> B) k l, lookup k (map (fun kv => (fst kv, f (snd kv))) l) = option_map f (lookup k l).
Proof. induction l as [|[a b] r IH]; cbn; [easy|]. destruct (k =? a); [easy | exact IH]. Qed.

Lemma fits_nodup : forall x, fits x -> NoDup (map fst (isubs x)).
Proof. intros x [_ [_ F]]. apply f2_fst in F. rewrite <- F. apply schema_nodup. Qed.

Lemma f2_in_r : forall A B (R : A -> B -> Prop) l m b, Forall2 R l m -> In b m -> exists a, In a l /\ R a b.
Proof. induction 1 as [|a c l m E F IH]; cbn; [easy|]. intros [<-|H]; [eauto | destruct (IH H) as [z [I J]]; eauto]. Qed.
Lemma f2_in_l : forall A B (R : A -> B -> Prop) l m a, Forall2 R l m -> In a l -> exists b, In b m /\ R a b.
Proof. induction 1 as [|x c l m E F IH]; cbn; [easy|]. intros [<-|H]; [eauto | destruct (IH H) as [z [I J]]; eauto]. Qed.

Lemma no_reference_keys : forall c i s m, In (s, m) (schema c i) -> reference m = true -> forall k, In k reference_keys -> ~ In k (map pname (params m)).
Proof.
  intros c i s m H R k Hk. 
  assert (A : Forall (fun sm => reference (snd sm) = true -> forallb (fun k => negb (mem k (map pname (params (snd sm))))) reference_keys = true) (schema c i)).
  { unfold schema. destruct i; destruct c; cbn -[String.append]; repeat constructor; intros; try discriminate; reflexivity. }
  rewrite Forall_forall in A. specialize (A _ H R). cbn [snd] in A. rewrite forallb_forall in A. specialize (A _ Hk).
  apply negb_true_iff in A. now apply mem_not in A.
Qed.

Lemma construct_doc : forall x, fits x -> savable x -> construct (icls x) (iid x) (ddata (instr_doc x)) = Ok (forget x).
Proof.
  intros x Fx [Sp Sr]. pose proof (fits_nodup x Fx) as ND. destruct Fx as [K [N F]]. unfold construct. rewrite K, N. cbn [negb].
  pose proof (f2_fst _ _ F) as EF.
  replace (forallb _ (ddata (instr_doc x))) with true.
  2:{ symmetry. apply forallb_forall. intros [k kw] H. apply mem_in. rewrite EF. cbn in H. apply in_map_iff in H. destruct H as [ns [E H]].
      injection E as <- _. cbn. now apply in_map. }
  cbn [negb]. erewrite f2_mapM; [cbn [bind]; unfold forget; reflexivity|].
  assert (G : Forall2 (fun a b => sub_ok a b /\ In a (schema (icls x) (iid x)) /\ In b (isubs x)) (schema (icls x) (iid x)) (isubs x)).
  { revert F. apply f2_impl_in. auto. }
  clear F.
  assert (GG : forall sc sb, Forall2 (fun a b => sub_ok a b /\ In a (schema (icls x) (iid x)) /\ In b (isubs x)) sc sb ->
     Forall2 (fun a b => (do s <- make_sub (iname (iid x)) (snd a) (match lookup (fst a) (ddata (instr_doc x)) with Some d => d | None => [] end); Ok (fst a, s)) = Ok b) sc
        (map (fun ns => (fst ns, forget_sub (snd ns))) sb)).
  { clear G. induction 1 as [|a b sc sb [S [Ia Ib]] G IH]; cbn [map]; constructor; [|exact IH]. clear IH G.
    destruct a as [s m], b as [s' y]. cbn [fst snd] in *. destruct S as [E [D [Nd R]]]. cbn [fst snd] in *. subst s'.
    assert (L : lookup s (isubs x) = Some y) by (apply in_lookup; auto).
    assert (L' : lookup s (ddata (instr_doc x)) = Some (map (fun pv => (fst pv, json (snd pv))) (direct y))).
    { cbn. rewrite (lookup_map _ _ (fun y => map (fun pv => (fst pv, json (snd pv))) (direct y))). now rewrite L. }
    rewrite L'.
    assert (J : map (fun pv => (fst pv, json (snd pv))) (direct y) = direct y).
    { rewrite <- (map_id (direct y)) at 2. apply map_ext_in. intros [p v] Hp. cbn. f_equal. apply json_plain. apply (Sp s p). unfold value. rewrite L.
      apply in_lookup; auto. }
    rewrite J. clear J L'. unfold make_sub.
    replace (strict m && _)%bool with false.
    2:{ symmetry. apply andb_false_iff. right. apply negb_false_iff. apply forallb_forall. intros [p v] Hp. apply mem_in. apply in_or_app. left.
        rewrite (f2_names _ _ D). cbn. change p with (fst (p, v)). now apply in_map. }
    assert (PM : foldM (make_param (iname (iid x)) (direct y)) (params m) [] = Ok (direct y)).
    { apply (params_remade _ _ _ _ []); [|exact Nd]. unfold direct_ok in D.
      assert (Dg : Forall2 (fun p pv => (pname p = fst pv /\ stored_ok p (snd pv)) /\ In p (params m) /\ In pv (direct y)) (params m) (direct y))
        by (revert D; apply f2_impl_in; auto).
      revert Dg. apply f2_impl_in. intros p [k v] _ _ [[E St] [Hp Hv]]. cbn [fst snd] in *. subst k. split; [easy|].
      assert (Lp : lookup (pname p) (direct y) = Some v) by (apply in_lookup; auto). rewrite Lp.
      pose proof (schema_params _ _ _ _ _ Ia Hp) as SP. split.
      + destruct (pinit p) as [d|sf|d] eqn:I; cbn.
        * reflexivity.
        * destruct SP as [-> SP]. destruct (Sr (pname p) v) as [t [-> T]]; [unfold value; now rewrite L|]. cbn.
          destruct (t =? "") eqn:Q; [apply String.eqb_eq in Q; congruence|]. reflexivity.
        * destruct SP as [SP _]. destruct St as [[-> [d' Q]]|St]; [congruence|]. destruct v; try reflexivity. congruence.
      + destruct St as [[-> _]|St]; auto. }
    rewrite PM. cbn [bind]. destruct (reference m) eqn:Rm.
    - assert (Lk : forall k, In k reference_keys -> lookup k (direct y) = None).
      { intros k Hk. apply lookup_none. rewrite <- (f2_names _ _ D). eapply no_reference_keys; eauto. }
      unfold ref_init. rewrite !Lk by (cbn; auto). cbn. destruct R as [R _]. destruct (R eq_refl) as [r Er]. unfold forget_sub. rewrite Er. cbn. unfold undefined. reflexivity.
    - cbn. unfold forget_sub. destruct (refm y) as [r|]; [|reflexivity]. destruct R as [_ R]. discriminate (R (ex_intro _ r eq_refl)). }
  apply GG. exact G.
Qed.
