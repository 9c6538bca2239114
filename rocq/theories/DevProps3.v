(** What holds after every session, for C58. *)
From Coq Require Import Ascii.
From Verif Require Import Base DevModel DevSpec DevProps DevProps2.
Local Open Scope string_scope.

Lemma insert_sub : forall sc sb s m y, Forall2 sub_ok sc sb -> lookup s sc = Some m -> sub_ok (s, m) (s, y) -> Forall2 sub_ok sc (insert s y sb).
Proof.
  induction 1 as [|[a b] [a' b'] sc sb E F IH]; cbn; [discriminate|]. intros L S. pose proof E as [E1 _]. cbn in E1. subst a'.
  destruct (s =? a) eqn:Q.
  - apply String.eqb_eq in Q. subst. injection L as ->. constructor; auto.
  - constructor; auto.
Qed.
Lemma insert_direct : forall l d p v, direct_ok l d -> (exists q, find (fun q => pname q =? p) l = Some q /\ stored_ok q v) -> direct_ok l (insert p v d).
Proof.
  unfold direct_ok. induction 1 as [|q [k w] l d [E St] F IH]; cbn; intros [z [Fz Sz]]; [discriminate Fz|]. cbn in E. subst k.
  rewrite String.eqb_sym in Fz. destruct (p =? pname q) eqn:Q.
  - injection Fz as <-. constructor; [|exact F]. cbn. apply String.eqb_eq in Q. auto.
  - constructor; [cbn; auto|]. apply IH. eauto.
Qed.
Lemma f2_lookup : forall sc sb s m, Forall2 sub_ok sc sb -> lookup s sc = Some m -> exists y, lookup s sb = Some y /\ sub_ok (s, m) (s, y).
Proof.
  induction 1 as [|[a b] [a' b'] sc sb E F IH]; cbn; [discriminate|]. pose proof E as [E1 _]. cbn in E1. subst a'. intros L.
  destruct (s =? a) eqn:Q; [|auto]. apply String.eqb_eq in Q. subst. injection L as <-. eauto.
Qed.
Lemma f2_lookup_r : forall sc sb s y, Forall2 sub_ok sc sb -> lookup s sb = Some y -> exists m, lookup s sc = Some m /\ sub_ok (s, m) (s, y).
Proof.
  induction 1 as [|[a b] [a' b'] sc sb E F IH]; cbn; [discriminate|]. pose proof E as [E1 _]. cbn in E1. subst a'. intros L.
  destruct (s =? a) eqn:Q; [|auto]. apply String.eqb_eq in Q. subst. injection L as <-. eauto.
Qed.
Lemma find_name : forall p l q, find (fun q => pname q =? p) l = Some q -> pname q = p /\ In q l.
Proof. intros p l q H. apply find_some in H. destruct H as [I E]. apply String.eqb_eq in E. auto. Qed.

Lemma set_param_fits : forall x s p v y, fits x -> set_param x s p v = Ok y -> fits y /\ icls y = icls x /\ iid y = iid x.
Proof.
  intros x s p v y [K [N F]] H. unfold set_param in H. destruct (spec_of (icls x) (iid x) s p) as [q|] eqn:Sq; [|discriminate H].
  destruct (lookup s (isubs x)) as [z|] eqn:L; [|discriminate H]. inv H. injection H as <-. split; [|auto]. repeat split; auto. cbn.
  unfold spec_of in Sq. destruct (lookup s (schema (icls x) (iid x))) as [m|] eqn:Ls; [|discriminate Sq].
  destruct (f2_lookup _ _ _ _ F Ls) as [z' [L' [_ [D [Nd R]]]]]. rewrite L in L'. injection L' as <-. cbn [snd] in *.
  eapply insert_sub; eauto. destruct a. split; [easy|]. cbn [snd direct refm]. split; [|split].
  - apply insert_direct; auto. exists q. split; [easy | now right].
  - rewrite insert_keys; [exact Nd|]. rewrite <- (f2_names _ _ D). apply find_name in Sq. destruct Sq as [<- Sq]. now apply in_map.
  - exact R.
Qed.
Lemma set_reference_fits : forall x s u v y, fits x -> set_reference x s u v = Ok y -> fits y /\ icls y = icls x /\ iid y = iid x.
Proof.
  intros x s u v y [K [N F]] H. unfold set_reference in H. destruct (lookup s (isubs x)) as [z|] eqn:L; [|discriminate H].
  destruct (refm z) as [r|] eqn:Er; [|discriminate H]. inv H. injection H as <-. split; [|auto]. repeat split; auto. cbn.
  destruct (f2_lookup_r _ _ _ _ F L) as [m [Lm [_ [D [Nd R]]]]]. cbn [snd] in *. eapply insert_sub; eauto.
  split; [easy|]. cbn [snd direct refm]. repeat split; auto; [eauto|]. intros _. apply R. eauto.
Qed.

(** ** The registry and the device *)
Definition sane_registry (w : registry) : Prop := NoDup (map fst w) /\ forall n x, In (n, x) w -> n = iname (iid x) /\ fits x.
Definition underscore (n : string) : bool := contains_char "_"%char n.
Definition sane_device (d : device) : Prop :=
  NoDup (elements d) /\ NoDup (edges d) /\ (forall n, In n (elements d) -> underscore n = false) /\ (forall n, In n (edges d) -> underscore n = true) /\ (1 <= reps d)%Z.

Lemma contains_app : forall c a b, contains_char c (a ++ b) = (contains_char c a || contains_char c b)%bool.
Proof. induction a as [|x a IH]; cbn; intros b; [easy|]. now rewrite IH, orb_assoc. Qed.
(** an element's name has no underscore, an edge's has one *)
Lemma kind_name : forall x, fits x -> underscore (iname (iid x)) = is_edge (icls x).
Proof.
  intros x [K [N _]]. unfold underscore. destruct (iid x) as [n|p c] eqn:E; cbn in *.
  - destruct (is_edge (icls x)); [discriminate K|]. apply negb_true_iff in N. now apply orb_false_iff in N.
  - rewrite K, contains_app. cbn. now rewrite orb_true_r.
Qed.

Lemma nodup_snoc : forall A (l : list A) a, NoDup l -> ~ In a l -> NoDup (l ++ [a]).
Proof.
  induction l as [|x l IH]; cbn; intros a N H; [repeat constructor; easy|]. inversion N; subst. constructor.
  - rewrite in_app_iff. cbn. intros [Q|[Q|[]]]; [auto | apply H; now left].
  - apply IH; auto.
Qed.

Lemma create_sane : forall w c i kw w', sane_registry w -> create w c i kw = Ok w' ->
  sane_registry w' /\ exists x, construct c i kw = Ok x /\ ~ In (iname i) (map fst w) /\ w' = (w ++ [(iname i, x)])%list.
Proof.
  intros w c i kw w' [N F] H. unfold create in H. inv H. destruct (lookup (iname i) w) eqn:L; [discriminate H|]. injection H as <-.
  apply lookup_none in L. pose proof (construct_fits _ _ _ _ E) as [Fa [_ Ia]]. split; [|eauto]. split.
  - rewrite map_app. cbn. now apply nodup_snoc.
  - intros n x H. apply in_app_or in H. destruct H as [H|[H|[]]]; [now apply F|]. injection H as <- <-. now rewrite Ia.
Qed.

Lemma find_sane : forall w n x, sane_registry w -> find_instrument w n = Ok x -> n = iname (iid x) /\ fits x.
Proof. intros w n x [_ F] H. unfold find_instrument in H. destruct (lookup n w) eqn:L; [|discriminate H]. injection H as ->. apply F. now apply lookup_in. Qed.

Lemma on_instr_sane : forall w n f w', sane_registry w -> on_instr w n f = Ok w' ->
  (forall x y, fits x -> f x = Ok y -> fits y /\ iid y = iid x) -> sane_registry w'.
Proof.
  intros w n f w' Sw H Hf. unfold on_instr in H. inv H. inv H. injection H as <-. destruct (find_sane _ _ _ Sw E) as [En Fa].
  destruct (Hf _ _ Fa E0) as [Fb Ib]. destruct Sw as [N F]. split.
  - rewrite insert_keys; [exact N|]. unfold find_instrument in E. destruct (lookup n w) eqn:L; [|discriminate E]. apply lookup_in in L.
    change n with (fst (n, i)). now apply in_map.
  - intros k x H. apply insert_in in H. destruct H as [H|H]; [|now apply F]. injection H as -> ->. rewrite Ib. auto.
Qed.

Lemma load_instr_sane : forall w x w' r, sane_registry w -> load_instr w x = (w', r) -> sane_registry w' /\ forall y, r = Ok y -> fits y /\ iid y = did x /\ class_of_path (dtype x) = Some (icls y).
Proof.
  intros w x w' r Sw H. unfold load_instr in H. destruct (class_of_path (dtype x)) as [c|]; [|injection H as <- <-; split; [easy|discriminate]].
  destruct (create w c (did x) (ddata x)) as [w2|e] eqn:E; [|injection H as <- <-; split; [easy|discriminate]].
  injection H as <- <-. destruct (create_sane _ _ _ _ _ Sw E) as [S2 [y [C [N ->]]]]. split; [easy|]. intros z Hz.
  pose proof (find_sane _ _ _ S2 Hz) as [_ Fz]. split; [easy|]. unfold find_instrument in Hz.
  rewrite (in_lookup _ (iname (did x)) y) in Hz; [|apply S2|apply in_or_app; right; now left]. injection Hz as <-.
  apply construct_fits in C. destruct C as [_ [C1 C2]]. now rewrite C1, C2.
Qed.
Lemma load_all_sane : forall l w w' r, sane_registry w -> load_all w l = (w', r) -> sane_registry w' /\ forall ys, r = Ok ys -> Forall fits ys.
Proof.
  induction l as [|[k x] l IH]; cbn; intros w w' r Sw H.
  - injection H as <- <-. split; [easy|]. intros ys Q. injection Q as <-. constructor.
  - destruct (load_instr w x) as [w1 [i|e]] eqn:E.
    + pose proof (load_instr_sane _ _ _ _ Sw E) as [S1 I]. destruct (load_all w1 l) as [w2 [ys|e]] eqn:E2; injection H as <- <-;
        destruct (IH _ _ _ S1 E2) as [S2 J]; (split; [easy|]); [|discriminate]. intros zs Q. injection Q as <-. constructor; [apply I; easy | now apply J].
    + injection H as <- <-. pose proof (load_instr_sane _ _ _ _ Sw E) as [S1 I]. split; [easy|discriminate].
Qed.

Lemma add_element_sane : forall d x d', sane_device d -> fits x -> add_element d x = Ok d' -> sane_device d'.
Proof.
  intros d x d' [N1 [N2 [U1 [U2 R]]]] F H. unfold add_element in H. destruct (mem _ _) eqn:M; [discriminate H|]. destruct (is_element_instr x) eqn:K; [|discriminate H].
  cbn in H. injection H as <-. apply mem_not in M. repeat split; cbn; auto; [now apply nodup_snoc|].
  intros n Hn. apply in_app_or in Hn. destruct Hn as [Hn|[<-|[]]]; [auto|]. rewrite kind_name by easy. now apply negb_true_iff in K.
Qed.
Lemma add_edge_sane : forall d x d', sane_device d -> fits x -> add_edge d x = Ok d' -> sane_device d'.
Proof.
  intros d x d' [N1 [N2 [U1 [U2 R]]]] F H. unfold add_edge in H. destruct (mem _ _) eqn:M; [discriminate H|]. destruct (is_element_instr x) eqn:K; [discriminate H|].
  injection H as <-. apply mem_not in M. repeat split; cbn; auto; [now apply nodup_snoc|].
  intros n Hn. apply in_app_or in Hn. destruct Hn as [Hn|[<-|[]]]; [auto|]. rewrite kind_name by easy. unfold is_element_instr in K. now apply negb_false_iff in K.
Qed.
Lemma remove_first_spec : forall n l l', remove_first n l = Ok l' -> (forall k, In k l' -> In k l) /\ (NoDup l -> NoDup l').
Proof.
  induction l as [|x l IH]; cbn; intros l' H; [discriminate H|]. destruct (x =? n).
  - injection H as <-. split; [auto|]. intros N. now inversion N.
  - inv H. injection H as <-. destruct (IH _ E) as [A B]. split; [cbn; intuition|]. intros N. inversion N; subst. constructor; auto.
Qed.
Lemma set_reps_sane : forall d v d', sane_device d -> set_reps d v = Ok d' -> sane_device d'.
Proof.
  intros d v d' [N1 [N2 [U1 [U2 R]]]] H. unfold set_reps in H. inv H. injection H as <-. repeat split; cbn; auto.
  destruct v as [z| | |b| | | | |]; cbn in E; try discriminate E.
  - destruct (1 <=? z)%Z eqn:Q; [|discriminate E]. now apply Z.leb_le.
  - destruct b; cbn in *; [lia | discriminate E].
Qed.

Lemma foldM_keep : forall A B (P : B -> Prop) (f : B -> A -> result B) l b b', (forall a b b', In a l -> P b -> f b a = Ok b' -> P b') -> P b -> foldM f l b = Ok b' -> P b'.
Proof. induction l as [|a l IH]; cbn; intros b b' H Pb E; [now injection E as <-|]. inv E. eapply IH; [|eapply H; [now left|exact Pb|exact E0]|exact E]. intros. eapply H; eauto. Qed.

Lemma new_sane : forall n, sane_device (new_device n).
Proof. intros n. repeat split; cbn; try constructor; try easy. Qed.

Lemma from_json_sane : forall w q w' r, sane_registry w -> from_json w q = (w', r) -> sane_registry w' /\ forall d, r = Ok d -> sane_device d.
Proof.
  intros w q w' r Sw H. unfold from_json in H. destruct (load_all w (qelements q)) as [w1 [es|e]] eqn:E1; destruct (load_all_sane _ _ _ _ Sw E1) as [S1 F1];
    [|injection H as <- <-; split; [easy|discriminate]].
  destruct (load_all w1 (qedges q)) as [w2 [gs|e]] eqn:E2; destruct (load_all_sane _ _ _ _ S1 E2) as [S2 F2]; [|injection H as <- <-; split; [easy|discriminate]].
  injection H as <- <-. split; [easy|]. intros d H. inv H. inv H. specialize (F1 _ eq_refl). specialize (F2 _ eq_refl). rewrite Forall_forall in F1, F2.
  eapply set_reps_sane; [|exact H]. eapply foldM_keep; [|eapply foldM_keep; [|apply new_sane|exact E]|exact E0].
  - cbn beta. intros x b b' Hx Pb Q. destruct (is_element_instr x); [discriminate Q|]. eapply add_edge_sane; eauto.
  - cbn beta. intros x b b' Hx Pb Q. destruct (is_element_instr x); [|discriminate Q]. eapply add_element_sane; eauto.
Qed.

Definition sane (s : registry * device) : Prop := sane_registry (fst s) /\ sane_device (snd s).
Lemma close_sane : forall w n, sane_registry w -> sane_registry (close w n).
Proof.
  intros w n [N F]. split.
  - unfold close. clear F. induction w as [|[k x] w IH]; cbn; [easy|]. inversion N; subst. destruct (k =? n); cbn; [auto|]. constructor; [|auto].
    intros Q. apply H1. apply in_map_iff in Q. destruct Q as [y [E Q]]. apply filter_In in Q. apply in_map_iff. exists y. tauto.
  - intros k x H. apply filter_In in H. now apply F.
Qed.
Lemma step_sane : forall s o s', sane s -> step s o = Ok s' -> sane s'.
Proof.
  intros [w d] o s' [Sw Sd] H. cbn [fst snd] in *. destruct o; cbn in H.
  - inv H. injection H as <-. split; [|easy]. cbn. now apply create_sane in E.
  - inv H. injection H as <-. split; [|easy]. cbn. eapply on_instr_sane; eauto. intros x y Fx Q. destruct (set_param_fits _ _ _ _ _ Fx Q) as [A [_ B]]. auto.
  - inv H. injection H as <-. split; [|easy]. cbn. eapply on_instr_sane; eauto. intros x y Fx Q. destruct (set_reference_fits _ _ _ _ _ Fx Q) as [A [_ B]]. auto.
  - injection H as <-. split; [now apply close_sane | easy].
  - inv H. inv H. injection H as <-. split; [easy|]. eapply add_element_sane; eauto. eapply find_sane; eauto.
  - inv H. inv H. injection H as <-. split; [easy|]. eapply add_edge_sane; eauto. eapply find_sane; eauto.
  - inv H. injection H as <-. split; [easy|]. unfold remove_element in E. inv E. injection E as <-. destruct Sd as [N1 [N2 [U1 [U2 R]]]].
    apply remove_first_spec in E0. destruct E0 as [E0 E1]. repeat split; cbn; auto.
  - inv H. injection H as <-. split; [easy|]. unfold remove_edge in E. inv E. injection E as <-. destruct Sd as [N1 [N2 [U1 [U2 R]]]].
    apply remove_first_spec in E0. destruct E0 as [E0 E1]. repeat split; cbn; auto.
  - destruct (from_json w q) as [w' [d'|e]] eqn:E; injection H as <-; destruct (from_json_sane _ _ _ _ Sw E) as [A B]; (split; [easy|]); cbn; auto.
  - inv H. injection H as <-. split; [easy|]. eapply set_reps_sane; eauto.
  - inv H. injection H as <-. exact (conj Sw Sd).
  - injection H as <-. exact (conj Sw Sd).
  - injection H as <-. exact (conj Sw Sd).
Qed.
Lemma after_sane : forall l s, sane s -> sane (after s l).
Proof.
  induction l as [|o l IH]; cbn; intros s Hs; [easy|]. apply IH. destruct (step s o) eqn:E; [|easy]. eapply step_sane; eauto.
Qed.
Lemma session_sane : forall n l, sane (session n l).
Proof. intros. apply after_sane. split; [split; [constructor|easy] | apply new_sane]. Qed.
