(** C59: when a configuration can be generated. *)
From Coq Require Import Ascii.
From Verif Require Import Base DevModel DevSpec DevProps DevProps2 DevProps3 DevThms DevThms2 DevConf DevConfSpec DevConfProps DevConfThms DevConfThms2.
Local Open Scope string_scope.

Lemma param_there : forall x s m p, fits x -> In (s, m) (schema (icls x) (iid x)) -> In p (map pname (params m)) -> exists v, get_param x s p = Ok v.
Proof.
  intros x s m p Fx Hs Hp. pose proof (fits_nodup _ Fx) as N. destruct Fx as [_ [_ F]]. destruct (f2_in_l _ _ _ _ _ _ F Hs) as [[s' y] [Hy [E R]]]. cbn [fst snd] in *. subst s'.
  destruct R as [Fd [Nd _]]. apply in_map_iff in Hp. destruct Hp as [q [<- Hq]]. destruct (f2_in_l _ _ _ _ _ _ Fd Hq) as [[k v] [Hv [Ek _]]]. cbn [fst] in Ek. subst k.
  exists v. unfold get_param. rewrite (in_lookup _ _ _ _ N Hy), (in_lookup _ _ _ _ Nd Hv). reflexivity.
Qed.
(** the reference magnitudes of [x] can be read *)
Definition readable (x : instr) : Prop := forall s r, reference_of x s = Some r -> exists v, ref_get r = Ok v.
Lemma ref_there : forall w x s m, fits x -> readable x -> In (s, m) (schema (icls x) (iid x)) -> reference m = true -> exists v, eval w x (Ref s) = Ok v.
Proof.
  intros w x s m Fx Rx Hs Rm. pose proof (fits_nodup _ Fx) as N. destruct Fx as [_ [_ F]]. destruct (f2_in_l _ _ _ _ _ _ F Hs) as [[s' y] [Hy [E R]]]. cbn [fst snd] in *. subst s'.
  destruct R as [_ [_ R]]. destruct (proj1 R Rm) as [r Hr]. pose proof (in_lookup _ _ _ _ N Hy) as L. destruct (Rx s r) as [v Hv]; [unfold reference_of; now rewrite L|].
  cbn [eval]. rewrite L, Hr, Hv. cbn. eauto.
Qed.
Fixpoint has (c : class) (i : ident) (s : src) : Prop :=
  match s with
  | Pm s p => exists m, In (s, m) (schema c i) /\ In p (map pname (params m))
  | Ref s => exists m, In (s, m) (schema c i) /\ reference m = true
  | Pair a b => has c i a /\ match b with Some b => has c i b | None => True end
  | PhaseParent => exists m, In ("cz", m) (schema c i) /\ In (parent_of i ++ "_phase_correction") (map pname (params m))
  | PhaseChild => exists m, In ("cz", m) (schema c i) /\ In (child_of i ++ "_phase_correction") (map pname (params m))
  | ParentPm _ _ | ParentClk _ | ChildClk _ => is_edge c = true
  | _ => True
  end.
Ltac pick := unfold schema; cbn [In]; first [solve [repeat first [left; reflexivity | right]] | fail 1].
Ltac pickp := cbn -[String.append]; solve [repeat first [left; reflexivity | right]].
Lemma templates_have : forall c i, kind_ok c i = true -> Forall (fun nt => Forall (fun ks => has c i (snd ks)) (tkws (snd nt))) (templates c).
Proof.
  intros c i K. unfold templates. destruct i; destruct c; try discriminate K; cbn [templates];
    repeat (apply Forall_cons || apply Forall_nil); cbn [snd tkws op1 compensation spin_measure_template];
    repeat (apply Forall_cons || apply Forall_nil); cbn [snd has is_edge]; try exact I; try reflexivity;
    repeat match goal with |- _ /\ _ => split | |- True => exact I end;
    (eexists; split; [pick | first [reflexivity | pickp]]).
Qed.
Lemma eval_total : forall w x s, fits x -> readable x -> has (icls x) (iid x) s ->
  (is_edge (icls x) = true -> exists y z, endpoint w (parent_of (iid x)) = Ok y /\ endpoint w (child_of (iid x)) = Ok z /\ (forall a b, s = ParentPm a b -> exists v, get_param y a b = Ok v)) ->
  (forall a b, s <> Pair a b) -> exists v, eval w x s = Ok v.
Proof.
  intros w x s Fx Rx H E NP. destruct s; cbn [has] in H; try (now (eexists; reflexivity)).
  - destruct H as [m [Hm Hp]]. destruct (param_there _ _ _ _ Fx Hm Hp) as [v V]. cbn. rewrite V. cbn. eauto.
  - destruct H as [m [Hm R]]. eapply ref_there; eauto.
  - exfalso. eapply NP. reflexivity.
  - destruct (E H) as [y [z [A [_ C]]]]. destruct (C s p eq_refl) as [v V]. cbn. rewrite A. cbn. rewrite V. cbn. eauto.
  - destruct (E H) as [y [z [A _]]]. cbn. rewrite A. cbn. eauto.
  - destruct (E H) as [y [z [_ [A _]]]]. cbn. rewrite A. cbn. eauto.
  - destruct H as [m [Hm Hp]]. destruct (param_there _ _ _ _ Fx Hm Hp) as [v V]. cbn. rewrite V. cbn. eauto.
  - destruct H as [m [Hm Hp]]. destruct (param_there _ _ _ _ Fx Hm Hp) as [v V]. cbn. rewrite V. cbn. eauto.
Qed.
(** pairs are pairs of parameters or clocks *)
Definition simple (s : src) : Prop := match s with Pair _ _ => False | _ => True end.
Lemma pairs_simple : forall c, Forall (fun nt => Forall (fun ks => match snd ks with Pair a b => simple a /\ match b with Some b => simple b | None => True end | _ => True end) (tkws (snd nt))) (templates c).
Proof. intros []; cbn; repeat (apply Forall_cons || apply Forall_nil); cbn; repeat (apply Forall_cons || apply Forall_nil); cbn; auto. Qed.
Lemma flux_only : forall c k t ks, In (k, t) (templates c) -> In ks (tkws t) -> forall a b, snd ks = ParentPm a b -> c = CompositeSquareEdge /\ a = "ports" /\ b = "flux".
Proof.
  intros c k t ks H I a b E.
  assert (A : Forall (fun nt => Forall (fun ks => match snd ks with ParentPm a b => c = CompositeSquareEdge /\ a = "ports" /\ b = "flux" | _ => True end) (tkws (snd nt))) (templates c)).
  { clear. destruct c; cbn; repeat (apply Forall_cons || apply Forall_nil); cbn; repeat (apply Forall_cons || apply Forall_nil); cbn; auto. }
  rewrite Forall_forall in A. specialize (A _ H). cbn [snd] in A. rewrite Forall_forall in A. specialize (A _ I). now rewrite E in A.
Qed.
Lemma no_pair_edge : forall c k t ks, In (k, t) (templates c) -> In ks (tkws t) -> is_edge c = true -> forall a b, snd ks <> Pair a b.
Proof.
  intros c k t ks H I E a b Q.
  assert (A : Forall (fun nt => Forall (fun ks => match snd ks with Pair a b => False | _ => True end) (tkws (snd nt))) (templates c)).
  { clear - E. destruct c; try discriminate E; cbn; repeat (apply Forall_cons || apply Forall_nil); cbn; repeat (apply Forall_cons || apply Forall_nil); cbn; auto. }
  rewrite Forall_forall in A. specialize (A _ H). cbn [snd] in A. rewrite Forall_forall in A. specialize (A _ I). now rewrite Q in A.
Qed.
Lemma mapM_total : forall A B (f : A -> result B) l, (forall a, In a l -> exists b, f a = Ok b) -> exists r, mapM f l = Ok r.
Proof.
  induction l as [|a l IH]; cbn; intros H; [eauto|]. destruct (H a) as [b ->]; [now left|]. destruct IH as [r ->]; [intros; apply H; now right|]. cbn. eauto.
Qed.
(** the two elements an edge connects are open, and a CompositeSquareEdge has a parent with a flux port *)
Definition connected (w : registry) (x : instr) : Prop := forall p c, connects x p c ->
  exists y z, find_instrument w p = Ok y /\ find_instrument w c = Ok z /\ is_edge (icls y) = false /\ is_edge (icls z) = false /\
    (icls x = CompositeSquareEdge -> exists v, value y "ports" "flux" = Some v).
Lemma operations_total : forall w x, fits x -> readable x -> connected w x -> exists o, operations w x = Ok o.
Proof.
  intros w x Fx Rx Cx. apply mapM_total. intros [k t] Ht. cbn [fst snd].
  assert (T : exists o, eval_op w x t = Ok o); [|destruct T as [o ->]; cbn; eauto].
  unfold eval_op. match goal with |- context [mapM ?f ?l] => destruct (mapM_total _ _ f l) as [r ->]; [|cbn; eauto] end.
  intros ks Hk. pose proof (templates_have (icls x) (iid x) (proj1 Fx)) as TH. rewrite Forall_forall in TH. specialize (TH _ Ht). cbn [snd] in TH. rewrite Forall_forall in TH. specialize (TH _ Hk).
  pose proof (pairs_simple (icls x)) as PS. rewrite Forall_forall in PS. specialize (PS _ Ht). cbn [snd] in PS. rewrite Forall_forall in PS. specialize (PS _ Hk).
  assert (G : exists v, eval w x (snd ks) = Ok v); [|destruct G as [v ->]; cbn; eauto].
  assert (E : is_edge (icls x) = true -> exists y z, endpoint w (parent_of (iid x)) = Ok y /\ endpoint w (child_of (iid x)) = Ok z /\
      (forall a b, snd ks = ParentPm a b -> exists v, get_param y a b = Ok v)).
  { intros K. destruct Fx as [Kk _]. destruct (iid x) as [n|p c] eqn:I; [cbn in Kk; rewrite K in Kk; discriminate Kk|]. destruct (Cx p c I) as [y [z [A [B [C [D F]]]]]].
    exists y, z. cbn [parent_of child_of]. unfold endpoint. rewrite A, B. cbn [bind]. unfold is_element_instr. rewrite C, D. cbn. repeat split; try easy.
    intros a b Q. destruct (flux_only _ _ _ _ Ht Hk a b Q) as [Ec [-> ->]]. destruct (F Ec) as [v V]. exists v. now apply get_param_value. }
  destruct (snd ks) as [sm p|sfx|v|sm| |a b|sm p|sfx|sfx| |] eqn:Q; try (apply eval_total; try assumption; intros; discriminate).
  - destruct (is_edge (icls x)) eqn:K; [exfalso; now apply (no_pair_edge _ _ _ _ Ht Hk K a b)|]. cbn [has] in TH. destruct TH as [Ha Hb]. destruct PS as [Sa Sb].
    destruct (eval_total w x a Fx Rx Ha) as [va Va]; [intros; congruence | intros ? ? ->; destruct Sa |]. cbn [eval]. rewrite Va. destruct b as [b|]; cbn [bind]; [|eauto].
    destruct (eval_total w x b Fx Rx Hb) as [vb Vb]; [intros; congruence | intros ? ? ->; destruct Sb |]. rewrite Vb. cbn. eauto.
Qed.
Lemma clocks_total : forall x, fits x -> exists c, clocks_of x = Ok c.
Proof.
  intros x Fx. apply mapM_total. intros [s p] H. cbn [fst snd].
  assert (A : Forall (fun sp => exists m, In ("clock_freqs", m) (schema (icls x) (iid x)) /\ In (snd sp) (map pname (params m))) (clock_table (icls x))).
  { clear. unfold schema. destruct (iid x); destruct (icls x); cbn [clock_table]; repeat (apply Forall_cons || apply Forall_nil); cbn [snd]; (eexists; split; [pick | pickp]). }
  rewrite Forall_forall in A. destruct (A _ H) as [m [Hm Hp]]. cbn [snd] in Hp. destruct (param_there _ _ _ _ Fx Hm Hp) as [v ->]. cbn. eauto.
Qed.
Lemma foldM_total : forall A B (f : B -> A -> result B) l, (forall b a, In a l -> exists b', f b a = Ok b') -> forall b, exists r, foldM f l b = Ok r.
Proof. induction l as [|a l IH]; cbn; intros H b; [eauto|]. destruct (H b a) as [b' ->]; [now left|]. cbn. apply IH. intros; apply H; now right. Qed.
Lemma has_reference : forall x s r, fits x -> reference_of x s = Some r -> is_edge (icls x) = false /\ exists op t k, In (op, t) (templates (icls x)) /\ In (k, Ref s) (tkws t).
Proof.
  intros x s r Fx H. unfold reference_of in H. destruct (lookup s (isubs x)) as [y|] eqn:L; [|discriminate H]. destruct Fx as [_ [_ F]].
  destruct (f2_lookup_r _ _ _ _ F L) as [m [Lm [_ [_ [_ R]]]]]. cbn [snd] in R. assert (Rm : reference m = true) by (apply R; eauto). apply lookup_in in Lm.
  assert (A : Forall (fun sm => reference (snd sm) = true -> is_edge (icls x) = false /\ exists op t k, In (op, t) (templates (icls x)) /\ In (k, Ref (fst sm)) (tkws t)) (schema (icls x) (iid x))).
  { clear. unfold schema. destruct (iid x); destruct (icls x); cbn [templates]; repeat (apply Forall_cons || apply Forall_nil); cbn [fst snd reference is_edge]; intros Q; try discriminate Q;
      (split; [reflexivity|]); (first [exists "Rxy"; do 2 eexists; split; [pick | pickp] | exists "measure"; do 2 eexists; split; [pick | pickp]]). }
  rewrite Forall_forall in A. exact (A _ Lm Rm).
Qed.

(** After any session a configuration is generated exactly when every element and edge of the device is open, the two elements of every
    edge are open (and the parent of a CompositeSquareEdge has a flux port), and every reference magnitude can be read. *)
Theorem C59_can_configure : forall n ops w d, session n ops = (w, d) ->
  ((exists cfg, device_config w d = Ok cfg) <->
   (forall m, In m (members d) -> exists x, find_instrument w m = Ok x) /\
   (forall g x, In g (edges d) -> find_instrument w g = Ok x -> connected w x) /\
   (forall m x, In m (elements d) -> find_instrument w m = Ok x -> readable x)).
Proof.
  intros n ops w d Sn. pose proof (session_sane n ops) as [Sw Sd]. rewrite Sn in Sw, Sd. cbn [fst snd] in *. pose proof Sd as [_ [_ [U1 [U2 _]]]]. split.
  - intros [cfg H]. pose proof (C59_config _ _ _ _ _ Sn H) as [_ [_ [_ [He [Hg _]]]]]. split; [|split].
    + intros m Hm. unfold members in Hm. apply in_app_or in Hm. destruct Hm as [Hm|Hm]; [destruct (He m Hm) as [x [o [A _]]] | destruct (Hg m Hm) as [x [o [A _]]]]; eauto.
    + intros g x Hgd Hx p c Hpc. destruct (C59_edges n ops w d cfg g x p c Sn H Hgd Hx Hpc) as [xp [xc [vp [vc [A [B [C [D [_ [_ [_ [_ [_ [_ [_ F]]]]]]]]]]]]]]].
      exists xp, xc. repeat (split; [assumption|]). intros Q. destruct (F Q) as [v [V _]]. eauto.
    + intros m x Hm Hx s r Hr. destruct (He m Hm) as [x' [o [A [B _]]]]. assert (x' = x) by congruence. subst x'. destruct (find_sane _ _ _ Sw Hx) as [_ Fx].
      destruct (has_reference _ _ _ Fx Hr) as [_ [op [t [k [It Ik]]]]]. destruct (operations_kw w x o op t k (Ref s) B It Ik) as [c [v [_ [Ev _]]]]. cbn [eval] in Ev.
      unfold reference_of in Hr. destruct (lookup s (isubs x)) as [y|]; [|discriminate Hr]. rewrite Hr in Ev. inv Ev. eauto.
  - intros [Hm [Hg Hr]].
    assert (El : forall m, In m (elements d) -> exists x, find_instrument w m = Ok x /\ fits x /\ is_edge (icls x) = false).
    { intros m H. destruct (Hm m) as [x X]; [apply in_or_app; now left|]. destruct (find_sane _ _ _ Sw X) as [Em Fx]. exists x. rewrite <- kind_name by easy. rewrite <- Em. auto. }
    assert (Eg : forall m, In m (edges d) -> exists x, find_instrument w m = Ok x /\ fits x /\ is_edge (icls x) = true).
    { intros m H. destruct (Hm m) as [x X]; [apply in_or_app; now right|]. destruct (find_sane _ _ _ Sw X) as [Em Fx]. exists x. rewrite <- kind_name by easy. rewrite <- Em. auto. }
    unfold device_config. match goal with |- context [foldM ?f (elements d) ?b] => cut (exists r, foldM f (elements d) b = Ok r); [intros [ec ->]|apply foldM_total] end; cycle 1.
    { intros ec m H. destruct (El m H) as [x [X [Fx K]]]. unfold get_element. rewrite (proj2 (mem_in _ _) H), X. cbn [bind]. unfold is_element_instr. rewrite K. cbn [negb].
      destruct (operations_total w x Fx (Hr m x H X)) as [o ->]; [|destruct (clocks_total x Fx) as [c ->]; cbn; eauto].
      intros p c Q. unfold connects in Q. destruct Fx as [Kk _]. rewrite Q in Kk. cbn in Kk. congruence. }
    cbn [bind]. match goal with |- context [foldM ?f (edges d) ?b] => cut (exists r, foldM f (edges d) b = Ok r); [intros [g ->]; cbn; eauto|apply foldM_total] end.
    intros g m H. destruct (Eg m H) as [x [X [Fx K]]]. unfold get_edge. rewrite (proj2 (mem_in _ _) H), X. cbn [bind]. unfold is_element_instr. rewrite K. cbn [negb].
    destruct (operations_total w x Fx) as [o ->]; [|now apply (Hg m)|cbn; eauto].
    intros s r Q. destruct (has_reference _ _ _ Fx Q) as [Ne _]. congruence.
Qed.
