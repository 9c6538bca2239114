(** C59: setting one element changes nothing of the others; the configuration after loading. *)
From Coq Require Import Ascii.
From Verif Require Import Base DevModel DevSpec DevProps DevProps2 DevProps3 DevThms DevThms2 DevConf DevConfSpec DevConfProps DevConfThms DevConfThms2.
Local Open Scope string_scope.

Lemma operations_element : forall w w' x, is_edge (icls x) = false -> operations w x = operations w' x.
Proof. intros w w' x K. unfold operations. destruct (icls x); try discriminate K; reflexivity. Qed.

(** what an evaluation depends on *)
Definition refs_of (x : instr) (sm : string) : result cval :=
  match lookup sm (isubs x) with
  | Some y => match refm y with Some r => do v <- ref_get r; Ok (CR v) | None => Err OtherErr end
  | None => Err OtherErr
  end.
Definition names_end (w : registry) (n : string) : result string := do y <- endpoint w n; Ok (iname (iid y)).
Definition param_end (w : registry) (n sm p : string) : result val := do y <- endpoint w n; get_param y sm p.
Fixpoint eval_ext (w w' : registry) (x x' : instr) (I : iid x' = iid x) (G : forall sm p, get_param x' sm p = get_param x sm p) (R : forall sm, refs_of x' sm = refs_of x sm)
  (Pn : names_end w' (parent_of (iid x)) = names_end w (parent_of (iid x))) (Cn : names_end w' (child_of (iid x)) = names_end w (child_of (iid x)))
  (Pp : forall sm p, param_end w' (parent_of (iid x)) sm p = param_end w (parent_of (iid x)) sm p) (s : src) {struct s} : eval w' x' s = eval w x s.
Proof.
  destruct s as [sm p|sfx|v|sm| |a b|sm p|sfx|sfx| |]; cbn [eval]; rewrite ?I; try reflexivity.
  - now rewrite G.
  - apply R.
  - rewrite (eval_ext w w' x x') by assumption. destruct b as [b|]; [|reflexivity]. now rewrite (eval_ext w w' x x') by assumption.
  - specialize (Pp sm p). unfold param_end in Pp. destruct (endpoint w' _); destruct (endpoint w _); cbn [bind] in *; rewrite ?Pp; try reflexivity.
    + now rewrite <- Pp.
    + congruence.
  - unfold names_end in Pn. destruct (endpoint w' _); destruct (endpoint w _); cbn [bind] in *; congruence.
  - unfold names_end in Cn. destruct (endpoint w' _); destruct (endpoint w _); cbn [bind] in *; congruence.
  - now rewrite G.
  - now rewrite G.
Defined.
Lemma mapM_same : forall A B (f g : A -> result B) l, (forall a, In a l -> f a = g a) -> mapM f l = mapM g l.
Proof. induction l as [|a l IH]; cbn; intros H; [easy|]. rewrite H by now left. rewrite IH by (intros; apply H; now right). reflexivity. Qed.
Lemma operations_ext : forall w w' x x', icls x' = icls x -> (forall s, eval w' x' s = eval w x s) -> operations w' x' = operations w x.
Proof.
  intros w w' x x' C E. unfold operations. rewrite C. apply mapM_same. intros [k t] _. cbn [fst snd]. unfold eval_op.
  rewrite (mapM_same _ _ (fun ks => do v <- eval w' x' (snd ks); Ok (fst ks, v)) (fun ks => do v <- eval w x (snd ks); Ok (fst ks, v))); [reflexivity|].
  intros [k' s] _. cbn. now rewrite E.
Qed.

(** the steps that set something of the instrument [a] *)
Definition sets_only (a : string) (o : op) : Prop := (exists s p v, o = SetParam a s p v) \/ (exists s u v, o = SetReference a s u v).

Lemma set_others : forall w d a o w' d', sane_registry w -> sets_only a o -> step (w, d) o = Ok (w', d') ->
  d' = d /\ (forall m, m <> a -> find_instrument w' m = find_instrument w m) /\
  (forall x, find_instrument w a = Ok x -> exists y, find_instrument w' a = Ok y /\ icls y = icls x /\ iid y = iid x).
Proof.
  intros w d a o w' d' Sw So H.
  assert (G : forall f, (do w1 <- on_instr w a f; Ok (w1, d)) = Ok (w', d') -> (forall x y, fits x -> f x = Ok y -> icls y = icls x /\ iid y = iid x) ->
     d' = d /\ (forall m, m <> a -> find_instrument w' m = find_instrument w m) /\
     (forall x, find_instrument w a = Ok x -> exists y, find_instrument w' a = Ok y /\ icls y = icls x /\ iid y = iid x)).
  { intros f Q Hf. inv Q. injection Q as <- <-. unfold on_instr in E. inv E. inv E. injection E as <-. destruct (find_sane _ _ _ Sw E0) as [_ Fx]. repeat split.
    - intros m Hm. unfold find_instrument. rewrite lookup_insert. apply String.eqb_neq in Hm. now rewrite Hm.
    - intros x Hx. assert (x = a1) by congruence. subst x. exists a2. unfold find_instrument. rewrite lookup_insert, String.eqb_refl. split; [easy|]. now apply Hf. }
  destruct So as [[s [p [v ->]]]|[s [u [v ->]]]]; cbn in H; (apply G in H; [exact H|]); intros x y Fx Q.
  - now destruct (set_param_fits _ _ _ _ _ Fx Q).
  - now destruct (set_reference_fits _ _ _ _ _ Fx Q).
Qed.

(** Setting a parameter of [a] changes the configuration of no other element, the frequency of no clock of another element, and no edge
    other than [a] whose parent is not [a]. *)
Theorem C59_isolated : forall n ops a o w d w' d' cfg cfg', session n ops = (w, d) -> sets_only a o -> step (w, d) o = Ok (w', d') ->
  device_config w d = Ok cfg -> device_config w' d' = Ok cfg' ->
  (forall m, In m (elements d) -> m <> a -> lookup m (celements cfg') = lookup m (celements cfg)) /\
  (forall m x suffix p, In m (elements d) -> m <> a -> find_instrument w m = Ok x -> In (suffix, p) (clocks_spec (icls x)) ->
     lookup (m ++ "." ++ suffix) (cclocks cfg') = lookup (m ++ "." ++ suffix) (cclocks cfg)) /\
  (forall g x p c, In g (edges d) -> g <> a -> find_instrument w g = Ok x -> connects x p c -> p <> a -> lookup g (cedges cfg') = lookup g (cedges cfg)).
Proof.
  intros n ops a o w d w' d' cfg cfg' Sn So St H H'. pose proof (session_sane n ops) as [Sw _]. rewrite Sn in Sw. cbn [fst] in Sw.
  destruct (set_others _ _ _ _ _ _ Sw So St) as [-> [Fo Fa]].
  assert (Sn' : session n (ops ++ [o]) = (w', d)).
  { unfold session, after. rewrite fold_left_app. cbn [fold_left]. change (fold_left _ ops ([], new_device n)) with (session n ops). rewrite Sn, St. reflexivity. }
  destruct (C59_config _ _ _ _ _ Sn H) as [_ [_ [_ [He [Hg [Hc _]]]]]]. destruct (C59_config _ _ _ _ _ Sn' H') as [_ [_ [_ [He' [Hg' [Hc' _]]]]]].
  split; [|split].
  - intros m Hm Na. destruct (He m Hm) as [x [o1 [A [B C]]]]. destruct (He' m Hm) as [x' [o2 [A' [B' C']]]]. rewrite Fo in A' by easy. assert (x' = x) by congruence. subst x'.
    assert (K : is_edge (icls x) = false).
    { destruct (find_sane _ _ _ Sw A) as [Em Fx]. rewrite <- kind_name by easy. rewrite <- Em. pose proof (session_sane n ops) as [_ [_ [_ [U _]]]]. rewrite Sn in U. auto. }
    rewrite (operations_element w' w) in B' by easy. congruence.
  - intros m x sfx p Hm Na Hx Hs. destruct (Hc m x sfx p Hm Hx Hs) as [v [A ->]]. rewrite <- Fo in Hx by easy. destruct (Hc' m x sfx p Hm Hx Hs) as [v' [A' ->]]. congruence.
  - intros g x p c Hgd Na Hx Hpc Np. destruct (Hg g Hgd) as [x1 [o1 [A [B C]]]]. assert (x1 = x) by congruence. subst x1. destruct (Hg' g Hgd) as [x2 [o2 [A' [B' C']]]].
    rewrite Fo in A' by easy. assert (x2 = x) by congruence. subst x2. rewrite C, C'. f_equal.
    assert (E : operations w' x = operations w x); [|congruence].
    unfold connects in Hpc. assert (EP : endpoint w' p = endpoint w p) by (unfold endpoint; now rewrite Fo).
    apply operations_ext; [easy|]. intros s. apply eval_ext; try reflexivity; rewrite Hpc; cbn [parent_of child_of].
    + unfold names_end. now rewrite EP.
    + unfold names_end. destruct (String.eqb_spec c a) as [->|Nc].
      * unfold endpoint. destruct (find_instrument w a) as [y|e] eqn:Fy.
        -- destruct (Fa y eq_refl) as [z [-> [Cz Iz]]]. cbn [bind]. unfold is_element_instr. rewrite Cz. destruct (is_edge (icls y)); cbn; [easy|]. now rewrite Iz.
        -- exfalso. clear - St So Fy. destruct So as [[s [q [v ->]]]|[s [u [v ->]]]]; cbn in St; unfold on_instr in St; rewrite Fy in St; discriminate St.
      * unfold endpoint. now rewrite Fo.
    + intros sm q. unfold param_end. now rewrite EP.
Qed.

(** * After loading *)
(** the same settings, and no reference magnitude, in both *)
Definition alike (x y : instr) : Prop := same_settings x y /\ no_reference x /\ no_reference y /\ fits x /\ fits y.
Lemma same_lookup : forall (l l' : list (string * sub)) s, map (fun ns => (fst ns, direct (snd ns))) l = map (fun ns => (fst ns, direct (snd ns))) l' ->
  option_map direct (lookup s l) = option_map direct (lookup s l').
Proof. intros l l' s H. rewrite <- !(lookup_map _ _ direct). now rewrite H. Qed.
Lemma alike_param : forall x y s p, alike x y -> get_param y s p = get_param x s p.
Proof.
  intros x y s p [[_ [_ S]] _]. apply (same_lookup _ _ s) in S. unfold get_param. destruct (lookup s (isubs x)), (lookup s (isubs y)); cbn in S; try discriminate S; [|easy].
  injection S as S. now rewrite S.
Qed.
Lemma alike_refs : forall x y s, alike x y -> refs_of y s = refs_of x s.
Proof.
  intros x y s [[C [I S]] [Nx [Ny [[_ [_ Fx]] [_ [_ Fy]]]]]]. rewrite <- C, <- I in Fy. unfold refs_of. apply (same_lookup _ _ s) in S. unfold no_reference, reference_of in *.
  specialize (Nx s). specialize (Ny s). destruct (lookup s (isubs x)) as [u|] eqn:Lx, (lookup s (isubs y)) as [v|] eqn:Ly; cbn in S; try discriminate S; [|easy].
  destruct (f2_lookup_r _ _ _ _ Fx Lx) as [m [Lm [_ [_ [_ R]]]]]. destruct (f2_lookup_r _ _ _ _ Fy Ly) as [m' [Lm' [_ [_ [_ R']]]]]. assert (m' = m) by congruence. subst m'. cbn [snd] in *.
  destruct (refm u) as [ru|], (refm v) as [rv|]; try easy.
  - now rewrite (Nx ru eq_refl), (Ny rv eq_refl).
  - assert (T : exists r, @None refmag = Some r) by (apply R', R; eauto). destruct T; discriminate.
  - assert (T : exists r, @None refmag = Some r) by (apply R, R'; eauto). destruct T; discriminate.
Qed.
Lemma foldM_same : forall A B (f g : B -> A -> result B) l b, (forall b a, In a l -> f b a = g b a) -> foldM f l b = foldM g l b.
Proof. induction l as [|a l IH]; cbn; intros b H; [easy|]. rewrite H by now left. destruct (g b a); cbn; [|easy]. apply IH. intros; apply H; now right. Qed.

(** A device with the scheduling strategy "asap", whose edges connect its own elements, whose elements have no reference magnitude, and whose
    parameters can be saved (C58), has the same configuration after loading. *)
Theorem C59_config_after_loading : forall n ops n' ops' w d w' d' q,
  session n ops = (w, d) -> session n' ops' = (w', d') -> to_json w d = Ok q ->
  (forall m x, In m (members d) -> find_instrument w m = Ok x -> savable x /\ no_reference x) ->
  (forall g x p c, In g (edges d) -> find_instrument w g = Ok x -> connects x p c -> In p (elements d) /\ In c (elements d)) ->
  (forall m, In m (members d) -> ~ In m (map fst w')) -> strategy d = "asap" ->
  exists w2 d2, from_json w' q = (w2, Ok d2) /\ device_config w2 d2 = device_config w d.
Proof.
  intros n ops n' ops' w d w' d' q Sn Sn' J Sv Ed Fr St.
  destruct (C58_round_trip n ops n' ops' w d w' d' q Sn Sn' J) as [w2 [d2 [L [Dn [De [Dg [Dr [Sm [_ [Ds _]]]]]]]]]]; [intros m x A B; now apply (Sv m x A B)|exact Fr|].
  exists w2, d2. split; [exact L|].
  assert (S2 : session n' (ops' ++ [Load q]) = (w2, d2)).
  { unfold session, after. rewrite fold_left_app. cbn [fold_left]. change (fold_left _ ops' ([], new_device n')) with (session n' ops'). rewrite Sn'. cbn [step]. rewrite L. reflexivity. }
  pose proof (session_sane n ops) as [Sw Sd]. rewrite Sn in Sw, Sd. pose proof (session_sane n' (ops' ++ [Load q])) as [Sw2 _]. rewrite S2 in Sw2. cbn [fst snd] in *.
  assert (Al : forall m, In m (members d) -> exists x y, find_instrument w m = Ok x /\ find_instrument w2 m = Ok y /\ alike x y).
  { intros m Hm. destruct (Sm m Hm) as [x [y [A [B [C D]]]]]. exists x, y. destruct (find_sane _ _ _ Sw A) as [_ Fx]. destruct (find_sane _ _ _ Sw2 B) as [_ Fy].
    repeat (split; [assumption|]). split; [|split]; auto. destruct (Sv m x Hm A) as [_ N]. exact N. }
  assert (EP : forall m, In m (elements d) -> exists x y, endpoint w m = Ok x /\ endpoint w2 m = Ok y /\ alike x y).
  { intros m Hm. destruct (Al m) as [x [y [A [B C]]]]; [apply in_or_app; now left|]. exists x, y. unfold endpoint. rewrite A, B. cbn [bind].
    destruct (find_sane _ _ _ Sw A) as [Em Fx]. pose proof (kind_name _ Fx) as K. rewrite <- Em in K. destruct Sd as [_ [_ [U _]]]. rewrite (U _ Hm) in K.
    unfold is_element_instr. destruct C as [[Cc [Ci S]] N]. rewrite <- Cc, <- K. cbn. repeat split; try easy. all: apply N. }
  assert (OP : forall m x y, In m (members d) -> find_instrument w m = Ok x -> alike x y -> operations w2 y = operations w x).
  { intros m x y Hm Hx A. pose proof A as [[Cc [Ci _]] _]. destruct (is_edge (icls x)) eqn:K.
    - apply operations_ext; [easy|]. destruct (find_sane _ _ _ Sw Hx) as [Em Fx].
      assert (Hg : In m (edges d)).
      { unfold members in Hm. apply in_app_or in Hm. destruct Hm as [Hm|Hm]; [|easy]. pose proof (kind_name _ Fx) as K'. rewrite <- Em, K in K'. destruct Sd as [_ [_ [U _]]]. rewrite (U _ Hm) in K'. discriminate K'. }
      assert (exists p c, connects x p c) as [p [c Hpc]].
      { unfold connects. destruct Fx as [Kk _]. destruct (iid x); [|eauto]. cbn in Kk. rewrite K in Kk. discriminate Kk. }
      destruct (Ed m x p c Hg Hx Hpc) as [Ip Ic]. destruct (EP p Ip) as [xp [yp [P1 [P2 P3]]]]. destruct (EP c Ic) as [xc [yc [C1 [C2 C3]]]].
      unfold connects in Hpc. intros s. apply eval_ext; try (rewrite Hpc; cbn [parent_of child_of]).
      + congruence.
      + intros. now apply alike_param.
      + intros. now apply alike_refs.
      + unfold names_end. rewrite P1, P2. cbn. destruct P3 as [[_ [Pi _]] _]. now rewrite Pi.
      + unfold names_end. rewrite C1, C2. cbn. destruct C3 as [[_ [Pi _]] _]. now rewrite Pi.
      + intros. unfold param_end. rewrite P1, P2. cbn. now apply alike_param.
    - rewrite (operations_element w2 w) by congruence. apply operations_ext; [easy|]. intros s. apply eval_ext; try reflexivity.
      + now symmetry.
      + intros. now apply alike_param.
      + intros. now apply alike_refs. }
  unfold device_config. rewrite De, Dg, Ds, St.
  rewrite (foldM_same _ _ (fun (ec : list (string * list (string * opcfg)) * list (string * val)) n =>
                    do x <- get_element w2 d2 n;
                    if negb (is_element_instr x) then Err OtherErr else
                    do o <- operations w2 x; do c <- clocks_of x;
                    Ok (update (fst ec) [(iname (iid x), o)], update (snd ec) c))
     (fun (ec : list (string * list (string * opcfg)) * list (string * val)) n =>
                    do x <- get_element w d n;
                    if negb (is_element_instr x) then Err OtherErr else
                    do o <- operations w x; do c <- clocks_of x;
                    Ok (update (fst ec) [(iname (iid x), o)], update (snd ec) c))).
  - rewrite (foldM_same _ _ (fun (g : list (string * list (string * opcfg))) n =>
                   do x <- get_edge w2 d2 n;
                   if is_element_instr x then Err OtherErr else
                   do o <- operations w2 x; Ok (update g [(iname (iid x), o)]))
       (fun (g : list (string * list (string * opcfg))) n =>
                   do x <- get_edge w d n;
                   if is_element_instr x then Err OtherErr else
                   do o <- operations w x; Ok (update g [(iname (iid x), o)]))); [reflexivity|].
    intros g m Hm. assert (Hm' : In m (members d)) by (apply in_or_app; now right). destruct (Al m Hm') as [x [y [A [B C]]]]. unfold get_edge. rewrite Dg.
    rewrite (proj2 (mem_in _ _) Hm), A, B. cbn [bind]. rewrite (OP m x y Hm' A C). destruct C as [[Cc [Ci _]] _]. unfold is_element_instr. now rewrite Cc, Ci.
  - intros ec m Hm. assert (Hm' : In m (members d)) by (apply in_or_app; now left). destruct (Al m Hm') as [x [y [A [B C]]]]. unfold get_element. rewrite De.
    rewrite (proj2 (mem_in _ _) Hm), A, B. cbn [bind]. rewrite (OP m x y Hm' A C).
    assert (CL : clocks_of y = clocks_of x).
    { unfold clocks_of. pose proof C as [[Cc [Ci _]] _]. rewrite <- Cc, <- Ci. apply mapM_same. intros sp _. now rewrite (alike_param x y). }
    rewrite CL. destruct C as [[Cc [Ci _]] _]. unfold is_element_instr. now rewrite Cc, Ci.
Qed.
