(** C58: saving a quantum device to JSON and loading it back. *)
From Coq Require Import Ascii.
From Verif Require Import Base DevModel DevSpec DevProps DevProps2 DevProps3.
Local Open Scope string_scope.

Lemma update_new : forall A (m l : list (string * A)), NoDup (map fst (l ++ m)) -> update l m = (l ++ m)%list.
Proof.
  unfold update. induction m as [|[k v] m IH]; cbn; intros l N; [now rewrite app_nil_r|].
  rewrite insert_new.
  - rewrite IH; rewrite <- app_assoc; easy.
  - rewrite map_app in N. cbn in N. apply NoDup_remove_2 in N. intros H. apply N. apply in_or_app. now left.
Qed.

Lemma class_path_of : forall c, class_of_path (class_path c) = Some c.
Proof. intros []; reflexivity. Qed.

(** the instruments named, found in the registry *)
Definition docs_of (l : list (string * instr)) : list (string * idoc) := map (fun nx => (fst nx, instr_doc (snd nx))) l.
Lemma docs_found : forall w d (f : registry -> device -> string -> result instr) l, (forall n, In n l -> exists x, f w d n = Ok x) ->
  exists xs, mapM (fun n => do x <- f w d n; Ok (n, instr_doc x)) l = Ok (docs_of xs) /\ map fst xs = l /\ forall n x, In (n, x) xs -> f w d n = Ok x.
Proof.
  intros w d f. induction l as [|n l IH]; cbn; intros H.
  - exists []. repeat split; easy.
  - destruct (H n (or_introl eq_refl)) as [x E]. destruct IH as [xs [M [N I]]]; [intros; apply H; now right|].
    exists ((n, x) :: xs). rewrite E. cbn [bind]. rewrite M. cbn. repeat split; [now rewrite N|]. intros k y [Q|Q]; [injection Q as <- <-; easy|auto].
Qed.

Lemma to_json_ok : forall w d q, to_json w d = Ok q -> NoDup (elements d) -> NoDup (edges d) ->
  exists es gs, qname q = dname d /\ qreps q = reps d /\ qelements q = docs_of es /\ qedges q = docs_of gs /\ map fst es = elements d /\ map fst gs = edges d /\
    (forall n x, In (n, x) (es ++ gs) -> find_instrument w n = Ok x).
Proof.
  intros w d q H N1 N2. unfold to_json in H. destruct (elements d ++ edges d)%list as [|a b] eqn:E; [discriminate H|]. rewrite <- E in H. clear a b E.
  destruct (forallb _ _) eqn:F; [|discriminate H]. rewrite forallb_forall in F.
  assert (G : forall n, In n (elements d ++ edges d) -> exists x, find_instrument w n = Ok x).
  { intros n Hn. specialize (F n Hn). unfold find_instrument. destruct (lookup n w); [eauto | discriminate F]. }
  unfold device_doc in H.
  destruct (docs_found w d get_element (elements d)) as [es [M [Ne I]]].
  { intros n Hn. unfold get_element. rewrite (proj2 (mem_in _ _) Hn). apply G. apply in_or_app. now left. }
  destruct (docs_found w d get_edge (edges d)) as [gs [M' [Ng I']]].
  { intros n Hn. unfold get_edge. rewrite (proj2 (mem_in _ _) Hn). apply G. apply in_or_app. now right. }
  rewrite M, M' in H. cbn [bind] in H. injection H as <-. exists es, gs. cbn.
  assert (U : forall l, NoDup (map fst l) -> update [] (docs_of l) = docs_of l).
  { intros l Nl. apply update_new. cbn. unfold docs_of. rewrite map_map. cbn. exact Nl. }
  rewrite !U by (rewrite ?Ne, ?Ng; easy). repeat split; auto. intros n x H. apply in_app_or in H. destruct H as [H|H].
  - specialize (I _ _ H). unfold get_element in I. destruct (mem n (elements d)); [easy | discriminate I].
  - specialize (I' _ _ H). unfold get_edge in I'. destruct (mem n (edges d)); [easy | discriminate I'].
Qed.

Lemma load_docs : forall xs w, sane_registry w -> NoDup (map fst xs) -> (forall n x, In (n, x) xs -> n = iname (iid x) /\ fits x /\ savable x /\ ~ In n (map fst w)) ->
  load_all w (docs_of xs) = ((w ++ map (fun nx => (fst nx, forget (snd nx))) xs)%list, Ok (map (fun nx => forget (snd nx)) xs)).
Proof.
  induction xs as [|[n x] xs IH]; cbn; intros w Sw N H; [now rewrite app_nil_r|]. inversion N as [|a b Na Nb]; subst.
  destruct (H n x (or_introl eq_refl)) as [E [Fx [Sx Nx]]]. subst n. unfold load_instr. cbn [dtype did ddata instr_doc]. rewrite class_path_of.
  assert (C : create w (icls x) (iid x) (ddata (instr_doc x)) = Ok (w ++ [(iname (iid x), forget x)])%list).
  { unfold create. rewrite construct_doc by auto. cbn [bind]. apply lookup_none in Nx. now rewrite Nx. }
  pose proof C as C'. cbn [ddata instr_doc] in C. rewrite C. apply create_sane in C'; [|exact Sw]. destruct C' as [S2 _].
  unfold find_instrument. rewrite (in_lookup _ _ (forget x)) by (first [apply S2 | apply in_or_app; right; now left]).
  rewrite IH; auto.
  - now rewrite <- app_assoc.
  - intros m y Hm. destruct (H m y (or_intror Hm)) as [A [B [C'' D]]]. do 3 (split; [assumption|]). rewrite map_app. intros Q. apply in_app_or in Q. destruct Q as [Q|[Q|[]]]; [auto|].
    cbn in Q. subst m. apply Na. rewrite Q. change (iname (iid y)) with (fst (iname (iid y), y)). now apply in_map.
Qed.

Lemma add_all_elements : forall xs d, NoDup (elements d ++ map (fun nx : string * instr => iname (iid (snd nx))) xs) -> (forall n x, In (n, x) xs -> is_edge (icls x) = false) ->
  foldM (fun d x => if is_element_instr x then add_element d x else Err TypeError) (map (fun nx => forget (snd nx)) xs) d
  = Ok (with_elements d (elements d ++ map (fun nx => iname (iid (snd nx))) xs)).
Proof.
  induction xs as [|[n x] xs IH]; cbn [map foldM snd]; intros d N H.
  - rewrite app_nil_r. destruct d; reflexivity.
  - unfold is_element_instr at 1. cbn [icls forget]. rewrite (H n x) by now left. cbn [negb]. unfold add_element. cbn [iid forget].
    assert (M : mem (iname (iid x)) (elements d) = false).
    { apply mem_not. intros Q. apply NoDup_remove_2 in N. apply N. apply in_or_app. now left. }
    rewrite M. unfold is_element_instr. cbn [icls forget]. rewrite (H n x) by now left. cbn [negb bind].
    rewrite IH; [cbn; rewrite <- app_assoc; reflexivity| |].
    + cbn [elements with_elements]. rewrite <- app_assoc. exact N.
    + intros; eapply H; right; eauto.
Qed.
Lemma add_all_edges : forall xs d, NoDup (edges d ++ map (fun nx : string * instr => iname (iid (snd nx))) xs) -> (forall n x, In (n, x) xs -> is_edge (icls x) = true) ->
  foldM (fun d x => if is_element_instr x then Err TypeError else add_edge d x) (map (fun nx => forget (snd nx)) xs) d
  = Ok (with_edges d (edges d ++ map (fun nx => iname (iid (snd nx))) xs)).
Proof.
  induction xs as [|[n x] xs IH]; cbn [map foldM snd]; intros d N H.
  - rewrite app_nil_r. destruct d; reflexivity.
  - unfold is_element_instr at 1. cbn [icls forget]. rewrite (H n x) by now left. cbn [negb]. unfold add_edge. cbn [iid forget].
    assert (M : mem (iname (iid x)) (edges d) = false).
    { apply mem_not. intros Q. apply NoDup_remove_2 in N. apply N. apply in_or_app. now left. }
    rewrite M. unfold is_element_instr. cbn [icls forget]. rewrite (H n x) by now left. cbn [negb bind].
    rewrite IH; [cbn; rewrite <- app_assoc; reflexivity| |].
    + cbn [edges with_edges]. rewrite <- app_assoc. exact N.
    + intros; eapply H; right; eauto.
Qed.

Lemma forget_same : forall x, same_settings x (forget x).
Proof. intros x. repeat split. cbn. rewrite map_map. reflexivity. Qed.
Lemma forget_none : forall x, no_reference (forget x).
Proof.
  intros x s r H. unfold reference_of in H. cbn in H. rewrite (lookup_map _ _ forget_sub) in H. destruct (lookup s (isubs x)); [|discriminate H]. cbn in H.
  destruct (refm s0); [|discriminate H]. now injection H.
Qed.

Lemma names_of : forall (xs : list (string * instr)), (forall n x, In (n, x) xs -> n = iname (iid x)) -> map (fun nx => iname (iid (snd nx))) xs = map fst xs.
Proof. intros xs H. apply map_ext_in. intros [n x] I. cbn. symmetry. now apply H. Qed.

(** C58. Any device, after any history of a session in which it was used; any other session in which none of its instruments is open.
    If the device can be saved, and no parameter holds a tuple or an empty port name, it loads, with the same name, elements and edges in the same
    order and the same number of repetitions, and every element and edge has the same class, names and parameter values.
    The instruments that were open are as they were.  What was not saved is as in a new device: no reference magnitude has a value, the
    scheduling strategy is "asap", keep_original_schedule is True, there is no hardware configuration. *)
Theorem C58_round_trip : forall n ops n' ops' w d w' d' q,
  session n ops = (w, d) -> session n' ops' = (w', d') ->
  to_json w d = Ok q ->
  (forall m x, In m (members d) -> find_instrument w m = Ok x -> savable x) ->
  (forall m, In m (members d) -> ~ In m (map fst w')) ->
  exists w2 d2, from_json w' q = (w2, Ok d2) /\
    dname d2 = dname d /\ elements d2 = elements d /\ edges d2 = edges d /\ reps d2 = reps d /\
    (forall m, In m (members d) -> exists x y, find_instrument w m = Ok x /\ find_instrument w2 m = Ok y /\ same_settings x y /\ no_reference y) /\
    (forall m x, find_instrument w' m = Ok x -> find_instrument w2 m = Ok x) /\
    strategy d2 = "asap" /\ keep d2 = true /\ hardware d2 = None.
Proof.
  intros n ops n' ops' w d w' d' q Sn Sn' J Sv Fr.
  pose proof (session_sane n ops) as [Sw Sd]. rewrite Sn in Sw, Sd. cbn [fst snd] in *. pose proof (session_sane n' ops') as [Sw' _]. rewrite Sn' in Sw'. cbn [fst] in *.
  destruct Sd as [N1 [N2 [U1 [U2 R]]]]. destruct (to_json_ok _ _ _ J N1 N2) as [es [gs [Qn [Qr [Qe [Qg [Ne [Ng I]]]]]]]].
  assert (Ge : forall m x, In (m, x) es -> m = iname (iid x) /\ fits x /\ savable x /\ In m (elements d) /\ is_edge (icls x) = false).
  { intros m x H. assert (Hm : In m (elements d)) by (rewrite <- Ne; change m with (fst (m, x)); now apply in_map).
    assert (Hx : find_instrument w m = Ok x) by (apply I; apply in_or_app; now left). pose proof (find_sane _ _ _ Sw Hx) as [E F]. do 2 (split; [assumption|]). split; [apply (Sv m x); [apply in_or_app; now left | easy]|]. split; [assumption|].
    rewrite <- kind_name by easy. rewrite <- E. auto. }
  assert (Gg : forall m x, In (m, x) gs -> m = iname (iid x) /\ fits x /\ savable x /\ In m (edges d) /\ is_edge (icls x) = true).
  { intros m x H. assert (Hm : In m (edges d)) by (rewrite <- Ng; change m with (fst (m, x)); now apply in_map).
    assert (Hx : find_instrument w m = Ok x) by (apply I; apply in_or_app; now right). pose proof (find_sane _ _ _ Sw Hx) as [E F]. do 2 (split; [assumption|]). split; [apply (Sv m x); [apply in_or_app; now right | easy]|]. split; [assumption|].
    rewrite <- kind_name by easy. rewrite <- E. auto. }
  assert (Le := load_docs es w' Sw'). rewrite Ne in Le. specialize (Le N1).
  assert (Le' : load_all w' (docs_of es) = ((w' ++ map (fun nx => (fst nx, forget (snd nx))) es)%list, Ok (map (fun nx => forget (snd nx)) es))).
  { apply Le. intros m x H. destruct (Ge m x H) as [A [B [C [D _]]]]. do 3 (split; [assumption|]). apply Fr. apply in_or_app. now left. }
  clear Le. destruct (load_all_sane _ _ _ _ Sw' Le') as [S1 _]. assert (Lg := load_docs gs _ S1). rewrite Ng in Lg. specialize (Lg N2).
  assert (Lg' : load_all (w' ++ map (fun nx => (fst nx, forget (snd nx))) es)%list (docs_of gs) =
    (((w' ++ map (fun nx => (fst nx, forget (snd nx))) es) ++ map (fun nx => (fst nx, forget (snd nx))) gs)%list, Ok (map (fun nx => forget (snd nx)) gs))).
  { apply Lg. intros m x H. destruct (Gg m x H) as [A [B [C [D _]]]]. do 3 (split; [assumption|]). rewrite map_app, map_map. cbn [fst]. change (map (fun x0 : string * instr => fst x0) es) with (map fst es). rewrite Ne. intros Q.
    apply in_app_or in Q. destruct Q as [Q|Q]; [revert Q; apply Fr; apply in_or_app; now right|]. specialize (U1 _ Q). specialize (U2 _ D). congruence. }
  clear Lg. destruct (load_all_sane _ _ _ _ S1 Lg') as [S2 _].
  eexists. eexists. split.
  { unfold from_json. rewrite Qe, Le', Qg, Lg'. cbn beta iota. rewrite add_all_elements.
    - cbn [bind]. rewrite add_all_edges.
      + cbn [bind]. unfold set_reps. cbn [validate]. rewrite Qr. destruct (1 <=? reps d)%Z eqn:Q; [|apply Z.leb_gt in Q; lia]. cbn [bind]. reflexivity.
      + cbn. rewrite names_of by (intros m x H; apply (Gg m x H)). now rewrite Ng.
      + intros m x H. apply (Gg m x H).
    - cbn. rewrite names_of by (intros m x H; apply (Ge m x H)). now rewrite Ne.
    - intros m x H. apply (Ge m x H). }
  cbn. rewrite !names_of by (first [intros m x H; apply (Ge m x H) | intros m x H; apply (Gg m x H)]). do 4 (split; [first [assumption | exact Ne | exact Ng | reflexivity]|]).
  split; [|split; [|auto]].
  - intros m Hm. assert (Hx : exists x, In (m, x) (es ++ gs)).
    { unfold members in Hm. rewrite <- Ne, <- Ng, <- map_app in Hm. apply in_map_iff in Hm. destruct Hm as [[m' x] [E H]]. cbn in E. subst. eauto. }
    destruct Hx as [x Hx]. exists x, (forget x). split; [now apply I|]. split; [|split; [apply forget_same | apply forget_none]].
    unfold find_instrument. rewrite (in_lookup _ m (forget x)); [easy|apply S2|]. rewrite <- app_assoc. apply in_or_app. right. rewrite <- map_app.
    apply in_map_iff. now exists (m, x).
  - intros m x H. unfold find_instrument in *. destruct (lookup m w') eqn:L; [|discriminate H]. injection H as ->. apply lookup_in in L.
    rewrite (in_lookup _ m x); [easy|apply S2|]. apply in_or_app. left. apply in_or_app. now left.
Qed.

(** A device can be saved exactly when it has an element or an edge and all of them are open. *)
Theorem C58_can_save : forall n ops w d, session n ops = (w, d) ->
  ((exists q, to_json w d = Ok q) <-> members d <> [] /\ forall m, In m (members d) -> In m (map fst w)) /\
  (forall e, to_json w d = Err e -> e = RuntimeError).
Proof.
  intros n ops w d Sn. pose proof (session_sane n ops) as [Sw Sd]. rewrite Sn in Sw, Sd. cbn [fst snd] in *.
  unfold to_json, members. destruct (elements d ++ edges d)%list as [|a b] eqn:E.
  { split; [|intros e H; now injection H]. split; [intros [q H]; discriminate H | intros [H _]; now destruct H]. }
  rewrite <- E. destruct (forallb _ _) eqn:F.
  - rewrite forallb_forall in F. assert (G : forall m, In m (elements d ++ edges d) -> exists x, find_instrument w m = Ok x).
    { intros m Hm. specialize (F m Hm). unfold find_instrument. destruct (lookup m w); [eauto | discriminate F]. }
    unfold device_doc. destruct (docs_found w d get_element (elements d)) as [es [-> _]].
    { intros m Hm. unfold get_element. rewrite (proj2 (mem_in _ _) Hm). apply G. apply in_or_app. now left. }
    destruct (docs_found w d get_edge (edges d)) as [gs [-> _]].
    { intros m Hm. unfold get_edge. rewrite (proj2 (mem_in _ _) Hm). apply G. apply in_or_app. now right. }
    cbn [bind]. split; [|discriminate]. split; [|eauto]. intros _. split; [rewrite E; discriminate|]. intros m Hm. destruct (G m Hm) as [x Hx].
    unfold find_instrument in Hx. destruct (lookup m w) eqn:L; [|discriminate Hx]. apply lookup_in in L. change m with (fst (m, i)). now apply in_map.
  - split; [|intros e H; now injection H]. split; [intros [q H]; discriminate H|]. intros [_ H]. exfalso.
    assert (T : forallb (fun n0 => match lookup n0 w with Some _ => true | None => false end) (elements d ++ edges d) = true); [|congruence].
    apply forallb_forall. intros m Hm. specialize (H m Hm). destruct (lookup m w) eqn:L; [easy|]. apply lookup_none in L. contradiction.
Qed.
