(** C45: what is read back has the hash of what was stored, and is stored as the same document. *)
From Coq Require Import DecimalString Ascii.
From Verif Require Import Base PathModel JsonModel JsonSpec JsonProps JsonProps2 JsonProps3 JsonProps4 JsonThms.
Open Scope string_scope.
Open Scope list_scope.

(** No NaN among the floats (Python hashes a NaN by identity). *)
Fixpoint nan_free (v : val) : Prop :=
  match v with
  | VFloat _ (Nan _) => False
  | VList l | VTuple l => Allp nan_free l
  | VDict d => Allp (fun p => nan_free (fst p) /\ nan_free (snd p)) d
  | VObj _ a => Allp (fun p => nan_free (snd p)) a
  | _ => True
  end.

(** Both fail alike, or both succeed, with the same result when [P]. *)
Definition agree (P : Prop) {A} (x y : result A) : Prop :=
  match x, y with Ok a, Ok b => P -> a = b | Err e, Err e' => e = e' | _, _ => False end.

Lemma agree_bind {A B} (P : Prop) (x y : result A) (f g : A -> result B) : agree P x y -> (forall a b, (P -> a = b) -> agree P (f a) (g b)) -> agree P (do a <- x; f a) (do a <- y; g a).
Proof. destruct x, y; cbn; try contradiction; auto. Qed.
Lemma agree_mapR {A A' B} (P : Prop) (f : A -> result B) (g : A' -> result B) l l' : Forall2 (fun x y => agree P (f x) (g y)) l l' -> agree P (mapR f l) (mapR g l').
Proof. induction 1 as [|x y l l' h _ IH]; [cbn; auto|]. cbn. apply agree_bind; [exact h|]. intros a b e. apply agree_bind; [exact IH|]. cbn. intros a' b' e' p. now rewrite e, e'. Qed.
Lemma forall2_map_l {A B} (R : B -> A -> Prop) (f : A -> B) l : Forall (fun x => R (f x) x) l -> Forall2 R (map f l) l.
Proof. induction 1; constructor; auto. Qed.

Section W.
Variable w : world.
Notation ren := (fun p : val * val => (restore w (fst p), restore w (snd p))).
Notation rea := (fun p : string * val => (fst p, restore w (snd p))).

Lemma text_rest v : text (restore w v) = text v.
Proof. destruct v; reflexivity. Qed.
Lemma hash_leaf_key k : scalar_key k -> hash_leaf w (restore w k) = hash_leaf w k.
Proof. intros h. unfold hash_leaf. rewrite text_rest, num_restore. destruct k; try contradiction; try reflexivity. destruct f; try contradiction; reflexivity. Qed.
Lemma text_scalar k s : text k = Some s -> scalar_key k.
Proof. destruct k; try discriminate; exact (fun _ => I). Qed.
Lemma sortable_restore ks : Forall scalar_key ks -> sortable (map (restore w) ks) = sortable ks.
Proof. intros h. unfold sortable. destruct ks as [|a [|b ks]]; try reflexivity. set (l := a :: b :: ks) in *.
  assert (E1 : all_b (fun k => match text k with Some _ => true | None => false end) (map (restore w) l) = all_b (fun k => match text k with Some _ => true | None => false end) l).
  { unfold all_b. clear h. generalize l as m. induction m as [|x m IH]; [reflexivity|]. cbn [map forallb]. now rewrite text_rest, IH. }
  assert (E2 : all_b (fun k => match num k with Some _ => true | None => false end) (map (restore w) l) = all_b (fun k => match num k with Some _ => true | None => false end) l).
  { unfold all_b. clear h E1. generalize l as m. induction m as [|x m IH]; [reflexivity|]. cbn [map forallb]. now rewrite num_restore, IH. }
  assert (E3 : all_b (fun k => match k with VTuple _ => true | _ => false end) (map (restore w) l) = all_b (fun k => match k with VTuple _ => true | _ => false end) l).
  { unfold all_b. clear E1 E2. induction h as [|x m hx _ IH]; [reflexivity|]. cbn [map forallb]. rewrite IH. f_equal. destruct x; try reflexivity; contradiction. }
  change (map (restore w) l) with (restore w a :: restore w b :: map (restore w) ks) in *. cbn iota. rewrite E1, E2, E3. reflexivity. Qed.

Lemma find_attr (h : val -> result Z) k a :
  match find (fun p => (fst p =? k)%string) (map (fun p : string * val => (fst p, h (snd p))) a) with Some (_, x) => x | None => Err OtherErr end
  = match aget k a with Some v => h v | None => Err OtherErr end.
Proof. induction a as [|[k' v] a IH]; [reflexivity|]. cbn [map find aget fst snd]. destruct (k' =? k)%string; auto. Qed.
Lemma aget_pick k fs a : aget k (pick fs a) = if existsb (String.eqb k) fs then aget k a else None.
Proof. induction fs as [|f fs IH]; [reflexivity|]. unfold pick in *. cbn [flat_map existsb]. destruct (aget f a) as [v|] eqn:E.
  - cbn [app aget]. rewrite (String.eqb_sym f k). destruct (String.eqb_spec k f) as [->|]; [now rewrite E|exact IH].
  - cbn [app]. rewrite IH. destruct (String.eqb_spec k f) as [->|]; [|reflexivity]. cbn. rewrite E. now destruct (existsb _ _). Qed.

Section H.
Variable P : Prop.

Lemma hash_dict d : Forall (fun p => scalar_key (fst p)) d -> Forall (fun p => agree P (make_hash w (restore w (snd p))) (make_hash w (snd p))) d ->
  agree P (make_hash w (restore w (VDict d))) (make_hash w (VDict d)).
Proof. intros hk hv. cbn [restore make_hash]. apply agree_bind.
  - apply agree_mapR. apply forall2_map_l. clear - hk hv. induction hk as [|p d h _ IH]; inversion hv; subst; constructor; [|now apply IH]. cbn [fst snd].
    apply agree_bind; [assumption|]. cbn. intros a b e q. now rewrite (e q), hash_leaf_key.
  - intros a b e. rewrite map_map. cbn [fst].
    replace (map (fun x : val * val => restore w (fst x)) d) with (map (restore w) (map fst d)) by now rewrite map_map.
    rewrite sortable_restore; [|clear - hk; induction hk; constructor; auto]. destruct (sortable _); cbn; [intros q; now rewrite (e q)|reflexivity]. Qed.

Lemma hash_attr c a k : In k (fields (w_kind w c)) ->
  (forall x, aget k a = Some x -> agree P (make_hash w (restore w x)) (make_hash w x)) ->
  agree P (match aget k (pick (fields (w_kind w c)) (map rea a)) with Some v => make_hash w v | None => Err OtherErr end) (match aget k a with Some v => make_hash w v | None => Err OtherErr end).
Proof. intros hin h. rewrite aget_pick. replace (existsb (String.eqb k) (fields (w_kind w c))) with true.
  - rewrite aget_map. destruct (aget k a) as [x|]; cbn [option_map]; [now apply h|reflexivity].
  - symmetry. apply existsb_exists. exists k. split; [exact hin|apply String.eqb_refl]. Qed.

Lemma hash_restore : forall v m, storable w m v -> (P -> nan_free v) -> agree P (make_hash w (restore w v)) (make_hash w v).
Proof. induction v using val_ind'; intros m hs hn; cbn [storable] in hs; try contradiction; try (cbn; intros _; reflexivity).
  - cbn. intros p. specialize (hn p). cbn in hn. destruct f; try contradiction; reflexivity.
  - destruct hs as [_ hs]. cbn [restore make_hash]. apply agree_bind; [|cbn; intros a b e q; now rewrite (e q)]. apply agree_mapR, forall2_map_l. rewrite Forall_forall in H |- *. intros x hx. apply (H x hx AnyValue (Allp_in _ _ _ hs hx)). intros p. exact (Allp_in _ _ _ (hn p) hx).
  - destruct hs as [_ hs]. cbn [restore make_hash]. apply agree_bind; [|cbn; intros a b e q; now rewrite (e q)]. apply agree_mapR, forall2_map_l. rewrite Forall_forall in H |- *. intros x hx. apply (H x hx AnyValue (Allp_in _ _ _ hs hx)). intros p. exact (Allp_in _ _ _ (hn p) hx).
  - assert (hk : Forall (fun p => scalar_key (fst p)) d).
    { apply Forall_forall. intros p hp. destruct m; try contradiction; destruct hs as [h1 h2]; try (destruct (string_keys_text _ _ h1 hp) as [s e]; exact (text_scalar _ _ e)). exact (proj1 (Allp_in _ _ _ h2 hp)). }
    assert (hv : Forall (fun p => exists m', storable w m' (snd p)) d).
    { apply Forall_forall. intros p hp. destruct m; try contradiction; destruct hs as [h1 h2]; pose proof (Allp_in _ _ _ h2 hp) as hh; cbn beta in hh; try (eexists; exact hh). exists Channel. apply hh. }
    apply hash_dict; [exact hk|]. rewrite Forall_forall in H, hv |- *. intros p hp. destruct (hv p hp) as [m' h']. apply (proj2 (H p hp) m' h'). intros q. exact (proj2 (Allp_in _ _ _ (hn q) hp)).
  - assert (hx : w_kind w c <> KPlain -> w_kind w c <> KInstructions -> m = AnyValue).
    { intros n1 n2. destruct m; try contradiction; [reflexivity|destruct hs as (_ & h & _); contradiction|destruct hs as (-> & h & _); contradiction]. }
    assert (hat : w_kind w c <> KPlain -> w_kind w c <> KInstructions -> forall k x, In k (fields (w_kind w c)) -> aget k a = Some x -> agree P (make_hash w (restore w x)) (make_hash w x)).
    { intros n1 n2 k x hin hg. rewrite (hx n1 n2) in hs. destruct hs as (_ & _ & ha). pose proof (aget_in _ _ _ hg) as hi. rewrite Forall_forall in H. apply (H _ hi _ (Allp_in _ _ _ ha hi hin)). intros p. exact (Allp_in _ _ _ (hn p) hi). }
    cbn [restore make_hash]. rewrite !find_attr.
    destruct (w_kind w c) eqn:hk.
    all: try (rewrite <- hk; apply hash_attr; [rewrite hk; cbn; auto|]; intros x hg; apply (hat ltac:(discriminate) ltac:(discriminate) "data" x); cbn; auto; fail).
    + reflexivity.
    + (* timing constraint *) rewrite (hx ltac:(discriminate) ltac:(discriminate)) in hs. destruct hs as (_ & hw & _). unfold well_formed in hw. rewrite hk in hw.
      assert (E : pick (fields KTiming) (map rea a) = map rea a).
      { destruct a as [|[k1 v1] a]; [discriminate|]. destruct a as [|[k2 v2] a]; [discriminate|]. destruct a as [|[k3 v3] a]; [discriminate|]. destruct a as [|[k4 v4] a]; [discriminate|]. destruct a; [|discriminate]. cbn in hw. injection hw as -> -> -> ->. reflexivity. }
      rewrite E. apply agree_bind; [|cbn; intros x y e q; now rewrite (e q)]. apply agree_mapR. rewrite map_map. cbn [fst snd].
      assert (hh : Forall (fun p => agree P (make_hash w (restore w (snd p))) (make_hash w (snd p))) a).
      { assert (nd : NoDup (map fst a)) by (rewrite hw; repeat constructor; cbn; intuition discriminate). apply Forall_forall. intros [k x] hp. apply (hat ltac:(discriminate) ltac:(discriminate) k x).
        - rewrite <- hw. exact (in_map fst _ _ hp).
        - clear - nd hp. induction a as [|[k' v'] a IH]; [contradiction|]. cbn in nd |- *. inversion nd; subst. destruct hp as [e|hp]; [inversion e; now rewrite String.eqb_refl|]. destruct (String.eqb_spec k' k) as [->|]; [exfalso; apply H1; exact (in_map fst _ _ hp)|auto]. }
      clear - hh. induction hh as [|p a h _ IH]; [constructor|]. cbn [map]. constructor; [|exact IH]. cbn [fst snd]. apply agree_bind; [exact h|]. cbn. intros x y e q. now rewrite (e q).
    + (* ReferenceMagnitude *) apply agree_bind.
      * rewrite <- hk. apply hash_attr; [rewrite hk; cbn; auto|]. intros x hg. apply (hat ltac:(discriminate) ltac:(discriminate) "value" x); cbn; auto.
      * intros x y e. apply agree_bind; [|cbn; intros x' y' e' q; now rewrite (e q), (e' q)].
        rewrite <- hk. apply hash_attr; [rewrite hk; cbn; auto|]. intros z hg. apply (hat ltac:(discriminate) ltac:(discriminate) "unit" z); cbn; auto.
    + reflexivity.
Qed.
End H.

Lemma hash_ok v m : storable w m v -> is_ok (make_hash w v) -> is_ok (make_hash w (restore w v)).
Proof. intros h [z e]. pose proof (hash_restore False v m h ltac:(contradiction)) as a. unfold agree in a. rewrite e in a. destruct (make_hash w (restore w v)) as [y|]; [now exists y|contradiction]. Qed.
Lemma hash_same v m : storable w m v -> nan_free v -> make_hash w (restore w v) = make_hash w v.
Proof. intros h n. pose proof (hash_restore True v m h (fun _ => n)) as a. unfold agree in a. destruct (make_hash w (restore w v)), (make_hash w v); try contradiction; [now rewrite a|now rewrite a]. Qed.
End W.
