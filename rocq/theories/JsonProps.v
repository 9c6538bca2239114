(** C45: lemmas on dictionaries, on the encoder and on the decoder. *)
From Coq Require Import DecimalString DecimalZ DecimalFacts Ascii.
From Verif Require Import Base PathModel JsonModel JsonSpec.
Open Scope string_scope.
Open Scope list_scope.

Section Ind.
Variable P : val -> Prop.
Hypothesis hNone : P VNone.
Hypothesis hBool : forall b, P (VBool b).
Hypothesis hInt : forall z, P (VInt z).
Hypothesis hFloat : forall n f, P (VFloat n f).
Hypothesis hStr : forall s, P (VStr s).
Hypothesis hSE : forall c s, P (VStrEnum c s).
Hypothesis hE : forall c s, P (VEnum c s).
Hypothesis hNI : forall b z, P (VNpInt b z).
Hypothesis hC : forall b x y, P (VComplex b x y).
Hypothesis hO : forall t r, P (VOpaque t r).
Hypothesis hA : forall l, Forall P l -> P (VArr l).
Hypothesis hT : forall c, P (VType c).
Hypothesis hL : forall l, Forall P l -> P (VList l).
Hypothesis hTu : forall l, Forall P l -> P (VTuple l).
Hypothesis hD : forall d, Forall (fun p => P (fst p) /\ P (snd p)) d -> P (VDict d).
Hypothesis hOb : forall c a, Forall (fun p => P (snd p)) a -> P (VObj c a).
Fixpoint val_ind' (v : val) : P v :=
  let fl := fix fl (l : list val) : Forall P l := match l with [] => Forall_nil _ | x :: r => Forall_cons _ (val_ind' x) (fl r) end in
  match v with
  | VNone => hNone | VBool b => hBool b | VInt z => hInt z | VFloat n f => hFloat n f | VStr s => hStr s
  | VStrEnum c s => hSE c s | VEnum c s => hE c s | VNpInt b z => hNI b z | VComplex b x y => hC b x y
  | VOpaque t r => hO t r | VArr l => hA l (fl l) | VType c => hT c | VList l => hL l (fl l) | VTuple l => hTu l (fl l)
  | VDict d => hD d ((fix fd (l : list (val * val)) : Forall (fun p => P (fst p) /\ P (snd p)) l :=
                        match l with [] => Forall_nil _ | p :: r => Forall_cons _ (conj (val_ind' (fst p)) (val_ind' (snd p))) (fd r) end) d)
  | VObj c a => hOb c a ((fix fa (l : list (string * val)) : Forall (fun p => P (snd p)) l :=
                        match l with [] => Forall_nil _ | p :: r => Forall_cons _ (val_ind' (snd p)) (fa r) end) a)
  end.
End Ind.

Lemma Allp_Forall {A} (P : A -> Prop) l : Allp P l <-> Forall P l.
Proof. induction l as [|x l IH]; cbn; split; intros h; [constructor|exact I|constructor; [apply h|apply IH, h]|inversion h; subst; split; [assumption|now apply IH]]. Qed.
Lemma Allp_in {A} (P : A -> Prop) l x : Allp P l -> In x l -> P x.
Proof. rewrite Allp_Forall, Forall_forall. auto. Qed.

Lemma mapR_mapM {A B} (f : A -> result B) l : mapR f l = mapM f l.
Proof. induction l as [|x l IH]; cbn; [reflexivity|]. destruct (f x); cbn; [|reflexivity]. now rewrite IH. Qed.
Lemma mapR_forall2 {A B} (f : A -> result B) l l' : Forall2 (fun x y => f x = Ok y) l l' -> mapR f l = Ok l'.
Proof. induction 1 as [|x y l l' e _ IH]; [reflexivity|]. cbn. rewrite e. cbn. rewrite IH. reflexivity. Qed.
Lemma mapM_forall2 {A B} (f : A -> result B) l l' : Forall2 (fun x y => f x = Ok y) l l' -> mapM f l = Ok l'.
Proof. rewrite <- mapR_mapM. apply mapR_forall2. Qed.
Lemma forall2_map_r {A B} (R : A -> B -> Prop) (f : A -> B) l : Forall (fun x => R x (f x)) l -> Forall2 R l (map f l).
Proof. induction 1; constructor; auto. Qed.

(** ** Keys *)
Lemma key_str s t : key_eqb (VStr s) (VStr t) = (s =? t)%string.
Proof. reflexivity. Qed.
Lemma dget_str k d : dget (VStr k) (map (fun p => (VStr (fst p), snd p)) d) = aget k d.
Proof. induction d as [|[k' v] d IH]; [reflexivity|]. cbn [map dget aget fst snd]. rewrite key_str. destruct (_ =? _)%string; auto. Qed.
Lemma text_key k s t : text k = Some s -> key_eqb k (VStr t) = (s =? t)%string.
Proof. destruct k; cbn; intros h; inversion h; subst; reflexivity. Qed.
Lemma dput_map k v d : dput (VStr k) v (map (fun p => (VStr (fst p), snd p)) d) = map (fun p => (VStr (fst p), snd p)) (aput k v d).
Proof. induction d as [|[k' v'] d IH]; [reflexivity|]. cbn [map dput aput fst snd]. rewrite key_str. destruct (_ =? _)%string; cbn; [reflexivity|]. now rewrite IH. Qed.

Lemma dput_fresh k v d : Forall (fun p => key_eqb (fst p) k = false) d -> dput k v d = d ++ [(k, v)].
Proof. induction 1 as [|[k' v'] d h _ IH]; [reflexivity|]. cbn in *. now rewrite h, IH. Qed.
Lemma dict_of_app d : forall acc, distinct_keys (acc ++ d) -> fold_left (fun d p => dput (fst p) (snd p) d) d acc = acc ++ d.
Proof. induction d as [|[k v] d IH]; intros acc h; [now rewrite app_nil_r|]. cbn. rewrite dput_fresh.
  - rewrite IH; rewrite <- app_assoc; [reflexivity|exact h].
  - clear IH. induction acc as [|p acc IH2]; [constructor|]. cbn in h. destruct h as [h1 h2]. constructor; [|now apply IH2].
    refine (Allp_in _ _ (k, v) h1 _). apply in_or_app. right. now left. Qed.
Lemma dict_of_distinct d : distinct_keys d -> dict_of d = d.
Proof. intros h. exact (dict_of_app d [] h). Qed.
Lemma distinct_str (d : list (val * val)) ks : map (fun p => text (fst p)) d = map Some ks -> NoDup ks -> distinct_keys d.
Proof. revert ks. induction d as [|[k v] d IH]; intros ks e n; [exact I|]. destruct ks as [|s ks]; [discriminate|]. cbn in e. injection e as e1 e2. inversion n; subst. split; [|now apply (IH ks)].
  apply Allp_Forall. apply Forall_forall. intros [k' v'] hi. cbn. assert (h : In (text k') (map Some ks)) by (rewrite <- e2; exact (in_map (fun p => text (fst p)) _ _ hi)). apply in_map_iff in h as (t & et & ht).
  assert (hst : s <> t) by (intros ->; contradiction).
  destruct k, k'; cbn in e1, et; inversion e1; inversion et; subst; cbn; apply String.eqb_neq; exact hst. Qed.

Lemma distinct_keys_fst d d' : map fst d = map fst d' -> distinct_keys d -> distinct_keys d'.
Proof. revert d'. induction d as [|[k v] d IH]; intros [|[k' v'] d'] e h; try discriminate; [exact I|]. cbn in e. injection e as -> e2. destruct h as [h1 h2]. split; [|now apply IH].
  clear IH h2. revert d' e2. induction d as [|q d IH]; intros [|q' d'] e2; try discriminate; [exact I|]. cbn in e2. injection e2 as e e2. destruct h1 as [h1 h3]. split; [cbn in *; congruence|now apply IH]. Qed.

(** ** Storing and reading back *)
(** [stored_as], with the dictionary form of the document storing as the document itself. *)
Definition stored (w : world) (v v' : val) : Prop :=
  exists N j, (forall n, (N <= n)%nat -> to_json w n v = Ok j) /\ from_json w j = Ok v' /\ (forall n, (N <= n)%nat -> encode w n (plain j) = Ok j).
Lemma stored_stored_as w v v' : stored w v v' -> stored_as w v v'.
Proof. intros (N & j & h1 & h2 & _). now exists N, j. Qed.
Section W.
Variable w : world.
Notation RT := (stored w).

Lemma rt_atom v j v' : (forall n, encode w (S n) v = Ok j) -> decode w j = Ok v' -> (forall n, encode w (S n) (plain j) = Ok j) -> RT v v'.
Proof. intros h1 h2 h3. exists 1%nat, j. split; [|split; [exact h2|]]; intros [|n] hn; try lia; [apply h1|apply h3]. Qed.
Lemma rt_none : RT VNone VNone. Proof. now apply (rt_atom _ JNull). Qed.
Lemma rt_bool b : RT (VBool b) (VBool b). Proof. now apply (rt_atom _ (JBool b)). Qed.
Lemma rt_int z : RT (VInt z) (VInt z). Proof. now apply (rt_atom _ (JInt z)). Qed.
Lemma rt_str s : RT (VStr s) (VStr s). Proof. now apply (rt_atom _ (JStr s)). Qed.
Lemma rt_strenum c s : RT (VStrEnum c s) (VStr s). Proof. now apply (rt_atom _ (JStr s)). Qed.
Lemma rt_float n f : RT (VFloat n f) (restore w (VFloat n f)). Proof. apply (rt_atom _ (JFloat (anon f))); try reflexivity. intros k. cbn. destruct f; reflexivity. Qed.

Lemma rt_all l l' : Forall2 RT l l' -> exists N js, (forall n, (N <= n)%nat -> mapR (encode w n) l = Ok js) /\ mapR (decode w) js = Ok l' /\ (forall n, (N <= n)%nat -> mapR (encode w n) (map plain js) = Ok js).
Proof. induction 1 as [|x y l l' (N & j & h1 & h2 & h5) _ (N' & js & h3 & h4 & h6)]; [exists 0%nat, []; repeat split; auto|].
  exists (Nat.max N N'), (j :: js). split; [|split].
  - intros n hn. cbn. unfold to_json in h1. rewrite h1 by lia. cbn. rewrite h3 by lia. reflexivity.
  - cbn. unfold from_json in h2. rewrite h2. cbn. rewrite h4. reflexivity.
  - intros n hn. cbn. rewrite h5 by lia. cbn. rewrite h6 by lia. reflexivity. Qed.
Lemma rt_list l l' : Forall2 RT l l' -> RT (VList l) (VList l').
Proof. intros h. destruct (rt_all _ _ h) as (N & js & h1 & h2 & h3). exists (S N), (JArr js). split; [|split].
  - intros [|n] hn; [lia|]. cbn. rewrite h1 by lia. reflexivity.
  - cbn. now rewrite h2.
  - intros [|n] hn; [lia|]. cbn. rewrite h3 by lia. reflexivity. Qed.
Lemma rt_tuple l l' : Forall2 RT l l' -> RT (VTuple l) (VList l').
Proof. intros h. destruct (rt_list _ _ h) as (N & j & h1 & h2). exists N, j. split; [|exact h2]. intros n hn. rewrite <- (h1 n hn). destruct n; reflexivity. Qed.
Lemma rt_default v x : (forall n, encode w (S n) v = encode w n (default w v)) -> RT (default w v) x -> RT v x.
Proof. intros e (N & j & h1 & h2 & h3). exists (S N), j. split; [|split; [exact h2|intros n hn; apply h3; lia]]. intros [|n] hn; [lia|]. unfold to_json. rewrite e. apply h1. lia. Qed.
Lemma rt_try v o x : (forall n, encode w (S n) v = encode w n (default w v)) -> default_try w v = Ok o -> RT o x -> RT v x.
Proof. intros e t h. apply rt_default; [exact e|]. unfold default. now rewrite t. Qed.

(** A dictionary with string keys: its values are stored one by one; then the decoder's hook is applied. *)
Definition entry (p : val * val) (q : val * val) : Prop := exists s, text (fst p) = Some s /\ fst q = VStr s /\ RT (snd p) (snd q).
Lemma rt_dict d d' x : Forall2 entry d d' -> distinct_keys d' -> decode_dict w d' = Ok x -> RT (VDict d) x.
Proof. intros h hd hx.
  assert (H : exists N js, (forall n, (N <= n)%nat -> mapR (fun p => do k <- json_key w (fst p); do j <- encode w n (snd p); Ok (k, j)) d = Ok js)
             /\ mapR (fun p => do x <- decode w (snd p); Ok (VStr (fst p), x)) js = Ok d'
             /\ (forall n, (N <= n)%nat -> mapR (fun p => do k <- json_key w (fst p); do j <- encode w n (snd p); Ok (k, j)) (map (fun p => (VStr (fst p), plain (snd p))) js) = Ok js)
             /\ map fst d' = map fst (map (fun p => (VStr (fst p), plain (snd p))) js)).
  { clear hd hx. induction h as [|[k v] [k' v'] d d' (s & e1 & e2 & N & j & h1 & h2 & h5) _ (N' & js & h3 & h4 & h6 & h7)]; [exists 0%nat, []; repeat split; auto|].
    exists (Nat.max N N'), ((s, j) :: js). cbn in *. subst k'. split; [|split; [|split]].
    - intros n hn. assert (ek : json_key w k = Ok s) by (destruct k; cbn in e1 |- *; inversion e1; reflexivity). rewrite ek. cbn. unfold to_json in h1. rewrite h1 by lia. cbn. rewrite h3 by lia. reflexivity.
    - unfold from_json in h2. rewrite h2. cbn. rewrite h4. reflexivity.
    - intros n hn. rewrite h5 by lia. cbn. rewrite h6 by lia. reflexivity.
    - now rewrite h7. }
  destruct H as (N & js & h1 & h2 & h3 & h4). exists (S N), (JObj js). split; [|split].
  - intros [|n] hn; [lia|]. cbn. rewrite h1 by lia. reflexivity.
  - cbn. rewrite h2. cbn. rewrite dict_of_distinct by exact hd. exact hx.
  - intros [|n] hn; [lia|]. cbn [plain]. rewrite dict_of_distinct by (exact (distinct_keys_fst _ _ h4 hd)). cbn. rewrite h3 by lia. reflexivity. Qed.

Lemma entry_str s v v' : RT v v' -> entry (VStr s, v) (VStr s, v').
Proof. intros h. exists s. cbn. auto. Qed.

(** A dictionary the hook leaves alone. *)
Lemma dget_absent k d : ~ In (Some k) (map (fun p => text (fst p)) d) -> Forall (fun p => exists s, text (fst p) = Some s) d -> dget (VStr k) d = None.
Proof. induction d as [|[k' v] d IH]; intros h f; [reflexivity|]. inversion f; subst. destruct H1 as [s e]. cbn in e, h |- *. rewrite (text_key _ _ _ e). destruct (String.eqb_spec s k) as [->|]; [exfalso; apply h; left; exact e|]. apply IH; [intros hi; apply h; now right|assumption]. Qed.

End W.
