(** Building blocks for C44: labels, loops over setpoints. *)
From Coq Require Import Ascii DecimalString DecimalNat Decimal DecimalFacts.
From Verif Require Import Base TimingModel LibModel LibSpec.
Open Scope nat_scope.
Open Scope string_scope.
Open Scope list_scope.

(** ** decimal strings *)
Definition is_digit (c : ascii) : bool := existsb (Ascii.eqb c) (list_ascii_of_string "0123456789").
Arguments is_digit : simpl never.
Fixpoint all_digits (s : string) : bool := match s with EmptyString => true | String c r => is_digit c && all_digits r end.
Fixpoint no_digit (s : string) : bool := match s with EmptyString => true | String c r => negb (is_digit c) && no_digit r end.
Definition stops (s : string) : bool := match s with EmptyString => true | String c _ => negb (is_digit c) end.

Lemma string_of_uint_digits d : all_digits (NilEmpty.string_of_uint d) = true.
Proof. induction d; cbn; auto. Qed.
Lemma dec_digits n : all_digits (dec n) = true.
Proof. unfold dec, NilZero.string_of_uint. destruct (Nat.to_uint n) eqn:E; [reflexivity|..]; apply (string_of_uint_digits (_ u)) || (rewrite <- E; apply string_of_uint_digits). Qed.
Lemma to_uint_nonnil n : Nat.to_uint n <> Nil.
Proof. rewrite <- (DecimalNat.Unsigned.of_to n), DecimalNat.Unsigned.to_of. apply unorm_nonnil. Qed.
Lemma dec_inj n m : dec n = dec m -> n = m.
Proof. unfold dec. intros h. apply (f_equal NilZero.uint_of_string) in h.
  rewrite !NilZero.usu in h by apply to_uint_nonnil. injection h as h. now apply DecimalNat.Unsigned.to_uint_inj. Qed.
Lemma dec_head n : exists c r, dec n = String c r /\ is_digit c = true.
Proof. pose proof (dec_digits n) as h. unfold dec in *. pose proof (to_uint_nonnil n) as g. destruct (Nat.to_uint n) eqn:E; cbn; try (do 2 eexists; split; [reflexivity|reflexivity]). Qed.

Lemma digits_stop a b s t : all_digits a = true -> all_digits b = true -> stops s = true -> stops t = true -> (a ++ s)%string = (b ++ t)%string -> a = b.
Proof. revert b; induction a as [|c a IH]; intros [|c' b] ha hb hs ht e; cbn in *; auto.
  - subst. cbn in hs. apply andb_true_iff in hb as (hb & _). rewrite hb in hs; discriminate.
  - subst. cbn in ht. apply andb_true_iff in ha as (ha & _). rewrite ha in ht; discriminate.
  - injection e as -> e. apply andb_true_iff in ha as (_ & ha). apply andb_true_iff in hb as (_ & hb). f_equal. eauto. Qed.
Lemma label_idx p q i j s t : no_digit p = true -> no_digit q = true -> stops s = true -> stops t = true ->
  (p ++ dec i ++ s)%string = (q ++ dec j ++ t)%string -> i = j.
Proof. revert q; induction p as [|c p IH]; intros [|c' q] hp hq hs ht e; cbn in *.
  - apply dec_inj. apply (digits_stop _ _ s t); auto using dec_digits.
  - destruct (dec_head i) as (d & r & h & g). rewrite h in e. cbn in e. injection e as -> e. apply andb_true_iff in hq as (hq & _). rewrite g in hq; discriminate.
  - destruct (dec_head j) as (d & r & h & g). rewrite h in e. cbn in e. injection e as -> e. apply andb_true_iff in hp as (hp & _). rewrite g in hp; discriminate.
  - injection e as -> e. apply andb_true_iff in hp as (_ & hp). apply andb_true_iff in hq as (_ & hq). eauto. Qed.

(** labels that end in a space and a number *)
Lemma app_s_nil s : (s ++ "")%string = s.
Proof. induction s; cbn; congruence. Qed.
Lemma app_s_assoc a b c : ((a ++ b) ++ c)%string = (a ++ b ++ c)%string.
Proof. induction a; cbn; congruence. Qed.
Fixpoint has_space (s : string) : bool := match s with EmptyString => false | String c r => Ascii.eqb c " " || has_space r end.
Lemma digits_no_space s : all_digits s = true -> has_space s = false.
Proof. induction s as [|c s IH]; cbn; auto. rewrite andb_true_iff. intros (h & g). rewrite IH by auto. destruct (Ascii.eqb_spec c " "); auto. subst; discriminate. Qed.
Lemma last_space p q a b : has_space a = false -> has_space b = false -> (p ++ " " ++ a)%string = (q ++ " " ++ b)%string -> p = q /\ a = b.
Proof. revert q; induction p as [|c p IH]; intros [|c' q] ha hb e; cbn in *.
  - injection e as ->; auto.
  - exfalso. injection e as <- ->. revert ha. clear. induction q; cbn; intros h; auto; try discriminate. apply orb_false_iff in h as (_ & h). auto.
  - exfalso. injection e as -> <-. revert hb. clear. induction p; cbn; intros h; auto; try discriminate. apply orb_false_iff in h as (_ & h). auto.
  - injection e as -> e. apply IH in e as (-> & ->); auto. Qed.
Lemma label_last p q i j : (p ++ " " ++ dec i)%string = (q ++ " " ++ dec j)%string -> p = q /\ i = j.
Proof. intros h. apply last_space in h as (-> & h); auto using digits_no_space, dec_digits. apply dec_inj in h; auto. Qed.

(** ** uuids *)
Definition not_uuid (s : string) : Prop := forallb uuid_char (list_ascii_of_string s) = false.
Lemma not_uuid_neq u s k : Uuids u -> not_uuid s -> s <> u k.
Proof. intros (_ & h) g ->. unfold not_uuid in g. rewrite h in g; discriminate. Qed.

(** ** the builder *)
Definition names (l : list entry) : list string := map e_name l.
Definition ext (s : lsched) (l : list entry) : lsched := {| l_entries := l_entries s ++ l; l_res := l_res s; l_reps := l_reps s |}.
Lemma ext_nil s : ext s [] = s.
Proof. destruct s; unfold ext; cbn; now rewrite app_nil_r. Qed.
Lemma ext_app s a b : ext (ext s a) b = ext s (a ++ b).
Proof. unfold ext; cbn; now rewrite app_assoc. Qed.
Lemma known_false n l : ~ In n l -> known n l = false.
Proof. intros h. destruct (known n l) eqn:E; auto. apply existsb_exists in E as (x & hx & e). apply String.eqb_eq in e; now subst. Qed.
Lemma known_true n l : In n l -> known n l = true.
Proof. intros h. apply existsb_exists. exists n; split; auto. apply String.eqb_refl. Qed.
Definition mk_tc (ref : option string) (pt : option refpt) (rel : Q) : tconstr := {| tc_ref := ref; tc_pt := pt; tc_ptnew := None; tc_rel := rel |}.
Definition name_of (u : nat -> string) (label : option string) (k : nat) : string := match label with Some l => l | None => u k end.
Lemma add_ok u s label o ref pt rel : ~ In (name_of u label (List.length (l_entries s))) (names (l_entries s)) ->
  add u s label o ref pt rel = Ok (ext s [(name_of u label (List.length (l_entries s)), mk_tc ref pt rel, o)], name_of u label (List.length (l_entries s))).
Proof. intros h. unfold add. fold (name_of u label (List.length (l_entries s))). rewrite known_false; auto. Qed.
Lemma nodup_app_l {A} (a b : list A) : NoDup (a ++ b) -> NoDup a.
Proof. induction a; cbn; intros h; [constructor|]. inversion h; subst. constructor; auto. intros i; apply H1; apply in_or_app; auto. Qed.
Lemma nodup_app_mid {A} (a b : list A) x : NoDup (a ++ x :: b) -> ~ In x a.
Proof. intros h i. apply NoDup_remove_2 in h. apply h, in_or_app; auto. Qed.
Lemma add_ok' u s label o ref pt rel rest : NoDup (names (l_entries s ++ (name_of u label (List.length (l_entries s)), mk_tc ref pt rel, o) :: rest)) ->
  add u s label o ref pt rel = Ok (ext s [(name_of u label (List.length (l_entries s)), mk_tc ref pt rel, o)], name_of u label (List.length (l_entries s))).
Proof. intros h. apply add_ok. unfold names in *. rewrite map_app in h. cbn in h. now apply nodup_app_mid in h. Qed.

(** all iterations of a loop over setpoints *)
Fixpoint blocks {A} (blk : nat -> nat -> A -> list entry) (base i : nat) (xs : list A) : list entry :=
  match xs with [] => [] | x :: r => blk base i x ++ blocks blk (base + List.length (blk base i x)) (S i) r end.

Lemma for_enum_blocks {A} (blk : nat -> nat -> A -> list entry) (body : lsched -> nat -> A -> result lsched) xs s :
  (forall s i x, In x xs -> NoDup (names (l_entries s ++ blk (List.length (l_entries s)) i x)) -> body s i x = Ok (ext s (blk (List.length (l_entries s)) i x))) ->
  NoDup (names (l_entries s ++ blocks blk (List.length (l_entries s)) 0 xs)) ->
  for_enum xs s body = Ok (ext s (blocks blk (List.length (l_entries s)) 0 xs)).
Proof. unfold for_enum. generalize 0 as i. revert s; induction xs as [|x xs IH]; intros s i hb h; cbn [List.length seq combine foldM blocks].
  - now rewrite ext_nil.
  - cbn [fst snd]. cbn [blocks] in h. rewrite hb; [|left; auto|].
    + cbn [bind]. rewrite IH; [|intros; apply hb; auto; right; auto|].
      * cbn [ext l_entries]. now rewrite ext_app, app_length.
      * cbn [ext l_entries]. rewrite app_length, <- app_assoc. exact h.
    + unfold names in *. rewrite map_app in *. rewrite map_app, app_assoc in h. now apply nodup_app_l in h. Qed.

Lemma nodup_app_intro {A} (a b : list A) : NoDup a -> NoDup b -> (forall x, In x a -> ~ In x b) -> NoDup (a ++ b).
Proof. induction a; cbn; intros ha hb h; auto. inversion ha; subst. constructor.
  - rewrite in_app_iff. intros [i|i]; [auto|]. now apply (h a); auto.
  - apply IHa; auto. Qed.

(** names in the block of setpoint [i] that starts at position [base] *)
Definition in_block (u : nat -> string) (Lab : nat -> string -> Prop) (base i len : nat) (n : string) : Prop :=
  Lab i n \/ exists k, base <= k < base + len /\ n = u k.
Lemma blocks_names {A} u (Lab : nat -> string -> Prop) (blk : nat -> nat -> A -> list entry) :
  (forall base i x n, In n (names (blk base i x)) -> in_block u Lab base i (List.length (blk base i x)) n) ->
  forall xs base i n, In n (names (blocks blk base i xs)) -> (exists j, i <= j /\ Lab j n) \/ exists k, base <= k /\ n = u k.
Proof. intros h xs; induction xs as [|x xs IH]; cbn; intros base i n g; [easy|].
  unfold names in g. rewrite map_app, in_app_iff in g. destruct g as [g|g].
  - apply h in g as [g|(k & hk & ->)]; [left; exists i; auto|right; exists k; split; [lia|auto]].
  - apply IH in g as [(j & hj & g)|(k & hk & ->)]; [left; exists j; split; [lia|auto]|right; exists k; split; [lia|auto]]. Qed.
Lemma blocks_nodup {A} u (Lab : nat -> string -> Prop) (blk : nat -> nat -> A -> list entry) :
  Uuids u -> (forall i n, Lab i n -> not_uuid n) -> (forall i j n, Lab i n -> Lab j n -> i = j) ->
  (forall base i x, NoDup (names (blk base i x))) ->
  (forall base i x n, In n (names (blk base i x)) -> in_block u Lab base i (List.length (blk base i x)) n) ->
  forall xs base i, NoDup (names (blocks blk base i xs)).
Proof. intros hu hl hi hn hb xs; induction xs as [|x xs IH]; cbn; intros base i; [constructor|].
  unfold names. rewrite map_app. apply nodup_app_intro; [apply hn|apply IH|].
  intros n h g. apply hb in h. apply (blocks_names u Lab _ hb) in g. destruct h as [h|(k & hk & ->)], g as [(j & hj & g)|(k' & hk' & e)].
  - apply (hi _ _ _ h) in g. lia.
  - subst. apply hl in h. now apply (not_uuid_neq u _ k' hu h).
  - apply hl in g. now apply (not_uuid_neq u _ k hu g).
  - apply hu in e. lia. Qed.

Lemma blocks_split {A} (blk : nat -> nat -> A -> list entry) xs : forall base i k x, nth_error xs k = Some x ->
  exists pre post, blocks blk base i xs = pre ++ blk (base + List.length pre) (i + k) x ++ post /\ pre = blocks blk base i (firstn k xs) /\ post = blocks blk (base + List.length pre + List.length (blk (base + List.length pre) (i + k) x)) (S (i + k)) (skipn (S k) xs).
Proof. induction xs as [|y xs IH]; intros base i [|k] x h; try discriminate.
  - injection h as ->. exists [], (blocks blk (base + List.length (blk base i x)) (S i) xs). cbn. rewrite !Nat.add_0_r. auto.
  - cbn in h. destruct (IH (base + List.length (blk base i y)) (S i) k x h) as (pre & post & e & h1 & h2).
    exists (blk base i y ++ pre), post. cbn [blocks firstn skipn]. rewrite app_length, Nat.add_assoc, e. rewrite <- app_assoc.
    replace (S i + k)%nat with (i + S k)%nat in * by lia. rewrite <- h1. auto. Qed.
Lemma blocks_len {A} (blk : nat -> nat -> A -> list entry) B xs : (forall base i x, List.length (blk base i x) = B) -> forall base i, List.length (blocks blk base i xs) = B * List.length xs.
Proof. intros h; induction xs as [|x xs IH]; cbn; intros; [lia|]. rewrite app_length, IH, h. lia. Qed.
