(** Waveform ids. *)
From Verif Require Import Base JsonModel JsonProps2 PathModel PathProps6 LibThms4 ZiModel ZiSpec.
From Coq Require Import Ascii DecimalString.
Local Open Scope string_scope.

Fixpoint lacks (c : ascii) (s : string) : Prop := match s with EmptyString => True | String a r => a <> c /\ lacks c r end.
Lemma lacks_app c x y : lacks c (x ++ y) <-> lacks c x /\ lacks c y.
Proof. induction x as [|a x IH]; cbn [append lacks]; [tauto|]. rewrite IH. tauto. Qed.
(** the last [c] splits a string in one way *)
Lemma last_split c : forall x y f g, lacks c f -> lacks c g -> x ++ String c f = y ++ String c g -> x = y /\ f = g.
Proof. induction x as [|a x IH]; intros [|b y] f g hf hg h; cbn [append] in h.
  - injection h as h. auto.
  - injection h as -> h. exfalso. rewrite h, lacks_app in hf. cbn in hf. tauto.
  - injection h as -> h. exfalso. rewrite <- h, lacks_app in hg. cbn in hg. tauto.
  - injection h as -> h. destruct (IH y f g hf hg h) as [-> ->]. auto. Qed.
Definition digit_like (c : ascii) : Prop := In c ["0"; "1"; "2"; "3"; "4"; "5"; "6"; "7"; "8"; "9"; "-"]%char.
Lemma lacks_uint c u : ~ digit_like c -> lacks c (NilEmpty.string_of_uint u).
Proof. unfold digit_like. intros h. induction u; cbn [NilEmpty.string_of_uint lacks]; [exact I|..]; (split; [intros e; apply h; subst c; cbn; tauto|assumption]). Qed.
Lemma lacks_dec c z : ~ digit_like c -> lacks c (dec_Z z).
Proof. intros h. assert (Z0 : forall u, lacks c (NilZero.string_of_uint u)) by (intros u; destruct u; try apply lacks_uint; auto; cbn; split; [intros e; apply h; subst c; unfold digit_like; cbn; tauto|exact I]). unfold dec_Z, NilZero.string_of_int. destruct (Z.to_int z); [apply Z0|]. cbn [lacks]. split; [|apply Z0]. intros e. apply h. subst c. unfold digit_like. cbn. tauto. Qed.
Lemma dec_inj a b : dec_Z a = dec_Z b -> a = b.
Proof. intros h. pose proof (dec_round a) as ha. rewrite h, dec_round in ha. congruence. Qed.
Lemma str_assoc (a b c : string) : (a ++ b) ++ c = a ++ b ++ c.
Proof. induction a; cbn [append]; congruence. Qed.
Lemma app_split : forall a b c d : string, a ++ b = c ++ d -> (exists m, c = a ++ m /\ b = m ++ d) \/ (exists m, a = c ++ m /\ d = m ++ b).
Proof. induction a as [|x a IH]; intros b c d h; cbn [append] in h.
  - left. exists c. auto.
  - destruct c as [|y c]; cbn [append] in h; [right; exists (String x a); auto|]. injection h as -> h. destruct (IH _ _ _ h) as [(m & -> & ->)|(m & -> & ->)]; [left|right]; exists m; auto. Qed.
Definition occurs (pat s : string) : Prop := exists x y, s = x ++ pat ++ y.
Lemma occurs_app pat a b : occurs pat a -> occurs pat (a ++ b).
Proof. intros (x & y & ->). exists x, (y ++ b). now rewrite !str_assoc. Qed.
Lemma occurs_app_r pat a b : occurs pat b -> occurs pat (a ++ b).
Proof. intros (x & y & ->). exists (a ++ x), y. now rewrite str_assoc. Qed.
(** a pattern that ends in a character the appended text lacks *)
Lemma occurs_tail p c s t : lacks c t -> occurs (p ++ String c "") (s ++ t) -> occurs (p ++ String c "") s.
Proof. intros hl (x & y & h). rewrite <- str_assoc in h. symmetry in h. destruct (app_split _ _ _ _ h) as [(m & -> & _)|(m & h1 & ->)].
  - exists x, m. now rewrite str_assoc.
  - destruct m as [|a m].
    + exists x, "". rewrite <- str_assoc. assert (E : forall u, u ++ "" = u) by (induction u; cbn [append]; congruence). rewrite !E in *. congruence.
    + exfalso. rewrite <- str_assoc in h1. assert (R : exists m', String a m = m' ++ String c ""). { clear -h1. destruct (app_split _ _ _ _ h1) as [(z & e1 & e2)|(z & e1 & e2)]; [|eauto]. destruct z as [|b z]; [exists ""; symmetry; exact e2|]. cbn [append] in e2. injection e2 as _ e2. destruct z; discriminate. }
      destruct R as (m' & R). rewrite R, str_assoc in hl. apply lacks_app in hl. cbn in hl. tauto. Qed.
Lemma cut_spec pat : forall s x y, cut pat s = Some (x, y) -> s = x ++ pat ++ y.
Proof. assert (PRE : forall p s, String.prefix p s = true -> s = p ++ substring (String.length p) (String.length s - String.length p) s).
  { induction p as [|a p IH]; intros s h. - cbn [append String.length]. rewrite Nat.sub_0_r. clear h. induction s as [|b s IHs]; cbn [String.length substring]; [reflexivity|]. f_equal. exact IHs. - destruct s as [|b s]; cbn [String.prefix] in h; [discriminate|]. destruct (ascii_dec a b) as [->|]; [|discriminate]. cbn [append String.length substring Nat.sub]. f_equal. apply IH, h. }
  induction s as [|a s IH]; intros x y h; unfold cut in h; fold cut in h.
  - destruct (String.prefix pat "") eqn:e; [|discriminate]. injection h as <- <-. cbn [append]. apply PRE, e.
  - destruct (String.prefix pat (String a s)) eqn:e; [injection h as <- <-; cbn [append]; apply PRE, e|]. destruct (cut pat s) as [[x' y']|] eqn:ec; [|discriminate]. injection h as <- <-. cbn [append]. f_equal. apply IH. reflexivity. Qed.
Lemma sub_greedy_absent pat pat' c by_ s : ~ occurs pat s -> (forall t, occurs pat' t -> occurs pat t) -> sub_greedy pat' c by_ s = s.
Proof. intros h hp. unfold sub_greedy. destruct (cut pat' s) as [[x y]|] eqn:e; [|reflexivity]. exfalso. apply h, hp. apply cut_spec in e. subst s. exists x, y. reflexivity. Qed.
Lemma sub_greedy_keeps pat pat' c by_ s : occurs pat s -> occurs pat by_ -> occurs pat (sub_greedy pat' c by_ s).
Proof. intros h hb. unfold sub_greedy. destruct (cut pat' s) as [[x y]|]; [|exact h]. destruct (after_last c y); [|exact h]. apply occurs_app_r, occurs_app, hb. Qed.
Definition key := "acq_index=".
Lemma strip_absent s : ~ occurs key s -> strip_acq_index s = s.
Proof. intros h. unfold strip_acq_index. assert (P : forall t, occurs "acq_index=(" t -> occurs key t) by (intros t (x & y & ->); exists x, ("(" ++ y); reflexivity). rewrite (sub_greedy_absent key "acq_index=(" _ _ s h P). rewrite (sub_greedy_absent key "acq_index=" _ _ s h (fun _ q => q)). apply (sub_greedy_absent key "acq_index=" _ _ s h (fun _ q => q)). Qed.
Lemma strip_keeps s : occurs key s -> occurs key (strip_acq_index s).
Proof. intros h. unfold strip_acq_index. apply sub_greedy_keeps; [apply sub_greedy_keeps; [apply sub_greedy_keeps; [exact h|exists "", "(*)"; reflexivity]|exists "", "*,"; reflexivity]|exists "", "*,"; reflexivity]. Qed.

(** equal ids: equal names *)
Lemma lacks_fixed1 c x : ~ digit_like c -> c <> "."%char -> lacks c (fixed1 x).
Proof. intros h1 h2. unfold fixed1. apply lacks_app. split; [now apply lacks_dec|]. apply lacks_app. split; [cbn; split; [congruence|exact I]|now apply lacks_dec]. Qed.
Lemma waveform_id_inj a b x y : waveform_id a x = waveform_id b y -> strip_acq_index a = strip_acq_index b.
Proof. unfold waveform_id. set (fa := match x with Some s => fixed1 (Qabs s) | None => "nan" end). set (fb := match y with Some s => fixed1 (Qabs s) | None => "nan" end).
  assert (LF : forall o : option Q, lacks ":" (match o with Some s => fixed1 (Qabs s) | None => "nan" end)). { intros [s|]; [apply lacks_fixed1; [unfold digit_like; cbn; intuition discriminate|discriminate]|cbn; repeat split; discriminate]. }
  intros h. rewrite <- !str_assoc in h. apply str_cancel in h. rewrite !str_assoc in h.
  assert (E : forall u f : string, u ++ "_sample:" ++ f = (u ++ "_sample") ++ String ":" f) by (intros u f; rewrite str_assoc; reflexivity). rewrite !E in h. apply last_split in h; [|apply LF|apply LF]. destruct h as [h _]. now apply str_cancel in h. Qed.
(** the name of a numbered pulse or acquisition of an operation *)
Definition piece_name (op : string) (n : nat) : string := op ++ "_acq_" ++ dec_Z (Z.of_nat n).
Lemma piece_occurs op n : occurs key (piece_name op n) -> occurs key op.
Proof. unfold piece_name. apply (occurs_tail "acq_index" "="). apply lacks_app. split; [cbn; repeat split; discriminate|apply lacks_dec; unfold digit_like; cbn; intuition discriminate]. Qed.
Lemma piece_name_inj a b m n : piece_name a m = piece_name b n -> a = b /\ m = n.
Proof. unfold piece_name. assert (E : forall u f : string, u ++ "_acq_" ++ f = (u ++ "_acq") ++ String "_" f) by (intros u f; rewrite str_assoc; reflexivity). rewrite !E. intros h. apply last_split in h; [|apply lacks_dec; unfold digit_like; cbn; intuition discriminate|apply lacks_dec; unfold digit_like; cbn; intuition discriminate]. destruct h as [h1 h2]. apply str_cancel in h1. apply dec_inj, Nat2Z.inj in h2. auto. Qed.
Lemma piece_strip_inj a b m n : ~ occurs key a -> strip_acq_index (piece_name a m) = strip_acq_index (piece_name b n) -> a = b /\ m = n.
Proof. intros h e. rewrite (strip_absent (piece_name a m)) in e by (intros q; apply h; eapply piece_occurs; eauto).
  assert (NB : ~ occurs key (piece_name b n)). { intros q. apply strip_keeps in q. rewrite <- e in q. apply h. eapply piece_occurs; eauto. }
  rewrite (strip_absent _ NB) in e. now apply piece_name_inj. Qed.
