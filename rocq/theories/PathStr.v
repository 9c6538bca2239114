(** Facts about the strings of PathModel. *)
From Verif Require Import Base CircModel PathModel.
From Coq Require Import Ascii.
Open Scope string_scope.
Open Scope list_scope.
Open Scope Z_scope.

Fixpoint absent (c : ascii) (s : string) : Prop := match s with EmptyString => True | String x r => x <> c /\ absent c r end.

Lemma split_app c a b : split_on c (a ++ String c b) = split_on c a ++ split_on c b.
Proof. induction a as [|x a IH]; cbn.
  - now rewrite Ascii.eqb_refl.
  - destruct (Ascii.eqb_spec x c) as [->|n]; [now rewrite IH|].
    change ((a ++ String c b)%string) with (a ++ String c b)%string. rewrite IH. destruct (split_on c a) eqn:D; cbn; auto. destruct a; cbn in D; try discriminate. destruct (Ascii.eqb a c); [discriminate|]. destruct (split_on c a0); discriminate. Qed.
Lemma split_nonempty c s : split_on c s <> [].
Proof. destruct s; cbn; [discriminate|]. destruct (Ascii.eqb a c); [discriminate|]. destruct (split_on c s); discriminate. Qed.
Lemma split_absent c s : absent c s -> split_on c s = [s].
Proof. induction s as [|x s IH]; cbn; auto. intros (n & h). destruct (Ascii.eqb_spec x c); [easy|]. now rewrite (IH h). Qed.
Lemma split_one c s a : split_on c s = [a] -> s = a /\ absent c s.
Proof. revert a; induction s as [|x s IH]; cbn; intros a h; [inversion h; auto|].
  destruct (Ascii.eqb_spec x c); [inversion h as [[h1 h2]]; now destruct (split_nonempty c s)|].
  destruct (split_on c s) eqn:D; [now destruct (split_nonempty c s)|]. injection h as <- ->. destruct (IH _ eq_refl) as (-> & h). auto. Qed.
Lemma split_cons c s a l : split_on c s = a :: l -> absent c a /\ (l = [] /\ s = a \/ exists t, s = (a ++ String c t)%string /\ split_on c t = l).
Proof. revert a; induction s as [|x s IH]; cbn; intros a h; [inversion h; cbn; auto|].
  destruct (Ascii.eqb_spec x c) as [->|n].
  - injection h as <- h. split; [exact I|]. right; exists s; auto.
  - destruct (split_on c s) eqn:D; [now destruct (split_nonempty c s)|]. injection h as <- ->. destruct (IH _ eq_refl) as (h1 & h2). split; [cbn; auto|].
    destruct h2 as [(-> & ->)|(t & -> & h)]; [left; auto|right; exists t; auto]. Qed.
Lemma split_two c s a b : split_on c s = [a; b] -> s = (a ++ String c b)%string /\ absent c a /\ absent c b.
Proof. intros h. apply split_cons in h as (h1 & [(h & _)|(t & -> & h2)]); [discriminate|]. apply split_one in h2 as (-> & h2). auto. Qed.
Lemma split_three c s a b d : split_on c s = [a; b; d] -> s = (a ++ String c (b ++ String c d))%string /\ absent c a /\ absent c b /\ absent c d.
Proof. intros h. apply split_cons in h as (h1 & [(h & _)|(t & -> & h2)]); [discriminate|]. apply split_two in h2 as (-> & h2 & h3). auto. Qed.
Lemma split_three_of c a b d : absent c a -> absent c b -> absent c d -> split_on c (a ++ String c (b ++ String c d)) = [a; b; d].
Proof. intros. rewrite 2!split_app, !split_absent; auto. Qed.
(** a port-clock with exactly one dash determines its port and its clock *)
Lemma key_split port clock x y : split_on "-" (pc_key port clock) = [x; y] -> port = x /\ clock = y /\ absent "-" port /\ absent "-" clock.
Proof. unfold pc_key. change ("-" ++ clock)%string with (String "-" clock). rewrite split_app. intros h.
  destruct (split_on "-" port) as [|a l] eqn:D1; [now destruct (split_nonempty "-" port)|]. destruct (split_on "-" clock) as [|b m] eqn:D2; [now destruct (split_nonempty "-" clock)|].
  destruct l as [|? l]; [|destruct l; discriminate]. cbn in h. injection h as -> -> ->. apply split_one in D1 as (? & ?). apply split_one in D2 as (? & ?). auto. Qed.
Lemma key_inj port clock port' clock' x y : split_on "-" (pc_key port clock) = [x; y] -> pc_key port clock = pc_key port' clock' -> port = port' /\ clock = clock'.
Proof. intros h e. pose proof (key_split _ _ _ _ h) as (-> & -> & _). rewrite e in h. pose proof (key_split _ _ _ _ h) as (-> & -> & _). auto. Qed.
Lemma str_app_inv a b b' : (a ++ b)%string = (a ++ b')%string -> b = b'.
Proof. induction a; cbn; intros h; auto. injection h; auto. Qed.
Lemma key_inj_clock port clock clock' : pc_key port clock = pc_key port clock' -> clock = clock'.
Proof. unfold pc_key. intros h. apply str_app_inv in h. now apply str_app_inv in h. Qed.

Lemma before_last_some s t : before_last s = Some t -> exists a, s = (t ++ "." ++ a)%string /\ absent "." a.
Proof. revert t; induction s as [|x s IH]; cbn; intros t h; [discriminate|].
  destruct (before_last s) eqn:D.
  - injection h as <-. destruct (IH _ eq_refl) as (a & -> & h). now exists a.
  - destruct (Ascii.eqb_spec x "."); [|discriminate]. subst. injection h as <-. exists s. split; [reflexivity|].
    clear IH; revert D; induction s as [|x s IH]; cbn; auto. destruct (before_last s); [discriminate|]. destruct (Ascii.eqb_spec x "."); [discriminate|]. auto. Qed.
Lemma before_last_absent s : absent "." s <-> before_last s = None.
Proof. induction s as [|x s IH]; cbn; [tauto|]. destruct (before_last s); split; try discriminate.
  - intros (_ & h). now apply IH in h.
  - intros (n & h). destruct (Ascii.eqb_spec x "."); [easy|auto].
  - destruct (Ascii.eqb_spec x "."); [discriminate|]. intros _; split; [auto|]. now apply IH. Qed.
Lemma before_last_app t a : absent "." a -> before_last (t ++ "." ++ a) = Some t.
Proof. intros h. apply before_last_absent in h. induction t as [|x t IH]; cbn in *; [now rewrite h|]. now rewrite IH. Qed.

Lemma memb_in x l : memb x l = true <-> In x l.
Proof. unfold memb. rewrite existsb_exists. split; [intros (y & h & e)|intros h; exists x; split; auto; apply String.eqb_refl]. apply String.eqb_eq in e; now subst. Qed.
Lemma memb_not_in x l : memb x l = false <-> ~ In x l.
Proof. rewrite <- memb_in. destruct (memb x l); split; congruence. Qed.
Lemma uniq_in x l : forall seen, In x (uniq seen l) <-> In x l /\ ~ In x seen.
Proof. induction l as [|y l IH]; cbn; intros seen; [tauto|]. destruct (memb y seen) eqn:D.
  - apply memb_in in D. rewrite IH. split; [tauto|]. intros ([->|h] & n); tauto.
  - apply memb_not_in in D. cbn. rewrite IH. cbn. split.
    + intros [->|(h & n)]; tauto.
    + intros ([->|h] & n); [tauto|]. destruct (string_dec y x); [tauto|]. right. tauto. Qed.
Lemma uniq_nodup l : forall seen, NoDup (uniq seen l).
Proof. induction l as [|y l IH]; cbn; intros seen; [constructor|]. destruct (memb y seen); auto. constructor; auto. rewrite uniq_in; cbn; tauto. Qed.
Lemma neighbors_in E n x : In x (neighbors E n) <-> In (n, x) E \/ In (x, n) E.
Proof. unfold neighbors. rewrite uniq_in. split.
  - intros (h & _). apply in_flat_map in h as ((a, b) & h & h'). destruct (String.eqb_spec a n) as [->|]; [destruct h' as [->|[]]; auto|]. destruct (String.eqb_spec b n) as [->|]; [destruct h' as [->|[]]; auto|]. destruct h'.
  - intros h. split; [|easy]. apply in_flat_map. destruct h as [h|h].
    + exists (n, x). rewrite String.eqb_refl. cbn; auto.
    + exists (x, n). split; auto. destruct (String.eqb_spec x n) as [->|]; [cbn; auto|]. rewrite String.eqb_refl. cbn; auto. Qed.
Lemma nodes_in E n : In n (nodes E) <-> exists m, In (n, m) E \/ In (m, n) E.
Proof. unfold nodes. rewrite uniq_in. split.
  - intros (h & _). apply in_flat_map in h as ((a, b) & h & [<-|[<-|[]]]); eauto.
  - intros (m & h). split; [|easy]. apply in_flat_map. destruct h as [h|h]; eexists; (split; [exact h|cbn; auto]). Qed.
Lemma first_part_split s a l : split_on "." s = a :: l -> first_part s = a.
Proof. unfold first_part. now intros ->. Qed.
