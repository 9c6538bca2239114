From Verif Require Import Base NumericModel NumericProps AcqSetModel AcqSetSpec PathProps2.
Local Open Scope Q_scope.

Lemma bindS {A B} (x : result A) (f : A -> result B) b : bind x f = Ok b <-> exists a, x = Ok a /\ f a = Ok b.
Proof. destruct x; cbn; split; intros H; [eauto|destruct H as [? [E H]]; congruence|discriminate|destruct H as [? [E H]]; discriminate]. Qed.
Tactic Notation "binv" hyp(H) ident(x) ident(E) := apply bindS in H; destruct H as [x [E H]].
Lemma prot_eqb_eq a b : prot_eqb a b = true <-> a = b.
Proof. split; [destruct a, b; cbn; congruence|intros ->; destruct b; reflexivity]. Qed.
Lemma has_spec p l : has p l = true <-> exists a, In a l /\ protocol a = p.
Proof. unfold has. rewrite existsb_exists. setoid_rewrite prot_eqb_eq. reflexivity. Qed.
Lemma has_false p l : has p l = false <-> forall a, In a l -> protocol a <> p.
Proof.
  rewrite <- not_true_iff_false, has_spec. split; [intros H a I E; apply H; eauto|intros H [a [I E]]; exact (H a I E)].
Qed.
Lemma need_spec {A B} (f : A -> option B) : forall l vs, need f l = Ok vs <-> map f l = map Some vs.
Proof.
  unfold need. induction l as [|a l IH]; intros vs; cbn [mapM map].
  - split; [intros H; injection H as <-; reflexivity|destruct vs; [reflexivity|discriminate]].
  - destruct (f a) as [v|] eqn:E; cbn [bind].
    + split.
      * intros H. binv H ws M. injection H as <-. cbn [map]. f_equal. now apply IH.
      * destruct vs as [|w vs]; [discriminate|]. cbn [map]. intros H. injection H as -> H. apply IH in H. rewrite H. reflexivity.
    + split; [discriminate|]. destruct vs as [|w vs]; cbn [map]; discriminate.
Qed.
Lemma the_spec {A B} (eqb : B -> B -> bool) (f : A -> option B) : (forall x y, eqb x y = true <-> x = y) -> forall l v, the eqb f l = Ok v <-> l <> [] /\ forall a, In a l -> f a = Some v.
Proof.
  intros EQ l v. unfold the. rewrite bindS. setoid_rewrite need_spec. split.
  - intros [vs [M U]]. destruct l as [|a l]; destruct vs as [|w vs]; try discriminate. cbn [unique] in U. destruct (forallb (eqb w) vs) eqn:F; [|discriminate]. injection U as ->.
    split; [discriminate|]. cbn [map] in M. injection M as M1 M2. intros b [<-|I]; [exact M1|]. rewrite forallb_forall in F.
    assert (X : In (f b) (map f l)) by (apply in_map; exact I). rewrite M2 in X. apply in_map_iff in X. destruct X as [w [X1 X2]]. apply F, EQ in X2. now subst.
  - intros [N H]. destruct l as [|a l]; [congruence|]. exists (map (fun _ => v) (a :: l)). split.
    + rewrite map_map. apply map_ext_in. exact H.
    + cbn [map unique]. assert (F : forallb (eqb v) (map (fun _ => v) l) = true). { apply forallb_forall. intros x I. apply in_map_iff in I. destruct I as [_ [<- _]]. now apply EQ. } rewrite F. reflexivity.
Qed.
Lemma the_q {A} (f : A -> option Q) l v : the Qeq_bool f l = Ok v -> l <> [] /\ forall a, In a l -> exists w, f a = Some w /\ w == v.
Proof.
  unfold the. rewrite bindS. setoid_rewrite need_spec. intros [vs [M U]]. destruct l as [|a l]; destruct vs as [|w vs]; try discriminate. cbn [unique] in U. destruct (forallb (Qeq_bool w) vs) eqn:F; [|discriminate]. injection U as ->.
  split; [discriminate|]. cbn [map] in M. injection M as M1 M2. intros b [<-|I]; [exists v; split; [exact M1|reflexivity]|]. rewrite forallb_forall in F.
  assert (X : In (f b) (map f l)) by (apply in_map; exact I). rewrite M2 in X. apply in_map_iff in X. destruct X as [w [X1 X2]]. apply F in X2. apply Qeq_bool_eq in X2. exists w. split; [congruence|]. now symmetry.
Qed.
Lemma the_q_ok {A} (f : A -> option Q) l v : l <> [] -> (forall a, In a l -> exists w, f a = Some w /\ w == v) -> exists w, the Qeq_bool f l = Ok w /\ w == v.
Proof.
  intros N H. unfold the. assert (M : exists vs, need f l = Ok vs /\ Forall (fun w => w == v) vs).
  { clear N. induction l as [|a l IH]; [exists []; split; [reflexivity|constructor]|]. destruct (H a (or_introl eq_refl)) as [w [E W]]. destruct IH as [vs [M F]]; [intros b I; apply H; right; exact I|].
    exists (w :: vs). split; [|now constructor]. apply need_spec in M. apply need_spec. cbn [map]. now rewrite E, M. }
  destruct M as [vs [M F]]. rewrite M. cbn [bind]. destruct vs as [|w vs].
  - apply need_spec in M. destruct l; [congruence|discriminate].
  - inversion F as [|? ? W F']; subst. exists w. split; [|exact W]. cbn [unique].
    assert (G : forallb (Qeq_bool w) vs = true). { apply forallb_forall. intros x I. rewrite Forall_forall in F'. apply Qeq_bool_iff. rewrite W. symmetry. auto. } rewrite G. reflexivity.
Qed.
Lemma unique_spec {A} (eqb : A -> A -> bool) : (forall x y, eqb x y = true <-> x = y) -> forall l v, unique eqb l = Ok v <-> l <> [] /\ forall x, In x l -> x = v.
Proof.
  intros EQ [|x l] v; cbn [unique]; [split; [discriminate|intros [H _]; congruence]|]. destruct (forallb (eqb x) l) eqn:F.
  - rewrite forallb_forall in F. split.
    + intros H. injection H as ->. split; [discriminate|]. intros y [<-|I]; [reflexivity|]. apply F, EQ in I. now symmetry.
    + intros [_ H]. f_equal. apply H. left. reflexivity.
  - split; [discriminate|]. intros [_ H]. exfalso. assert (G : forallb (eqb x) l = true). { apply forallb_forall. intros y I. apply EQ. rewrite (H x), (H y); auto; [right; exact I|left; reflexivity]. } congruence.
Qed.
Lemma cond_eqb_eq a b : cond_eqb a b = true <-> a = b. Proof. destruct a, b; cbn; split; congruence. Qed.
Lemma tsource_eqb_eq a b : tsource_eqb a b = true <-> a = b. Proof. destruct a, b; cbn; split; congruence. Qed.
Lemma tref_eqb_eq a b : tref_eqb a b = true <-> a = b. Proof. destruct a, b; cbn; split; congruence. Qed.
Lemma oz_eqb_eq a b : oz_eqb a b = true <-> a = b. Proof. destruct a, b; cbn; rewrite ?Z.eqb_eq; split; congruence. Qed.

Lemma integrates_samples a : integrates a = true <-> samples a.
Proof. unfold integrates, samples. destruct (protocol a); split; intros H; try reflexivity; try discriminate; try tauto; repeat (destruct H as [H|H]; [discriminate|]); discriminate. Qed.
Lemma length_ok : forall l sofar, (exists n, length_of l sofar = Ok n) <->
  (forall a b, In a l -> In b l -> samples a -> samples b -> py_round (duration a) = py_round (duration b)) /\ (forall m a, sofar = Some m -> In a l -> samples a -> py_round (duration a) = m).
Proof.
  induction l as [|a l IH]; intros sofar; cbn [length_of].
  - split; [intros _; split; [intros ? ? []|intros ? ? ? []]|intros _; eexists; reflexivity].
  - destruct (integrates a) eqn:I.
    + apply integrates_samples in I. rewrite Z.mod_1_r. cbn [Z.eqb negb]. destruct sofar as [m|].
      * destruct (Z.eqb m (py_round (duration a))) eqn:E.
        -- apply Z.eqb_eq in E. rewrite IH. split.
           ++ intros [H1 H2]. assert (G : forall b, In b (a :: l) -> samples b -> py_round (duration b) = m) by (intros b [<-|Ib] Sb; [now symmetry|exact (H2 m b eq_refl Ib Sb)]).
              split; [intros x y Ix Iy Sx Sy; rewrite (G x), (G y); auto|]. intros m' x Em. injection Em as <-. apply G.
           ++ intros [H1 H2]. split; [intros; apply H1; auto; right; assumption|]. intros m' x Em Ix. apply (H2 m' x Em). right. exact Ix.
        -- apply Z.eqb_neq in E. split; [intros [n H]; discriminate|]. intros [_ H]. exfalso. apply E. symmetry. apply H; auto. left. reflexivity.
      * rewrite IH. split.
        -- intros [H1 H2]. assert (G : forall b, In b (a :: l) -> samples b -> py_round (duration b) = py_round (duration a)) by (intros b [<-|Ib] Sb; [reflexivity|exact (H2 _ b eq_refl Ib Sb)]).
           split; [intros x y Ix Iy Sx Sy; rewrite (G x), (G y); auto|]. intros m' x Em. discriminate.
        -- intros [H1 _]. split; [intros; apply H1; auto; right; assumption|]. intros m' x Em Ix Sx. injection Em as <-. apply H1; auto; [right; exact Ix|left; reflexivity].
    + assert (N : ~ samples a) by (rewrite <- integrates_samples; congruence). rewrite IH. split; intros [H1 H2]; split.
      * intros x y [<-|Ix] [<-|Iy] Sx Sy; try tauto; try (destruct (N Sx)); try (destruct (N Sy)). auto.
      * intros m x Em [<-|Ix] Sx; [destruct (N Sx)|eauto].
      * intros x y Ix Iy. apply H1; right; assumption.
      * intros m x Em Ix. apply H2; [exact Em|right; exact Ix].
Qed.
Lemma length_val : forall l sofar n, length_of l sofar = Ok n -> (forall a, In a l -> samples a -> n = Some (py_round (duration a))) /\ (forall m, sofar = Some m -> n = Some m) /\ (sofar = None -> (forall a, In a l -> ~ samples a) -> n = None).
Proof.
  induction l as [|a l IH]; intros sofar n H; cbn [length_of] in H.
  - injection H as <-. split; [intros ? []|]. split; auto.
  - destruct (integrates a) eqn:I.
    + apply integrates_samples in I. rewrite Z.mod_1_r in H. cbn [Z.eqb negb] in H. destruct sofar as [m|].
      * destruct (Z.eqb m (py_round (duration a))) eqn:E; [|discriminate]. apply Z.eqb_eq in E. apply IH in H. destruct H as [H1 [H2 H3]]. split; [intros b [<-|Ib] Sb; [rewrite (H2 m eq_refl); congruence|auto]|]. split; [exact H2|discriminate].
      * apply IH in H. destruct H as [H1 [H2 H3]]. split; [intros b [<-|Ib] Sb; [now apply H2|auto]|]. split; [discriminate|]. intros _ N. destruct (N a (or_introl eq_refl) I).
    + apply IH in H. destruct H as [H1 [H2 H3]]. split; [intros b [<-|Ib] Sb; [apply integrates_samples in Sb; congruence|auto]|]. split; [exact H2|]. intros E N. apply H3; [exact E|]. intros b Ib. apply N. right. exact Ib.
Qed.
Lemma validate_ok : forall l seen, (forall a, In a l -> protocol a = ThresholdedTriggerCount -> counts a <> None) ->
  (exists u, validate_counts l seen = Ok u) <->
  (forall a b, In a l -> In b l -> protocol a = ThresholdedTriggerCount -> protocol b = ThresholdedTriggerCount -> channel a = channel b -> counts a = counts b) /\
  (forall a v, In a l -> protocol a = ThresholdedTriggerCount -> find (fun x => Nat.eqb (fst x) (channel a)) seen = Some (channel a, v) -> counts a = Some v).
Proof.
  induction l as [|a l IH]; intros seen B; cbn [validate_counts].
  - split; [intros _; split; [intros ? ? []|intros ? ? []]|intros _; eexists; reflexivity].
  - assert (B' : forall a, In a l -> protocol a = ThresholdedTriggerCount -> counts a <> None) by (intros; apply B; [right; assumption|assumption]).
    destruct (prot_eqb (protocol a) ThresholdedTriggerCount) eqn:P.
    + apply prot_eqb_eq in P. destruct (counts a) as [[t c]|] eqn:C; [|destruct (B a (or_introl eq_refl) P C)].
      assert (STEP : (forall v, find (fun x => Nat.eqb (fst x) (channel a)) seen = Some (channel a, v) -> v = (t, c)) ->
        ((exists u, validate_counts l ((channel a, (t, c)) :: seen) = Ok u) <->
         (forall x b, In x (a :: l) -> In b (a :: l) -> protocol x = ThresholdedTriggerCount -> protocol b = ThresholdedTriggerCount -> channel x = channel b -> counts x = counts b) /\
         (forall x v, In x (a :: l) -> protocol x = ThresholdedTriggerCount -> find (fun y => Nat.eqb (fst y) (channel x)) seen = Some (channel x, v) -> counts x = Some v))).
      { intros SEEN. rewrite (IH _ B'). split.
        - intros [H1 H2]. assert (G : forall b, In b l -> protocol b = ThresholdedTriggerCount -> channel b = channel a -> counts b = Some (t, c)).
          { intros b Ib Pb Eb. apply (H2 b (t, c) Ib Pb). cbn [find fst]. rewrite Eb, Nat.eqb_refl. reflexivity. }
          split.
          + intros x y [<-|Ix] [<-|Iy] Px Py E; auto; [rewrite C; symmetry; apply G; auto|rewrite C; apply G; auto].
          + intros x v [<-|Ix] Px F; [rewrite (SEEN v F); exact C|]. destruct (Nat.eqb (channel a) (channel x)) eqn:E.
            * apply Nat.eqb_eq in E. rewrite <- E in F. rewrite (SEEN v F). apply G; auto.
            * apply (H2 x v Ix Px). cbn [find fst]. rewrite E. exact F.
        - intros [H1 H2]. split.
          + intros x y Ix Iy. apply H1; right; assumption.
          + intros x v Ix Px F. cbn [find fst] in F. destruct (Nat.eqb (channel a) (channel x)) eqn:E.
            * injection F as E2 <-. rewrite <- C. apply H1; auto; [right; exact Ix|left; reflexivity].
            * apply (H2 x v); auto. right. exact Ix. }
      destruct (find (fun x => Nat.eqb (fst x) (channel a)) seen) as [[k [t' c']]|] eqn:F.
      * assert (K : k = channel a) by (apply find_some in F; destruct F as [_ F]; now apply Nat.eqb_eq in F). subst k. destruct (Z.eqb t t' && cond_eqb c c') eqn:E.
        -- apply andb_true_iff in E. destruct E as [E1 E2]. apply Z.eqb_eq in E1. apply cond_eqb_eq in E2. subst. apply STEP. intros v X. injection X as <-. reflexivity.
        -- split; [intros [u H]; discriminate|]. intros [_ H]. exfalso. specialize (H a (t', c') (or_introl eq_refl) P F). rewrite C in H. injection H as -> ->. rewrite Z.eqb_refl in E. destruct c'; discriminate.
      * apply STEP. intros v X. discriminate.
    + assert (N : protocol a <> ThresholdedTriggerCount) by (rewrite <- prot_eqb_eq; congruence). rewrite (IH _ B'). split; intros [H1 H2]; split.
      * intros x y [<-|Ix] [<-|Iy] Px Py; try congruence. auto.
      * intros x v [<-|Ix] Px; [congruence|auto].
      * intros x y Ix Iy. apply H1; right; assumption.
      * intros x v Ix. apply H2. right. exact Ix.
Qed.
