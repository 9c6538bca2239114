(** C67: fine delays of a QTM. *)
From Verif Require Import Base NumericModel NumericProps FineModel FineSpec FineProps AcqSetProps PathProps2.
From Coq Require Import Lqa.
Local Open Scope Q_scope.

Lemma kind_eqb_eq a b : kind_eqb a b = true <-> a = b. Proof. destruct a, b; cbn; split; congruence. Qed.
Lemma neighbours_cons {A} (R : A -> A -> Prop) x l : neighbours R (x :: l) <-> (forall y r, l = y :: r -> R x y) /\ neighbours R l.
Proof.
  unfold neighbours. split.
  - intros H. split; [intros y r ->; exact (H [] x y r eq_refl)|]. intros a u v b ->. exact (H (x :: a) u v b eq_refl).
  - intros [H1 H2] a u v b E. destruct a as [|w a]; cbn [app] in E; injection E as -> E; [exact (H1 v b E)|exact (H2 a u v b E)].
Qed.
Lemma neighbours_nil {A} (R : A -> A -> Prop) : neighbours R []. Proof. intros a x y b E. destruct a; discriminate. Qed.
Lemma neighbours_impl {A} (R R' : A -> A -> Prop) l : (forall x y, R x y -> R' x y) -> neighbours R l -> neighbours R' l. Proof. intros I H a x y b E. apply I. exact (H a x y b E). Qed.

(** what is left to check after an end at [last] *)
Definition rest_ok (last : option op) (l : list Z) : Prop := neighbours apart (match last with Some p => finishes p :: l | None => l end).
Definition last_ps (last : option op) : Z := match last with Some p => end_ps p | None => (- MIN_PS)%Z end.
Definition exact_o (last : option op) : Prop := match last with Some p => exact p | None => True end.
Lemma check_spec : forall l lp la, exactly l -> exact_o lp -> exact_o la -> (forall o, In o l -> 0 <= start o /\ 0 <= fine_start o) ->
  (check_from (last_ps lp) (last_ps la) l = Ok tt <-> rest_ok lp (instants Pulse l) /\ rest_ok la (instants Acq l)).
Proof.
  induction l as [|o l IH]; intros lp la X Xp Xa P.
  - cbn. split; [intros _|reflexivity]. split; unfold rest_ok; [destruct lp|destruct la]; try apply neighbours_nil; rewrite neighbours_cons; (split; [discriminate|apply neighbours_nil]).
  - assert (Xo : exact o) by (apply X; left; reflexivity). destruct (P o (or_introl eq_refl)) as [P1 P2].
    assert (X' : exactly l) by (intros q I; apply X; right; exact I). assert (P' : forall q, In q l -> 0 <= start q /\ 0 <= fine_start q) by (intros q I; apply P; right; exact I).
    assert (HEAD : forall last, exact_o last -> (bad_between (last_ps last) o = false <-> (forall p, last = Some p -> apart (finishes p) (begins o)))).
    { intros [p|] Xl; cbn [last_ps].
      - rewrite (between_spec p o Xl Xo). split; [intros H q E; injection E as <-; exact H|intros H; exact (H p eq_refl)].
      - rewrite (first_spec o Xo P1 P2). split; [discriminate|reflexivity]. }
    assert (STEP : forall last r, rest_ok last (begins o :: finishes o :: r) <-> (forall p, last = Some p -> apart (finishes p) (begins o)) /\ apart (begins o) (finishes o) /\ rest_ok (Some o) r).
    { intros last r. unfold rest_ok. assert (G : neighbours apart (begins o :: finishes o :: r) <-> apart (begins o) (finishes o) /\ neighbours apart (finishes o :: r)).
      { rewrite neighbours_cons. split; intros [H1 H2]; (split; [|exact H2]); [exact (H1 _ _ eq_refl)|intros y s E; injection E as <- <-; exact H1]. }
      destruct last as [p|].
      - rewrite neighbours_cons, G. split; intros [H1 H2]; (split; [|exact H2]); [intros q E; injection E as <-; exact (H1 _ _ eq_refl)|intros y s E; injection E as <- <-; exact (H1 p eq_refl)].
      - rewrite G. split; [intros H; split; [discriminate|exact H]|intros [_ H]; exact H]. }
    cbn [check_from]. unfold instants. cbn [flat_map]. fold (instants Pulse l) (instants Acq l). destruct (knd o) eqn:K; cbn [kind_eqb app].
    + rewrite STEP. specialize (HEAD lp Xp). pose proof (within_spec o Xo) as W. destruct (bad_within o).
      * split; [discriminate|]. intros [[_ [A _]] _]. apply W in A. discriminate.
      * destruct (bad_between (last_ps lp) o).
        -- split; [discriminate|]. intros [[A _] _]. apply HEAD in A. discriminate.
        -- rewrite (IH (Some o) la X' Xo Xa P'). pose proof (proj1 W eq_refl). pose proof (proj1 HEAD eq_refl). tauto.
    + rewrite STEP. specialize (HEAD la Xa). pose proof (within_spec o Xo) as W. destruct (bad_within o).
      * split; [discriminate|]. intros [_ [_ [A _]]]. apply W in A. discriminate.
      * destruct (bad_between (last_ps la) o).
        -- split; [discriminate|]. intros [_ [A _]]. apply HEAD in A. discriminate.
        -- rewrite (IH lp (Some o) X' Xp Xo P'). pose proof (proj1 W eq_refl). pose proof (proj1 HEAD eq_refl). tauto.
    + apply IH; assumption.
Qed.

(** A list is accepted exactly when neighbouring edges of the pulses, and of the acquisitions, are a whole number of ns or at least 7 ns apart. *)
Theorem C67_accepted_iff : forall l, exactly l -> (forall o, In o l -> 0 <= start o /\ 0 <= fine_start o) ->
  (check l = Ok tt <-> neighbours apart (instants Pulse l) /\ neighbours apart (instants Acq l)).
Proof. intros l X P. exact (check_spec l None None X I I P). Qed.

Lemma pairs_of_neighbours : forall l, neighbours apart l -> neighbours Z.le l -> pairs apart l.
Proof.
  intros l H M a x b y c. revert l a x y c H M. induction b as [|z b IH] using rev_ind; intros l a x y c H M E; cbn [app] in E; [exact (H a x y c E)|].
  assert (E1 : l = (a ++ x :: b ++ z :: (y :: c))%list) by (rewrite E, <- app_assoc; reflexivity). pose proof (IH l a x z (y :: c) H M E1) as A. assert (E2 : l = ((a ++ x :: b) ++ z :: y :: c)%list) by (rewrite E1, <- app_assoc; reflexivity).
  pose proof (H _ z y c E2) as B. pose proof (M _ z y c E2) as L2.
  assert (L1 : (x <= z)%Z). { clear - M E1. revert l a x z y c M E1. induction b as [|w b IH] using rev_ind; intros l a x z y c M E1; cbn [app] in E1; [exact (M a x z (y :: c) E1)|].
    assert (F : l = (a ++ x :: b ++ w :: z :: (y :: c))%list) by (rewrite E1, <- app_assoc; reflexivity). pose proof (IH l a x w z (y :: c) M F). assert (G : l = ((a ++ x :: b) ++ w :: z :: (y :: c))%list) by (rewrite F, <- app_assoc; reflexivity). pose proof (M _ w z _ G). lia. }
  destruct A as [[i A]|A]; [|right; lia]. destruct B as [[j B]|B]; [|right; lia]. left. exists (i + j)%Z. lia.
Qed.

(** If the edges come in the order of time, any two edges of a kind are apart. *)
Theorem C67_all_pairs : forall l k, exactly l -> (forall o, In o l -> 0 <= start o /\ 0 <= fine_start o) -> check l = Ok tt -> k <> Other -> neighbours Z.le (instants k l) -> pairs apart (instants k l).
Proof.
  intros l k X P H N M. apply (C67_accepted_iff l X P) in H. apply pairs_of_neighbours; [|exact M]. destruct k; tauto.
Qed.

Lemma to_int_fine x k : to_int x = Ok k -> k = fine x /\ (0 <= k <= 2047)%Z.
Proof.
  unfold to_int. fold (fine x). destruct ((0 <=? fine x)%Z && (fine x <=? MAX_INT)%Z) eqn:E; [|discriminate]. intros H. injection H as <-. split; [reflexivity|]. apply andb_true_iff in E. unfold MAX_INT in E. lia.
Qed.
Lemma executed_cons k o l v : executed k (o :: l) = Ok v <->
  (if kind_eqb (knd o) k then exists is w, instructions o = Ok is /\ executed k l = Ok w /\ v = (map instant is ++ w)%list else executed k l = Ok v).
Proof.
  unfold executed. cbn [filter]. destruct (kind_eqb (knd o) k); [|reflexivity]. cbn [mapM]. split.
  - intros H. binv H iss E. binv E is E1. binv E r E2. injection E as <-. injection H as <-. exists is, (map instant (List.concat r)). split; [exact E1|]. split; [rewrite E2; reflexivity|]. cbn [List.concat]. apply map_app.
  - intros [is [w [E1 [E2 ->]]]]. binv E2 r E. injection E2 as <-. rewrite E1. cbn [bind]. rewrite E. cbn [bind List.concat]. f_equal. apply map_app.
Qed.
(** The pulses are executed at the instants the user wrote, *)
Theorem C67_pulse_instants : forall l v, executed Pulse l = Ok v -> v = instants Pulse l.
Proof.
  induction l as [|o l IH]; intros v H; [injection H as <-; reflexivity|]. apply executed_cons in H. unfold instants. cbn [flat_map]. fold (instants Pulse l). destruct (kind_eqb (knd o) Pulse) eqn:K; [|exact (IH v H)].
  destruct H as [is [w [E1 [E2 ->]]]]. rewrite (IH w E2). apply kind_eqb_eq in K. unfold instructions in E1. rewrite K in E1. binv E1 s S. binv E1 e E. injection E1 as <-. apply to_int_fine in S, E. destruct S as [-> _], E as [-> _]. reflexivity.
Qed.
(** and so any two set_digital instructions are executable, if they come in the order of time. *)
Theorem C67_pulses : forall l v, exactly l -> (forall o, In o l -> 0 <= start o /\ 0 <= fine_start o) -> check l = Ok tt -> executed Pulse l = Ok v -> neighbours Z.le v -> pairs apart v.
Proof.
  intros l v X P H E M. rewrite (C67_pulse_instants l v E) in *. apply C67_all_pairs; auto. discriminate.
Qed.
(** The end of an acquisition is executed 4 ns before the instant the user wrote. *)
Definition early (l : list op) : list Z := flat_map (fun o => if kind_eqb (knd o) Acq then [begins o; (finishes o - 4 * 128)%Z] else []) l.
Theorem C67_acquisition_instants : forall l v, executed Acq l = Ok v -> v = early l.
Proof.
  induction l as [|o l IH]; intros v H; [injection H as <-; reflexivity|]. apply executed_cons in H. unfold early. cbn [flat_map]. fold (early l). destruct (kind_eqb (knd o) Acq) eqn:K; [|exact (IH v H)].
  destruct H as [is [w [E1 [E2 ->]]]]. rewrite (IH w E2). apply kind_eqb_eq in K. unfold instructions in E1. rewrite K in E1. binv E1 s S. binv E1 e E. injection E1 as <-. apply to_int_fine in S, E. destruct S as [-> _], E as [-> _]. cbn [map app]. unfold instant, begins, finishes. cbn [fst snd]. f_equal. f_equal. ring.
Qed.
Lemma early_ok : forall l, neighbours apart (instants Acq l) -> (forall o, In o l -> knd o = Acq -> (128 | finishes o - begins o)%Z \/ (11 * 128 <= finishes o - begins o)%Z) -> neighbours apart (early l) /\
  (forall x r, early l = x :: r -> exists r', instants Acq l = x :: r') .
Proof.
  induction l as [|o l IH]; intros H W; [split; [apply neighbours_nil|discriminate]|]. unfold instants, early in *. cbn [flat_map] in *. fold (instants Acq l) (early l) in *. destruct (kind_eqb (knd o) Acq) eqn:K.
  - cbn [app] in *. rewrite !neighbours_cons in H. destruct H as [H1 [H2 H3]]. destruct (IH H3) as [IH1 IH2]; [intros q I; apply W; right; exact I|]. apply kind_eqb_eq in K. split.
    + rewrite !neighbours_cons. refine (conj _ (conj _ IH1)).
      * intros y r E. injection E as <- _. destruct (W o (or_introl eq_refl) K) as [[j D]|D]; [left; exists (j - 4)%Z; lia|right; lia].
      * intros y r E. destruct (IH2 y r E) as [r' E']. destruct (H2 y r' E') as [[j D]|D]; [left; exists (j + 4)%Z; lia|right; lia].
    + intros x r E. injection E as <- _. eexists. reflexivity.
  - cbn [app] in *. apply IH; [exact H|]. intros q I. apply W. right. exact I.
Qed.
(** Any two acquire_timetags instructions are executable, if no acquisition with different fine delays is shorter than 11 ns. *)
Theorem C67_acquisitions_partial : forall l v, exactly l -> (forall o, In o l -> 0 <= start o /\ 0 <= fine_start o) -> check l = Ok tt -> executed Acq l = Ok v -> neighbours Z.le v ->
  (forall o, In o l -> knd o = Acq -> (128 | finishes o - begins o)%Z \/ (11 * 128 <= finishes o - begins o)%Z) -> pairs apart v.
Proof.
  intros l v X P H E M W. rewrite (C67_acquisition_instants l v E) in *. apply (C67_accepted_iff l X P) in H. apply pairs_of_neighbours; [|exact M]. apply early_ok; [apply H|exact W].
Qed.
