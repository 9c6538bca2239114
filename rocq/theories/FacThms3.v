(** C62: dispersive measurements. *)
From Verif Require Import Base DevModel DevSpec DevProps DevProps2 DevConf TimingModel TimingSpec TimingProps FacModel FacSpec FacProps FacThms FacThms2.
Local Open Scope string_scope.

(** one pulse or acquisition *)
Definition single (d : dop) (e : dict) : Prop := exists n, d = DOp n [e] [] \/ d = DOp n [] [e].
Lemma timing_single : forall d e o, single d e -> timing d = Ok o -> exists a b, fl (at_ e "t0") = Ok (Some a) /\ fl (at_ e "duration") = Ok (Some b) /\ o = OLeaf true (a + b) None.
Proof.
  intros d e o [n [-> | ->]] H; cbn in H; apply bindE in H as [l [E H]]; apply bindE in E as [z [E1 E]]; injection E as <-; unfold end_of, time in E1;
    apply bindE in E1 as [a [A E1]]; apply bindE in A as [x [X A]]; (destruct x as [p|]; [|discriminate A]); injection A as <-;
    apply bindE in E1 as [b [B E1]]; apply bindE in B as [y [Y B]]; (destruct y as [q|]; [|discriminate B]); injection B as <-; injection E1 as <-;
    exists p, q; repeat split; auto; injection H as <-; reflexivity.
Qed.
Lemma plays_single : forall d e v dur dl t e' s t0, single d e -> fl (at_ e "t0") = Ok (Some t0) -> (Plays d (OLeaf v dur dl) t e' s <-> e' = e /\ s == t + t0).
Proof.
  intros d e v dur dl t e' s t0 [n H] T. split.
  - intros P. destruct H as [-> | ->]; inversion P; subst; cbn in *; match goal with H : _ \/ False |- _ => destruct H as [<-|[]] end; rewrite T in *; match goal with H : Ok _ = Ok _ |- _ => injection H as <- end; auto.
  - intros [-> E]. destruct H as [-> | ->]; eapply Plays_entry; eauto; cbn; auto.
Qed.
(** operations added with ref_pt "start": all start when the schedule does, and the schedule ends when the last of them does *)
Definition started (l : list dict) (d : dop) (dl : option cval) : Prop :=
  forall o, timing d = Ok o -> exists o' D, determine ASAP o = Ok o' /\ op_dur o' = Some D /\
    op_delay o' = match dl with Some v => match fl v with Ok (Some q) => Some q | _ => None end | None => None end /\
    (forall t e s, Plays d o' t e s <-> exists t0, In e l /\ fl (at_ e "t0") = Ok (Some t0) /\ s == t + t0) /\
    lasts_until D (flat_map (fun e => match fl (at_ e "t0"), fl (at_ e "duration") with Ok (Some a), Ok (Some b) => [a + b] | _, _ => [] end) l) /\ Forall (fun e => exists a b, fl (at_ e "t0") = Ok (Some a) /\ fl (at_ e "duration") = Ok (Some b)) l.
Definition mx (acc t : Q) : Q := if Qlt_bool acc t then t else acc.
Lemma fold_max : forall l a, a <= fold_left mx l a /\ (forall q, In q l -> q <= fold_left mx l a) /\ (fold_left mx l a == a \/ exists q, In q l /\ fold_left mx l a == q).
Proof.
  induction l as [|x l IH]; intros a; cbn [fold_left].
  - repeat split; [apply Qle_refl | intros q [] | left; reflexivity].
  - destruct (IH (mx a x)) as [A [B C]]. assert (a <= mx a x /\ x <= mx a x /\ (mx a x == a \/ mx a x == x)) as [P [Q R]].
    { unfold mx, Qlt_bool. destruct (Qle_bool x a) eqn:E; cbn.
      - apply Qle_bool_iff in E. repeat split; auto; [apply Qle_refl | left; reflexivity].
      - assert (a <= x) by (destruct (Qlt_le_dec x a) as [L|L]; auto; apply Qlt_le_weak, Qle_bool_iff in L; congruence). repeat split; auto; [apply Qle_refl | right; reflexivity]. }
    repeat split.
    + eapply Qle_trans; eauto.
    + intros q [<-|I]; [eapply Qle_trans; eauto | apply B; auto].
    + destruct C as [C|[q [I C]]]; [|right; exists q; split; [right|]; auto]. destruct R as [R|R]; [left; now rewrite C | right; exists x; split; [left; reflexivity | now rewrite C]].
Qed.
Lemma duration_lasts : forall l ends, map (fun s => abs_of s + s_dur s) l = ends -> lasts_until (schedule_duration 1 l) ends.
Proof.
  intros l ends H. unfold schedule_duration, lasts_until. assert (E : forall x, x * inject_Z 1 == x) by (intros; unfold inject_Z; ring). 
  assert (F : fold_left (fun acc s => if Qlt_bool acc (abs_of s + s_dur s) then abs_of s + s_dur s else acc) l 0 = fold_left mx ends 0).
  { subst ends. generalize 0. induction l as [|x l IH]; intros a; cbn; auto. }
  rewrite F. destruct (fold_max ends 0) as [A [B C]]. repeat split.
  - rewrite E. exact A.
  - intros q I. rewrite E. auto.
  - destruct C as [C|[q [I C]]]; [left | right; exists q; split; auto]; now rewrite E.
Qed.
Lemma timing_items : forall d e pt k l r is, single d e ->
  (do o' <- timing d; do q <- time zero; do r' <- (r : result (list item)); Ok (Item (slot k) [{| tc_ref := None; tc_pt := pt; tc_ptnew := None; tc_rel := q |}] None o' :: r')) = Ok is -> l = is ->
  exists a b r', fl (at_ e "t0") = Ok (Some a) /\ fl (at_ e "duration") = Ok (Some b) /\ r = Ok r' /\
    is = Item (slot k) [{| tc_ref := None; tc_pt := pt; tc_ptnew := None; tc_rel := 0 |}] None (OLeaf true (a + b) None) :: r'.
Proof.
  intros d e pt k l r is S1 I _. apply bindE in I as [o1 [O1 I]]. apply bindE in I as [r1 [R1 I]]. cbn in R1. injection R1 as <-. apply bindE in I as [is' [I1 I]]. injection I as <-.
  destruct (timing_single _ _ _ S1 O1) as [a1 [b1 [A1 [B1 ->]]]]. exists a1, b1, is'. auto.
Qed.
Lemma plays_sched : forall dl items dur dl' reps its t e s,
  Plays (DSched dl items) (OSched dur dl' reps its) t e s <-> exists k d pt rel i a, nth_error items k = Some (d, pt, rel) /\ nth_error its k = Some i /\ it_abs i = Some a /\ Plays d (it_op i) (t + a) e s.
Proof. intros. split; [intros H; inversion H; subst; eauto 12 | intros [k [d [pt [rel [i [a [A [B [C D]]]]]]]]]; eapply Plays_item; eauto]. Qed.
Lemma lasts_equiv : forall D l l', Forall2 Qeq l l' -> lasts_until D l -> lasts_until D l'.
Proof.
  intros D l l' F [A [B C]]. repeat split; auto.
  - intros q I. destruct (f2_in_r _ _ _ _ _ _ F I) as [x [I' E]]. rewrite <- E. auto.
  - destruct C as [C|[q [I C]]]; auto. right. destruct (f2_in_l _ _ _ _ _ _ F I) as [x [I' E]]. exists x. split; auto. now rewrite C.
Qed.
Lemma delay_of : forall (dl : option cval) q, match dl with Some v => do q <- time v; Ok (Some q) | None => Ok None end = Ok q ->
  q = match dl with Some v => match fl v with Ok (Some q) => Some q | _ => None end | None => None end.
Proof. intros [v|] q H; [|now injection H]. unfold time in H. destruct (fl v) as [[x|]|]; cbn in H; try discriminate H; now injection H. Qed.
Lemma shift0 : forall t a s, s == t + 0 + a <-> s == t + a.
Proof. intros. rewrite Qplus_0_r. reflexivity. Qed.
Definition part := (dop * dict * Q * Q)%type.
Definition pd (x : part) := fst (fst (fst x)).
Definition pe (x : part) := snd (fst (fst x)).
Definition pa (x : part) := snd (fst x).
Definition pb (x : part) := snd x.
Definition good (x : part) : Prop := single (pd x) (pe x) /\ fl (at_ (pe x) "t0") = Ok (Some (pa x)) /\ fl (at_ (pe x) "duration") = Ok (Some (pb x)).
Lemma nth_maps : forall A B C (f : A -> C) (g : B -> C) l l' k x, map f l = map g l' -> nth_error l k = Some x -> exists y, nth_error l' k = Some y /\ f x = g y.
Proof.
  intros A B C f g l l' k x H K. assert (E : nth_error (map g l') k = Some (f x)) by (rewrite <- H; now apply map_nth_error).
  destruct (nth_error l' k) as [y|] eqn:Y.
  - exists y. split; auto. rewrite (map_nth_error _ _ _ Y) in E. congruence.
  - apply nth_error_None in Y. assert (X : nth_error (map g l') k = None) by (apply nth_error_None; now rewrite map_length). congruence.
Qed.
Lemma finish : forall (qs : list part) (items : list (dop * option refpt * cval)) its ss dl q D tc0, Forall good qs ->
  map (fun x => fst (fst x)) items = map pd qs -> map (fun i => (it_abs i, it_op i)) its = map (fun x => (Some 0, OLeaf true (pa x + pb x) None)) qs ->
  map (fun s => (s_abs s, s_dur s)) ss = map (fun x => (Some 0, pa x + pb x)) qs -> D = schedule_duration 1 ss ->
  (match dl with Some v => do q <- time v; Ok (Some q) | None => Ok None end = Ok q) -> determine ASAP (OSched None q 1 tc0) = Ok (OSched (Some D) q 1 its) ->
  exists o' D, determine ASAP (OSched None q 1 tc0) = Ok o' /\ op_dur o' = Some D /\
    op_delay o' = match dl with Some v => match fl v with Ok (Some q) => Some q | _ => None end | None => None end /\
    (forall t e s, Plays (DSched dl items) o' t e s <-> exists t0, In e (map pe qs) /\ fl (at_ e "t0") = Ok (Some t0) /\ s == t + t0) /\
    lasts_until D (flat_map (fun e => match fl (at_ e "t0"), fl (at_ e "duration") with Ok (Some a), Ok (Some b) => [a + b] | _, _ => [] end) (map pe qs)) /\ Forall (fun e => exists a b, fl (at_ e "t0") = Ok (Some a) /\ fl (at_ e "duration") = Ok (Some b)) (map pe qs).
Proof.
  intros qs items its ss dl q D tc0 F Hi Ht Hs HD Hq H. exists (OSched (Some D) q 1 its), D. split; [exact H|]. split; [reflexivity|]. split; [now apply delay_of|]. split; [|split].
  - intros t e s. rewrite plays_sched. rewrite Forall_forall in F. split.
    + intros [k [d [pt [rel [i [a [K1 [K2 [K3 K4]]]]]]]]]. destruct (nth_maps _ _ _ _ _ _ _ _ _ Hi K1) as [x [X1 X2]]. destruct (nth_maps _ _ _ _ _ _ _ _ _ Ht K2) as [x' [X3 X4]].
      rewrite X1 in X3. injection X3 as <-. cbn in X2. subst d. rewrite K3 in X4. injection X4 as -> X4. rewrite X4 in K4.
      destruct (F x (nth_error_In _ _ X1)) as [G1 [G2 G3]]. apply (plays_single _ _ _ _ _ _ _ _ _ G1 G2) in K4 as [-> K4]. exists (pa x). split; [apply in_map; eapply nth_error_In; eauto|]. split; auto. now apply shift0.
    + intros [t0 [I [T E]]]. apply in_map_iff in I as [x [<- I]]. destruct (In_nth_error _ _ I) as [k K]. destruct (F x I) as [G1 [G2 G3]].
      destruct (nth_maps _ _ _ _ _ _ _ _ _ (eq_sym Hi) K) as [[[d pt] rel] [Y1 Y2]]. destruct (nth_maps _ _ _ _ _ _ _ _ _ (eq_sym Ht) K) as [i [Z1 Z2]]. injection Z2 as Z2 Z3. cbn in Y2. subst d.
      exists k, (pd x), pt, rel, i, 0. repeat split; auto. rewrite <- Z3. apply (plays_single _ _ _ _ _ _ _ _ _ G1 T). split; auto. now apply shift0.
  - subst D. eapply lasts_equiv; [|apply duration_lasts; reflexivity]. clear - F Hs. revert ss Hs. induction qs as [|x qs IH]; intros [|s ss] Hs; try discriminate Hs; [constructor|].
    cbn in Hs. injection Hs as E1 E2 E3. inversion F as [|? ? [G1 [G2 G3]] F']; subst. cbn [map flat_map]. rewrite G2, G3. cbn [app]. constructor; [unfold abs_of; rewrite E1, E2; ring | now apply IH].
  - rewrite Forall_forall in *. intros e I. apply in_map_iff in I as [x [<- I]]. destruct (F x I) as [_ [G2 G3]]. eauto.
Qed.
Fixpoint leaves (k : nat) (l : list (option refpt * Q)) : list item :=
  match l with [] => [] | (pt, x) :: r => Item (slot k) [{| tc_ref := None; tc_pt := pt; tc_ptnew := None; tc_rel := 0 |}] None (OLeaf true x None) :: leaves (S k) r end.
Definition det (l : list (option refpt * Q)) : Prop := forall q, exists its ss, determine ASAP (OSched None q 1 (leaves 0 l)) = Ok (OSched (Some (schedule_duration 1 ss)) q 1 its) /\
  map (fun i => (it_abs i, it_op i)) its = map (fun x => (Some 0, OLeaf true x None)) (map snd l) /\ map (fun s => (s_abs s, s_dur s)) ss = map (fun x => (Some 0, x)) (map snd l).
Ltac det_tac := intros q; eexists _, _; (split; [cbv -[schedule_duration]; reflexivity | split; reflexivity]).
Lemma det2 : forall pt x1 x2, pt = None \/ pt = Some PtStart -> det [(pt, x1); (Some PtStart, x2)].
Proof. intros pt x1 x2 [-> | ->]; det_tac. Qed.
Lemma det3 : forall pt x1 x2 x3, pt = None \/ pt = Some PtStart -> det [(pt, x1); (Some PtStart, x2); (Some PtStart, x3)].
Proof. intros pt x1 x2 x3 [-> | ->]; det_tac. Qed.
Lemma det4 : forall pt x1 x2 x3 x4, pt = None \/ pt = Some PtStart -> det [(pt, x1); (Some PtStart, x2); (Some PtStart, x3); (Some PtStart, x4)].
Proof. intros pt x1 x2 x3 x4 [-> | ->]; det_tac. Qed.
Ltac started_tac := intros o H; cbn [timing] in H; apply bindE in H as [q [Q H]]; apply bindE in H as [is [I H]]; injection H as <-.
Ltac done_tac qs D Q := let its := fresh in let ss := fresh in let E1 := fresh in let E2 := fresh in let E3 := fresh in
  destruct D as [its [ss [E1 [E2 E3]]]]; apply (finish qs _ its ss _ _ (schedule_duration 1 ss));
  [repeat (first [apply Forall_cons | apply Forall_nil]); unfold good; auto | reflexivity | exact E2 | exact E3 | reflexivity | exact Q | exact E1].
Lemma started_2 : forall d1 e1 d2 e2 dl pt, single d1 e1 -> single d2 e2 -> pt = None \/ pt = Some PtStart -> started [e1; e2] (DSched dl [(d1, pt, zero); (d2, Some PtStart, zero)]) dl.
Proof.
  intros d1 e1 d2 e2 dl pt S1 S2 P. started_tac.
  destruct (timing_items _ _ _ _ _ _ _ S1 I eq_refl) as [a1 [b1 [r1 [A1 [B1 [I1 ->]]]]]]. destruct (timing_items _ _ _ _ _ _ _ S2 I1 eq_refl) as [a2 [b2 [r2 [A2 [B2 [I2 ->]]]]]]. injection I2 as <-.
  done_tac ([(d1, e1, a1, b1); (d2, e2, a2, b2)] : list part) (det2 pt (a1 + b1) (a2 + b2) P q) Q.
Qed.
Lemma started_3 : forall d1 e1 d2 e2 d3 e3 dl pt, single d1 e1 -> single d2 e2 -> single d3 e3 -> pt = None \/ pt = Some PtStart ->
  started [e1; e2; e3] (DSched dl [(d1, pt, zero); (d2, Some PtStart, zero); (d3, Some PtStart, zero)]) dl.
Proof.
  intros d1 e1 d2 e2 d3 e3 dl pt S1 S2 S3 P. started_tac.
  destruct (timing_items _ _ _ _ _ _ _ S1 I eq_refl) as [a1 [b1 [r1 [A1 [B1 [I1 ->]]]]]]. destruct (timing_items _ _ _ _ _ _ _ S2 I1 eq_refl) as [a2 [b2 [r2 [A2 [B2 [I2 ->]]]]]].
  destruct (timing_items _ _ _ _ _ _ _ S3 I2 eq_refl) as [a3 [b3 [r3 [A3 [B3 [I3 ->]]]]]]. injection I3 as <-.
  done_tac ([(d1, e1, a1, b1); (d2, e2, a2, b2); (d3, e3, a3, b3)] : list part) (det3 pt (a1 + b1) (a2 + b2) (a3 + b3) P q) Q.
Qed.
Lemma started_4 : forall d1 e1 d2 e2 d3 e3 d4 e4 dl pt, single d1 e1 -> single d2 e2 -> single d3 e3 -> single d4 e4 -> pt = None \/ pt = Some PtStart ->
  started [e1; e2; e3; e4] (DSched dl [(d1, pt, zero); (d2, Some PtStart, zero); (d3, Some PtStart, zero); (d4, Some PtStart, zero)]) dl.
Proof.
  intros d1 e1 d2 e2 d3 e3 d4 e4 dl pt S1 S2 S3 S4 P. started_tac.
  destruct (timing_items _ _ _ _ _ _ _ S1 I eq_refl) as [a1 [b1 [r1 [A1 [B1 [I1 ->]]]]]]. destruct (timing_items _ _ _ _ _ _ _ S2 I1 eq_refl) as [a2 [b2 [r2 [A2 [B2 [I2 ->]]]]]].
  destruct (timing_items _ _ _ _ _ _ _ S3 I2 eq_refl) as [a3 [b3 [r3 [A3 [B3 [I3 ->]]]]]]. destruct (timing_items _ _ _ _ _ _ _ S4 I3 eq_refl) as [a4 [b4 [r4 [A4 [B4 [I4 ->]]]]]]. injection I4 as <-.
  done_tac ([(d1, e1, a1, b1); (d2, e2, a2, b2); (d3, e3, a3, b3); (d4, e4, a4, b4)] : list part) (det4 pt (a1 + b1) (a2 + b2) (a3 + b3) (a4 + b4) P q) Q.
Qed.
