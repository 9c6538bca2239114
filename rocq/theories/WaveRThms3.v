(** C68, soft_square: a square smoothed with a Hann window of half its length. *)
From Verif Require Import Base WaveRModel WaveRThms.
From Coq Require Import Reals List Lra Lia.
Import ListNotations.
Local Open Scope R_scope.
Local Notation length := List.length.

Lemma sumr_nonneg : forall l, (forall x, In x l -> 0 <= x) -> 0 <= sumr l.
Proof. induction l as [|x l IH]; intros H; cbn; [lra|]. assert (0 <= x) by (apply H; now left). assert (0 <= sumr l) by (apply IH; intros; apply H; now right). unfold sumr in *. lra. Qed.
Lemma sumr_pos : forall l x, (forall x, In x l -> 0 <= x) -> In x l -> 0 < x -> 0 < sumr l.
Proof.
  induction l as [|y l IH]; intros x H I P; [destruct I|]. cbn. assert (0 <= y) by (apply H; now left). assert (0 <= sumr l) by (apply sumr_nonneg; intros; apply H; now right).
  unfold sumr in *. destruct I as [->|I]; [lra|]. specialize (IH x (fun z Hz => H z (or_intror Hz)) I P). lra.
Qed.
Lemma sumr_scale : forall T (f : T -> R) a l, sumr (map (fun x => a * f x) l) = a * sumr (map f l).
Proof. induction l as [|x l IH]; cbn; [ring|]. unfold sumr in *. rewrite IH. ring. Qed.
Lemma sumr_le : forall T (f g : T -> R) l, (forall x, In x l -> f x <= g x) -> sumr (map f l) <= sumr (map g l).
Proof. induction l as [|x l IH]; intros H; cbn; [lra|]. assert (f x <= g x) by (apply H; now left). assert (sumr (map f l) <= sumr (map g l)) by (apply IH; intros; apply H; now right). unfold sumr in *. lra. Qed.
Lemma map_nth_seq : forall (w : list R), map (fun j => nth j w 0) (seq 0 (length w)) = w.
Proof.
  intros w. apply (nth_ext _ _ 0 0); [now rewrite map_length, seq_length|]. intros k L. rewrite map_length, seq_length in L. rewrite (nth_map' _ 0%nat) by now rewrite seq_length. now rewrite seq_nth by exact L.
Qed.

Lemma hann_length : forall m, length (hann m) = m.
Proof. intros m. unfold hann. destruct (Nat.eqb_spec m 1) as [->|]; [reflexivity|]. now rewrite map_length, seq_length. Qed.
Lemma hann_nonneg : forall m x, In x (hann m) -> 0 <= x.
Proof.
  intros m x H. unfold hann in H. destruct (Nat.eqb m 1); [destruct H as [<-|[]]; lra|]. apply in_map_iff in H. destruct H as [n [<- _]]. destruct (COS_bound (2 * PI * INR n / INR (m - 1))). lra.
Qed.
Lemma hann_sum : forall m, (3 <= m)%nat -> 0 < sumr (hann m).
Proof.
  intros m L. assert (E : Nat.eqb m 1 = false) by (apply Nat.eqb_neq; lia).
  apply (sumr_pos _ (1 / 2 - 1 / 2 * cos (2 * PI * INR 1 / INR (m - 1)))); [apply hann_nonneg| |].
  - unfold hann. rewrite E. apply (in_map (fun n => 1 / 2 - 1 / 2 * cos (2 * PI * INR n / INR (m - 1)))). apply in_seq. lia.
  - replace (2 * PI * INR 1 / INR (m - 1)) with (2 * (PI / INR (m - 1))) by (cbn [INR]; unfold Rdiv; ring).
    rewrite cos_2a_sin. assert (P : 2 <= INR (m - 1)) by (change 2 with (INR 2); apply le_INR; lia).
    assert (0 < PI / INR (m - 1)) by (apply Rdiv_lt_0_compat; [apply PI_RGT_0|lra]).
    assert (PI / INR (m - 1) < PI). { assert (Q := PI_RGT_0). apply (Rmult_lt_reg_r (INR (m - 1))); [lra|]. unfold Rdiv. rewrite Rmult_assoc, Rinv_l by lra. assert (PI * 2 <= PI * INR (m - 1)) by (apply Rmult_le_compat_l; lra). lra. }
    assert (S0 : 0 < sin (PI / INR (m - 1))) by (apply sin_gt_0; assumption). assert (0 < sin (PI / INR (m - 1)) * sin (PI / INR (m - 1))) by (apply Rmult_lt_0_compat; assumption). lra.
Qed.
Lemma hann_sum_1 : sumr (hann 1) = 1.
Proof. cbn. ring. Qed.
Lemma hann_sum_2 : sumr (hann 2) = 0.
Proof.
  unfold hann. cbn [Nat.eqb seq map sumr fold_right Nat.sub INR]. replace (2 * PI * 0 / 1) with 0 by field. replace (2 * PI * 1 / 1) with (2 * PI) by field. rewrite cos_0, cos_2PI. lra.
Qed.
(** The part of the window that overlaps the square for sample i *)
Definition overlap (n : nat) (w : list R) (i : nat) : R := sumr (map (fun j => if Nat.leb j (i + Nat.div (length w - 1) 2) && Nat.ltb (i + Nat.div (length w - 1) 2 - j) n then nth j w 0 else 0) (seq 0 (length w))).
Lemma soft_ok : forall n amp, (2 <= n)%nat -> n <> 4%nat -> n <> 5%nat -> 0 < sumr (hann (n / 2)) /\ soft_square n amp = Ok (map (fun i => amp * (overlap n (hann (n / 2)) i / sumr (hann (n / 2)))) (seq 0 n)).
Proof.
  intros n amp L N4 N5. assert (P : 0 < sumr (hann (n / 2))).
  { destruct (Nat.le_gt_cases 6 n) as [G|G].
    - apply hann_sum. apply Nat.div_le_lower_bound; lia.
    - assert (n = 2 \/ n = 3)%nat as [-> | ->] by lia; [change (2 / 2)%nat with 1%nat|change (3 / 2)%nat with 1%nat]; rewrite hann_sum_1; lra. }
  split; [exact P|]. unfold soft_square. replace (Nat.ltb 1 n) with true by (symmetry; apply Nat.ltb_lt; lia).
  destruct (Req_EM_T (sumr (hann (n / 2))) 0) as [E|_]; [rewrite E in P; lra|]. f_equal. unfold convolve_same. rewrite map_map. apply map_ext. intros i. unfold overlap.
  rewrite (map_ext _ (fun j => amp * (if Nat.leb j (i + Nat.div (length (hann (n / 2)) - 1) 2) && Nat.ltb (i + Nat.div (length (hann (n / 2)) - 1) 2 - j) n then nth j (hann (n / 2)) 0 else 0))).
  - rewrite sumr_scale. unfold Rdiv. ring.
  - intros j. destruct (_ && _)%bool; ring.
Qed.
(** The pulse has as many samples as there are times, each is a fraction of the amplitude, and away from both edges by half a window (a quarter of the pulse) it is the amplitude itself. *)
Theorem C68_soft_square : forall n amp, (2 <= n)%nat -> n <> 4%nat -> n <> 5%nat -> exists w, soft_square n amp = Ok w /\ length w = n /\ forall i, (i < n)%nat ->
  (exists f, 0 <= f <= 1 /\ nth i w 0 = amp * f) /\ ((n / 2 <= 1 + i + (n / 2 - 1) / 2)%nat -> (i + (n / 2 - 1) / 2 < n)%nat -> nth i w 0 = amp).
Proof.
  intros n amp L N4 N5. destruct (soft_ok n amp L N4 N5) as [P E]. eexists. split; [exact E|]. split; [now rewrite map_length, seq_length|]. intros i Li.
  rewrite (nth_map' _ 0%nat) by now rewrite seq_length. rewrite seq_nth by exact Li. cbn [Nat.add]. set (w := hann (n / 2)) in *. 
  assert (B : forall j, 0 <= nth j w 0). { intros j. destruct (Nat.lt_ge_cases j (length w)) as [Lj|Lj]; [apply (hann_nonneg (n / 2)); now apply nth_In|]. rewrite nth_overflow by exact Lj. lra. }
  assert (U : overlap n w i <= sumr w). { rewrite <- (map_nth_seq w) at 2. apply sumr_le. intros j _. destruct (_ && _)%bool; [lra|apply B]. }
  assert (Z : 0 <= overlap n w i). { apply sumr_nonneg. intros x Hx. apply in_map_iff in Hx. destruct Hx as [j [<- _]]. destruct (_ && _)%bool; [apply B|lra]. }
  split.
  - exists (overlap n w i / sumr w). split; [|reflexivity]. split; [apply (Rmult_le_reg_r (sumr w))|apply (Rmult_le_reg_r (sumr w))]; try exact P; unfold Rdiv; rewrite Rmult_assoc, Rinv_l by lra; lra.
  - intros H1 H2. assert (F : overlap n w i = sumr w).
    { rewrite <- (map_nth_seq w) at 2. unfold overlap. f_equal. apply map_ext_in. intros j Hj. apply in_seq in Hj. assert (Lw : length w = (n / 2)%nat) by apply hann_length. rewrite Lw in *.
      replace (Nat.leb j (i + (n / 2 - 1) / 2)) with true by (symmetry; apply Nat.leb_le; lia). replace (Nat.ltb (i + (n / 2 - 1) / 2 - j) n) with true by (symmetry; apply Nat.ltb_lt; lia). reflexivity. }
    rewrite F. unfold Rdiv. rewrite Rinv_r by lra. ring.
Qed.
(** A softened square of four or five samples is 0 / 0: the window of two samples is [0, 0].  No error is raised in the code; its samples are not a number. *)
Theorem C68_soft_square_refuted : forall amp n, n = 4%nat \/ n = 5%nat -> soft_square n amp = Err OtherErr.
Proof.
  intros amp n [-> | ->]; unfold soft_square; cbn [Nat.ltb Nat.leb]; [change (4 / 2)%nat with 2%nat|change (5 / 2)%nat with 2%nat]; destruct (Req_EM_T (sumr (hann 2)) 0) as [_|N]; try reflexivity; exfalso; apply N; apply hann_sum_2.
Qed.
(** At most one sample: no softening. *)
Theorem C68_soft_square_short : forall amp n, (n <= 1)%nat -> soft_square n amp = Ok (repeat amp n).
Proof. intros amp n L. unfold soft_square. replace (Nat.ltb 1 n) with false by (symmetry; apply Nat.ltb_ge; lia). reflexivity. Qed.
(** Six samples: the window is [0, 1, 0], so the square is unchanged in the middle. *)
Example soft_square_6 : exists w, soft_square 6 (1 / 2) = Ok w /\ nth 3 w 0 = 1 / 2.
Proof.
  destruct (C68_soft_square 6 (1 / 2)) as [w [E [_ H]]]; try lia. exists w. split; [exact E|]. destruct (H 3%nat ltac:(lia)) as [_ G]. apply G; vm_compute; lia.
Qed.
