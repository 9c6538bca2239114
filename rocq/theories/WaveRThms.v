(** C68: waveforms with exponentials and cosines. *)
From Verif Require Import Base AcqSetProps WaveRModel.
From Coq Require Import Reals List Lra.
Import ListNotations.
Local Open Scope R_scope.
Local Notation length := List.length.

Definition plus2 (a b : R * R) : R * R := (fst a + fst b, snd a + snd b).
Definition minus2 (a b : R * R) : R * R := (fst a - fst b, snd a - snd b).
Lemma pow2_gt_0 s : s <> 0 -> 0 < s ^ 2.
Proof. intros H. replace (s ^ 2) with (Rsqr s) by (unfold Rsqr; ring). apply Rsqr_pos_lt. exact H. Qed.
(** ** rotation *)
Lemma nth_map' {A B} (f : A -> B) d d' : forall l i, (i < length l)%nat -> nth i (map f l) d' = f (nth i l d).
Proof. induction l as [|x l IH]; intros i H; [cbn in H; lia|]. destruct i; [reflexivity|]. cbn. apply IH. cbn in H. lia. Qed.
(** A rotation keeps the magnitude of every sample and turns it by the phase. *)
Theorem C68_rotate : forall w phase, length (rotate_wave w phase) = length w /\ forall i, (i < length w)%nat ->
  (forall r a, nth i w (0, 0) = (r * cos a, r * sin a) -> nth i (rotate_wave w phase) (0, 0) = (r * cos (a + phase * (PI / 180)), r * sin (a + phase * (PI / 180)))) /\
  Rsqr (fst (nth i (rotate_wave w phase) (0, 0))) + Rsqr (snd (nth i (rotate_wave w phase) (0, 0))) = Rsqr (fst (nth i w (0, 0))) + Rsqr (snd (nth i w (0, 0))).
Proof.
  intros w phase. unfold rotate_wave. split; [apply map_length|]. intros i L. rewrite (nth_map' _ (0, 0)) by exact L. set (b := phase * (PI / 180)). destruct (nth i w (0, 0)) as [x y]. cbn [fst snd]. split.
  - intros r a E. injection E as -> ->. rewrite cos_plus, sin_plus. f_equal; ring.
  - pose proof (sin2_cos2 b) as S. unfold Rsqr in *. assert (X : (cos b * x - sin b * y) * (cos b * x - sin b * y) + (sin b * x + cos b * y) * (sin b * x + cos b * y) = (sin b * sin b + cos b * cos b) * (x * x + y * y)) by ring. rewrite X, S. ring.
Qed.

(** ** chirp *)
(** The frequency (the derivative of the phase) goes linearly from the start to the end frequency, at constant magnitude. *)
Theorem C68_chirp : forall t amp f0 f1 T, T <> 0 -> exists phi, phi 0 = 0 /\ (forall x, derivable_pt_lim phi x (2 * PI * (f0 + (f1 - f0) * (x / T)))) /\
  length (chirp t amp f0 f1 T) = length t /\ forall i, (i < length t)%nat -> nth i (chirp t amp f0 f1 T) (0, 0) = (amp * cos (phi (nth i t 0)), amp * sin (phi (nth i t 0))).
Proof.
  intros t amp f0 f1 T HT. set (c := (f1 - f0) / T). exists (fun x => 2 * PI * (c * x / 2 + f0) * x). split; [ring|]. split.
  - intros x. assert (D : derivable_pt_lim (fun x => (PI * c) * x ^ 2 + (2 * PI * f0) * x) x (PI * c * (INR 2 * x ^ 1) + 2 * PI * f0 * 1)).
    { apply (derivable_pt_lim_plus (fun x => (PI * c) * x ^ 2) (fun x => (2 * PI * f0) * x)); [apply (derivable_pt_lim_scal (fun x => x ^ 2)); apply derivable_pt_lim_pow|apply (derivable_pt_lim_scal (fun x => x)); apply derivable_pt_lim_id]. }
    intros eps He. destruct (D eps He) as [d Hd]. exists d. intros h Hh Hh'. specialize (Hd h Hh Hh'). 
    replace ((2 * PI * (c * (x + h) / 2 + f0) * (x + h) - 2 * PI * (c * x / 2 + f0) * x) / h - 2 * PI * (f0 + (f1 - f0) * (x / T))) with ((PI * c * (x + h) ^ 2 + 2 * PI * f0 * (x + h) - (PI * c * x ^ 2 + 2 * PI * f0 * x)) / h - (PI * c * (INR 2 * x ^ 1) + 2 * PI * f0 * 1)); [exact Hd|]. unfold c. cbn [INR]. field. auto.
  - split; [apply map_length|]. intros i L. unfold chirp. rewrite (nth_map' _ 0) by exact L. fold c. reflexivity.
Qed.

(** ** drag *)
(** The Gaussian is at its amplitude in the middle; the other component is D sigma times its derivative. *)
Theorem C68_drag_shape : forall G D mu sigma, sigma <> 0 ->
  gauss G mu sigma mu = G /\ deriv G D mu sigma mu = 0 /\ (forall x, Rabs (gauss G mu sigma x) <= Rabs G) /\ (forall x, gauss G mu sigma (mu + x) = gauss G mu sigma (mu - x) /\ deriv G D mu sigma (mu + x) = - deriv G D mu sigma (mu - x)) /\
  (forall n, gauss G mu sigma (mu - n * sigma) = G * exp (- (n ^ 2 / 2))) /\
  forall x, exists g', derivable_pt_lim (gauss G mu sigma) x g' /\ deriv G D mu sigma x = D * sigma * g'.
Proof.
  intros G D mu sigma HS. unfold gauss, deriv. refine (conj _ (conj _ (conj _ (conj _ (conj _ _))))).
  - replace (- (1 / 2 * ((mu - mu) ^ 2 / sigma ^ 2))) with 0 by (field; exact HS). rewrite exp_0. ring.
  - unfold gauss. field. exact HS.
  - intros x. rewrite Rabs_mult. rewrite <- (Rmult_1_r (Rabs G)) at 2. apply Rmult_le_compat_l; [apply Rabs_pos|]. rewrite Rabs_pos_eq by (left; apply exp_pos). apply Rle_trans with (exp 0); [|right; apply exp_0].
    assert (N : 0 <= (x - mu) ^ 2 / sigma ^ 2).
    { unfold Rdiv. apply Rmult_le_pos; [apply pow2_ge_0|]. left. apply Rinv_0_lt_compat. apply pow2_gt_0. exact HS. }
    set (u := (x - mu) ^ 2 / sigma ^ 2) in *. destruct (Rle_lt_or_eq_dec _ _ N) as [L|E]; [left; apply exp_increasing; lra|rewrite <- E; right; f_equal; lra].
  - intros x. unfold gauss. replace (mu + x - mu) with x by ring. replace (mu - x - mu) with (- x) by ring. replace ((- x) ^ 2) with (x ^ 2) by ring. split; [reflexivity|]. field. exact HS.
  - intros n. replace (- (1 / 2 * ((mu - n * sigma - mu) ^ 2 / sigma ^ 2))) with (- (n ^ 2 / 2)) by (field; exact HS). reflexivity.
  - intros x. exists (G * (exp (- (1 / 2 * ((x - mu) ^ 2 / sigma ^ 2))) * (- / sigma ^ 2 * (x - mu)))). split; [|unfold gauss; field; exact HS].
    apply (derivable_pt_lim_scal (fun x => exp (- (1 / 2 * ((x - mu) ^ 2 / sigma ^ 2))))).
    apply (derivable_pt_lim_comp (fun x => - (1 / 2 * ((x - mu) ^ 2 / sigma ^ 2))) exp); [|apply derivable_pt_lim_exp].
    intros eps He. exists (mkposreal (eps * (2 * sigma ^ 2)) ltac:(apply Rmult_lt_0_compat; [exact He|]; apply Rmult_lt_0_compat; [lra|apply pow2_gt_0; exact HS])). intros h Hh Hh'. cbn [pos] in Hh'.
    replace ((- (1 / 2 * ((x + h - mu) ^ 2 / sigma ^ 2)) - - (1 / 2 * ((x - mu) ^ 2 / sigma ^ 2))) / h - - / sigma ^ 2 * (x - mu)) with (- (h / (2 * sigma ^ 2))) by (field; split; assumption).
    rewrite Rabs_Ropp. unfold Rdiv. rewrite Rabs_mult. assert (P : 0 < / (2 * sigma ^ 2)) by (apply Rinv_0_lt_compat; apply Rmult_lt_0_compat; [lra|apply pow2_gt_0; exact HS]). rewrite (Rabs_pos_eq (/ (2 * sigma ^ 2))) by lra.
    apply (Rmult_lt_compat_r (/ (2 * sigma ^ 2))) in Hh'; [|exact P]. replace (eps * (2 * sigma ^ 2) * / (2 * sigma ^ 2)) with eps in Hh' by (field; exact HS). exact Hh'.
Qed.
