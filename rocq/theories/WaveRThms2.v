(** C68: offsets of drag pulses, skewed Hermite pulses. *)
From Verif Require Import Base AcqSetProps WaveRModel WaveRThms.
From Coq Require Import Reals List Lra.
Import ListNotations.
Local Open Scope R_scope.
Local Notation length := List.length.

(** the offset that is subtracted from the samples of a component *)
Definition taken (o : offset) (w : list R) : R := match o with NoOffset | Unknown => 0 | Average => (nth 0 w 0 + nth (length w - 1) w 0) / 2 | First => nth 0 w 0 | Last => nth (length w - 1) w 0 end.
Lemma last_nth (l : list R) : List.last l 0 = nth (length l - 1) l 0.
Proof. induction l as [|x [|y l] IH]; [reflexivity|reflexivity|]. change (List.last (x :: y :: l) 0) with (List.last (y :: l) 0). rewrite IH. cbn. rewrite Nat.sub_0_r. reflexivity. Qed.
Lemma subtract_spec o w : o <> Unknown -> exists v, subtract o w = Ok v /\ length v = length w /\ forall i, (i < length w)%nat -> nth i v 0 = nth i w 0 - taken o w.
Proof.
  intros H. destruct o; cbn [subtract]; try congruence; eexists; (split; [reflexivity|]); rewrite ?map_length; (split; [reflexivity|]); intros i L; rewrite ?(nth_map' _ 0) by exact L; unfold taken; rewrite ?last_nth; destruct w; cbn [hd nth]; try (cbn in L; lia); try ring; reflexivity.
Qed.
Lemma nth_combine : forall (a b : list R) i, length a = length b -> nth i (combine a b) (0, 0) = (nth i a 0, nth i b 0).
Proof. intros. now apply combine_nth. Qed.

Definition width (duration : R) (nr_sigma sigma : option R) : option R := match sigma, nr_sigma with Some s, None => Some s | None, Some n => Some (duration / (2 * n)) | _, _ => None end.
Lemma drag_ok t0 t G D dur ns sg phase o s : o <> Unknown -> width dur ns sg = Some s -> exists i q, drag (t0 :: t) G D dur ns sg phase o = Ok (rotate_wave (combine i q) phase) /\ length i = length (t0 :: t) /\ length q = length (t0 :: t) /\
  (forall k, (k < length (t0 :: t))%nat -> nth k i 0 = gauss G (t0 + dur / 2) s (nth k (t0 :: t) 0) - taken o (map (gauss G (t0 + dur / 2) s) (t0 :: t)) /\ nth k q 0 = deriv G D (t0 + dur / 2) s (nth k (t0 :: t) 0) - taken o (map (deriv G D (t0 + dur / 2) s) (t0 :: t))).
Proof.
  intros O W. destruct (subtract_spec o (map (gauss G (t0 + dur / 2) s) (t0 :: t)) O) as [i [I1 [I2 I3]]]. destruct (subtract_spec o (map (deriv G D (t0 + dur / 2) s) (t0 :: t)) O) as [q [Q1 [Q2 Q3]]]. exists i, q. rewrite map_length in I2, Q2, I3, Q3. split.
  - unfold drag. assert (E : match sg, ns with Some _, Some _ => Err ValueError | Some s, None => Ok s | None, Some n => Ok (dur / (2 * n)) | None, None => Err TypeError end = Ok s) by (unfold width in W; destruct sg, ns; try discriminate; injection W as <-; reflexivity).
    rewrite E. cbn [bind]. rewrite I1. cbn [bind]. rewrite Q1. reflexivity.
  - split; [exact I2|]. split; [exact Q2|]. intros k L. rewrite (I3 k L), (Q3 k L). rewrite !(nth_map' _ 0) by exact L. auto.
Qed.
(** The samples of a drag pulse, for one of the two ways to give its width: Gaussian and derivative, less a constant, rotated. *)
Theorem C68_drag_samples : forall t0 t G D dur ns sg phase o s, o <> Unknown -> width dur ns sg = Some s -> exists w a b, drag (t0 :: t) G D dur ns sg phase o = Ok w /\ length w = length (t0 :: t) /\ (o = NoOffset -> a = 0 /\ b = 0) /\
  forall k, (k < length (t0 :: t))%nat -> nth k w (0, 0) = nth 0 (rotate_wave [(gauss G (t0 + dur / 2) s (nth k (t0 :: t) 0) - a, deriv G D (t0 + dur / 2) s (nth k (t0 :: t) 0) - b)] phase) (0, 0).
Proof.
  intros t0 t G D dur ns sg phase o s O W. destruct (drag_ok t0 t G D dur ns sg phase o s O W) as [i [q [E [Li [Lq H]]]]]. exists (rotate_wave (combine i q) phase), (taken o (map (gauss G (t0 + dur / 2) s) (t0 :: t))), (taken o (map (deriv G D (t0 + dur / 2) s) (t0 :: t))).
  split; [exact E|]. assert (LC : length (combine i q) = length (t0 :: t)) by (rewrite combine_length, Li, Lq; apply Nat.min_id). split; [unfold rotate_wave; now rewrite map_length|]. split; [intros ->; split; reflexivity|].
  intros k L. unfold rotate_wave. rewrite (nth_map' _ (0, 0)) by (rewrite LC; exact L). rewrite nth_combine by congruence. destruct (H k L) as [-> ->]. reflexivity.
Qed.
(** Subtracting the offset makes the first sample zero, or the last, or their sum. *)
Theorem C68_drag_offset : forall t0 t G D dur ns sg phase o w, drag (t0 :: t) G D dur ns sg phase o = Ok w ->
  (o = First -> nth 0 w (0, 0) = (0, 0)) /\ (o = Last -> nth (length t) w (0, 0) = (0, 0)) /\ (o = Average -> plus2 (nth 0 w (0, 0)) (nth (length t) w (0, 0)) = (0, 0)).
Proof.
  intros t0 t G D dur ns sg phase o w H. assert (OU : o <> Unknown). { intros ->. unfold drag in H. binv H x E. discriminate. }
  assert (W : exists s, width dur ns sg = Some s) by (unfold drag in H; binv H x E; unfold width; destruct sg, ns; try discriminate; eauto). destruct W as [s W].
  destruct (drag_ok t0 t G D dur ns sg phase o s OU W) as [i [q [E [Li [Lq K]]]]]. rewrite H in E. injection E as ->.
  assert (LC : length (combine i q) = length (t0 :: t)) by (rewrite combine_length, Li, Lq; apply Nat.min_id).
  assert (L0 : (0 < length (t0 :: t))%nat) by (cbn; lia). assert (L1 : (length t < length (t0 :: t))%nat) by (cbn; lia).
  unfold rotate_wave. rewrite (nth_map' _ (0, 0)) by (rewrite LC; exact L0). rewrite (nth_map' _ (0, 0)) by (rewrite LC; exact L1). rewrite !nth_combine by congruence. cbn [fst snd].
  destruct (K 0%nat L0) as [I0 Q0]. destruct (K (length t) L1) as [I1 Q1]. unfold taken in *. rewrite map_length in *. replace (length (t0 :: t) - 1)%nat with (length t) in * by (cbn; lia).
  rewrite !(nth_map' _ 0) in * by assumption. unfold plus2. cbn [fst snd].
  refine (conj _ (conj _ _)); intros ->; cbn [nth] in *; rewrite I0, Q0 || rewrite I1, Q1; rewrite ?I1, ?Q1; f_equal; ring || field.
Qed.
(** Giving both widths, none, or an unknown offset is an error. *)
Theorem C68_drag_errors : forall t0 t G D dur ns sg phase o, (exists e, drag (t0 :: t) G D dur ns sg phase o = Err e) <-> o = Unknown \/ (ns = None /\ sg = None) \/ (ns <> None /\ sg <> None).
Proof.
  intros t0 t G D dur ns sg phase o. split.
  - intros [e H]. destruct o; auto; (destruct ns, sg; [right; right; split; discriminate|exfalso|exfalso|auto]); cbn in H; discriminate.
  - intros [->|[[-> ->]|[H1 H2]]]; [destruct ns, sg; eexists; reflexivity|eexists; reflexivity|]. destruct ns, sg; try congruence. eexists. reflexivity.
Qed.

(** ** skewed Hermite *)
Lemma hermite_derivative A h x : derivable_pt_lim (hermite_I A h) x (A * ((- (2 * h) * x) * exp (- x ^ 2) + (1 - h * x ^ 2) * (exp (- x ^ 2) * (- (2 * x))))).
Proof.
  unfold hermite_I. apply (derivable_pt_lim_scal (fun x => (1 - h * x ^ 2) * exp (- x ^ 2))). apply (derivable_pt_lim_mult (fun x => 1 - h * x ^ 2) (fun x => exp (- x ^ 2))).
  - replace (- (2 * h) * x) with (0 - h * (INR 2 * x ^ 1)) by (cbn [INR]; ring). apply (derivable_pt_lim_minus (fun _ => 1) (fun x => h * x ^ 2)); [apply derivable_pt_lim_const|]. apply (derivable_pt_lim_scal (fun x => x ^ 2)). apply derivable_pt_lim_pow.
  - apply (derivable_pt_lim_comp (fun x => - x ^ 2) exp); [|apply derivable_pt_lim_exp]. replace (- (2 * x)) with (- (INR 2 * x ^ 1)) by (cbn [INR]; ring). apply (derivable_pt_lim_opp (fun x => x ^ 2)). apply derivable_pt_lim_pow.
Qed.
(** In time [x] from the center, the second component is -skewness / (2 pi) times the derivative of the first; at the center they are the amplitude and 0. *)
Theorem C68_hermite : forall A S h th, th <> 0 -> hermite_I A h 0 = A /\ hermite_Q A S h th 0 = 0 /\
  (forall x, hermite_I A h (- x / th) = hermite_I A h (x / th) /\ hermite_Q A S h th (- x / th) = - hermite_Q A S h th (x / th)) /\
  forall x, exists d, derivable_pt_lim (fun x => hermite_I A h (x / th)) x d /\ hermite_Q A S h th (x / th) = - (S / (2 * PI)) * d.
Proof.
  intros A S h th H. refine (conj _ (conj _ (conj _ _))).
  - unfold hermite_I. replace (- 0 ^ 2) with 0 by ring. rewrite exp_0. ring.
  - unfold hermite_Q. field. split; first [apply PI_neq0|exact H].
  - intros x. unfold hermite_I, hermite_Q. replace ((- x / th) ^ 2) with ((x / th) ^ 2) by (field; exact H). split; [reflexivity|]. field. split; first [apply PI_neq0|exact H].
  - intros x. exists (A * ((- (2 * h) * (x / th)) * exp (- (x / th) ^ 2) + (1 - h * (x / th) ^ 2) * (exp (- (x / th) ^ 2) * (- (2 * (x / th))))) * (/ th * 1)). split.
    + apply (derivable_pt_lim_comp (fun x => x / th) (hermite_I A h)); [|apply hermite_derivative]. unfold Rdiv. 
      assert (E : derivable_pt_lim (fun x => / th * x) x (/ th * 1)) by (apply (derivable_pt_lim_scal (fun x => x)); apply derivable_pt_lim_id).
      intros eps He. destruct (E eps He) as [d Hd]. exists d. intros y Hy Hy'. specialize (Hd y Hy Hy'). rewrite !(Rmult_comm _ (/ th)). exact Hd.
    + unfold hermite_Q. field. split; first [apply PI_neq0|exact H].
Qed.
(** The samples: the center is in the middle of the duration unless given, and time is in units of duration / ratio. *)
Theorem C68_hermite_samples : forall t0 t dur A S phase half center ratio w, skewed_hermite (t0 :: t) dur A S phase half center ratio = Ok w -> length w = length (t0 :: t) /\ forall k, (k < length (t0 :: t))%nat ->
  let h := if half then 667 / 1000 else 956 / 1000 in let x := (nth k (t0 :: t) 0 - (match center with Some c => c | None => dur / 2 end + t0)) / (dur / ratio) in
  nth k w (0, 0) = nth 0 (rotate_wave [(hermite_I A h x, hermite_Q A S h (dur / ratio) x)] phase) (0, 0).
Proof.
  intros t0 t dur A S phase half center ratio w H. unfold skewed_hermite in H. apply (f_equal (fun r => match r with Ok a => a | Err _ => [] end)) in H. cbn beta iota in H. subst w. unfold rotate_wave. rewrite map_map. split; [now rewrite map_length|]. intros k L. rewrite (nth_map' _ 0) by exact L. reflexivity.
Qed.
