(** C10, C24-C26: unit conversions. *)
From Verif Require Import Base NumericModel.
Open Scope Q_scope.

(** ** Rounding *)
Lemma Qfloor_spec x : inject_Z (Qfloor x) <= x /\ x < inject_Z (Qfloor x) + 1.
Proof.
  split; [apply Qfloor_le|]. pose proof (Qlt_floor x) as H. rewrite inject_Z_plus in H. exact H.
Qed.

Lemma inject_pred z : inject_Z (z - 1) == inject_Z z - 1.
Proof. replace (z - 1)%Z with (z + (-1))%Z by lia. rewrite inject_Z_plus. reflexivity. Qed.

Lemma py_round_spec x : - (1#2) <= inject_Z (py_round x) - x <= 1#2.
Proof.
  unfold py_round. destruct (Qfloor_spec (x + (1#2))) as [H1 H2]. set (z := Qfloor (x + (1#2))) in *.
  destruct (Qeq_bool (inject_Z z) (x + (1#2))) eqn:E; cbn [andb].
  - apply Qeq_bool_iff in E. destruct (Z.odd z).
    + rewrite inject_pred. split; lra.
    + split; lra.
  - split; lra.
Qed.

Lemma inject_Z_lt a b : (a < b)%Z <-> inject_Z a < inject_Z b. Proof. rewrite Zlt_Qlt. reflexivity. Qed.
Lemma inject_Z_le a b : (a <= b)%Z <-> inject_Z a <= inject_Z b. Proof. rewrite Zle_Qle. reflexivity. Qed.

Lemma inject_succ z : inject_Z (z + 1) == inject_Z z + 1.
Proof. rewrite inject_Z_plus. reflexivity. Qed.

Lemma py_round_unique x z : - (1#2) < inject_Z z - x < 1#2 -> py_round x = z.
Proof.
  intros [H1 H2]. pose proof (py_round_spec x) as [H3 H4].
  assert (A : (py_round x < z + 1)%Z) by (apply inject_Z_lt; rewrite inject_succ; lra).
  assert (B : (z < py_round x + 1)%Z) by (apply inject_Z_lt; rewrite inject_succ; lra). lia.
Qed.

Lemma py_round_int z : py_round (inject_Z z) = z.
Proof. apply py_round_unique. split; lra. Qed.

Lemma py_round_comp x y : x == y -> py_round x = py_round y.
Proof.
  intros H. unfold py_round. assert (E : x + (1#2) == y + (1#2)) by (rewrite H; reflexivity).
  rewrite (Qfloor_comp _ _ E). set (z := Qfloor (y + (1#2))).
  assert (Hb : Qeq_bool (inject_Z z) (x + (1#2)) = Qeq_bool (inject_Z z) (y + (1#2))).
  { apply eq_true_iff_eq. rewrite !Qeq_bool_iff. rewrite E. reflexivity. }
  rewrite Hb. reflexivity.
Qed.

Lemma py_round_mono x y : x <= y -> (py_round x <= py_round y)%Z.
Proof.
  intros H. destruct (Qeq_dec x y) as [E|E]; [rewrite (py_round_comp _ _ E); lia|].
  destruct (Z_le_gt_dec (py_round x) (py_round y)) as [|Hgt]; [assumption|exfalso].
  assert (Hxy : x < y) by (destruct (Qlt_le_dec x y); [assumption|exfalso; apply E; lra]).
  pose proof (py_round_spec x) as [A1 A2]. pose proof (py_round_spec y) as [B1 B2].
  assert (Hz : (py_round y + 1 <= py_round x)%Z) by lia. apply inject_Z_le in Hz. rewrite inject_succ in Hz. lra.
Qed.

Lemma py_mod_range x y : 0 < y -> 0 <= py_mod x y < y.
Proof.
  intros Hy. unfold py_mod. destruct (Qfloor_spec (x / y)) as [H1 H2]. set (k := inject_Z (Qfloor (x / y))) in *.
  assert (Hx : x == (x / y) * y) by (field; lra). split.
  - rewrite Hx at 1. assert (0 <= (x / y - k) * y) by (apply Qmult_le_0_compat; lra). lra.
  - rewrite Hx at 1. assert (0 < (k + 1 - x / y) * y) by (apply Qmult_lt_0_compat; lra). lra.
Qed.

(** ** C10 *)
(** [theta] and [theta'] are the same rotation: they differ by a whole number of turns *)
Definition same_angle (a b : Q) : Prop := exists k : Z, a == b + inject_Z k * 360.

Theorem C10_angle_in_range_and_equivalent : forall theta,
  -180 < rz_theta theta /\ rz_theta theta <= 180 /\ same_angle (rz_theta theta) theta.
Proof.
  intros theta. unfold rz_theta, map_angle. pose proof (py_mod_range (- theta - 180) 360 ltac:(lra)) as [H1 H2].
  split; [lra|]. split; [lra|]. unfold py_mod. exists (Qfloor ((- theta - 180) / 360) + 1)%Z. rewrite inject_Z_plus. change (inject_Z 1) with 1. ring.
Qed.

(** equivalent angles are stored identically: the stored angle is the only representative in the interval *)
Theorem C10_canonical : forall a b, same_angle a b -> rz_theta a == rz_theta b.
Proof.
  intros a b [k Hk]. destruct (C10_angle_in_range_and_equivalent a) as [A1 [A2 [i Hi]]].
  destruct (C10_angle_in_range_and_equivalent b) as [B1 [B2 [j Hj]]].
  assert (Hd : rz_theta a - rz_theta b == inject_Z (i + k - j) * 360).
  { unfold Z.sub. rewrite !inject_Z_plus, inject_Z_opp, Hi, Hj, Hk. ring. }
  assert (C1 : inject_Z (i + k - j) < 1) by lra. assert (C2 : -(1) < inject_Z (i + k - j)) by lra.
  change 1 with (inject_Z 1) in C1. change (-(1)) with (inject_Z (-1)) in C2. apply inject_Z_lt in C1, C2.
  assert (Z0 : (i + k - j = 0)%Z) by lia. rewrite Z0 in Hd. change (inject_Z 0) with 0 in Hd. lra.
Qed.

Theorem C10_idempotent : forall theta, rz_theta (rz_theta theta) == rz_theta theta.
Proof. intros theta. apply C10_canonical. apply C10_angle_in_range_and_equivalent. Qed.

Lemma py_round8_spec x : Qabs (py_round8 x - x) <= 1 # 200000000.
Proof.
  unfold py_round8. pose proof (py_round_spec (x * 100000000)) as [H1 H2].
  unfold Qdiv. change (/ 100000000) with (1#100000000). apply Qabs_Qle_condition. split; lra.
Qed.

(** The angle stored by Rxy is additionally rounded to 8 decimals after the mapping: within 0.5e-8 of an equivalent angle, in the closed interval. *)
Theorem C10_rxy_partial : forall theta,
  -180 <= rxy_theta theta <= 180 /\ exists t, same_angle t theta /\ Qabs (rxy_theta theta - t) <= 1 # 200000000.
Proof.
  intros theta. destruct (C10_angle_in_range_and_equivalent theta) as [A1 [A2 A3]]. unfold rz_theta in *. split.
  - unfold rxy_theta, py_round8.
    assert (L : (py_round (inject_Z (-18000000000)) <= py_round (map_angle theta * 100000000))%Z) by (apply py_round_mono; change (inject_Z (-18000000000)) with (-18000000000#1); lra).
    assert (U : (py_round (map_angle theta * 100000000) <= py_round (inject_Z 18000000000))%Z) by (apply py_round_mono; change (inject_Z (18000000000)) with (18000000000#1); lra).
    rewrite py_round_int in L, U. apply inject_Z_le in L, U. change (inject_Z (-18000000000)) with (-18000000000#1) in L. change (inject_Z (18000000000)) with (18000000000#1) in U.
    unfold Qdiv. change (/ 100000000) with (1#100000000). split; lra.
  - exists (map_angle theta). split; [exact A3|]. apply py_round8_spec.
Qed.

(** Likewise the axis angle: in the closed interval [0, 360], within 0.5e-8 of an equivalent angle. *)
Theorem C10_rxy_phi_partial : forall phi,
  0 <= rxy_phi phi <= 360 /\ exists t, same_angle t phi /\ Qabs (rxy_phi phi - t) <= 1 # 200000000.
Proof.
  intros phi. pose proof (py_mod_range phi 360 ltac:(lra)) as [A1 A2]. split.
  - unfold rxy_phi, py_round8.
    assert (L : (py_round (inject_Z 0) <= py_round (py_mod phi 360 * 100000000))%Z) by (apply py_round_mono; change (inject_Z 0) with 0; lra).
    assert (U : (py_round (py_mod phi 360 * 100000000) <= py_round (inject_Z 36000000000))%Z) by (apply py_round_mono; change (inject_Z (36000000000)) with (36000000000#1); lra).
    rewrite py_round_int in L, U. apply inject_Z_le in L, U. change (inject_Z 0) with 0 in L. change (inject_Z (36000000000)) with (36000000000#1) in U.
    unfold Qdiv. change (/ 100000000) with (1#100000000). split; lra.
  - exists (py_mod phi 360). split; [|apply py_round8_spec]. exists (- Qfloor (phi / 360))%Z. unfold py_mod. rewrite inject_Z_opp. ring.
Qed.

(** -180 is excluded by design ("to ensure positive amplitudes in the gates"), but it is reached. *)
Theorem C10_rxy_minus_180_refuted : rxy_theta (-179999999999 # 1000000000) == -180.
Proof. vm_compute. reflexivity. Qed.
(** likewise the axis angle may become 360 instead of 0 *)
Theorem C10_rxy_phi_360_refuted : rxy_phi (359999999999 # 1000000000) == 360.
Proof. vm_compute. reflexivity. Qed.

Example C10_example : rz_theta 270 == -90 /\ rz_theta (-180) == 180 /\ rz_theta (1000 + (1#3)) == -80 + (1#3).
Proof. repeat split; vm_compute; reflexivity. Qed.

(** ** C24 *)
Lemma Qlt_bool_iff a b : Qlt_bool a b = true <-> a < b.
Proof.
  unfold Qlt_bool. rewrite negb_true_iff. destruct (Qlt_le_dec a b) as [H|H].
  - split; [intros _; exact H|]. intros _. apply not_true_iff_false. rewrite Qle_bool_iff. lra.
  - apply Qle_bool_iff in H as H'. rewrite H'. split; [discriminate|lra].
Qed.
Lemma Qlt_bool_false a b : Qlt_bool a b = false <-> b <= a.
Proof. rewrite <- not_true_iff_false, Qlt_bool_iff. split; intros H; lra. Qed.

(** Accepted exactly when the time is within 0.0011 ns of a multiple of the grid, and then the result is that multiple. *)
Theorem C24_exact_or_rejected : forall t grid, (0 < grid)%Z ->
  (forall r, to_grid_time t grid = Ok r <->
     (Z.divide grid r /\ Qabs (t - inject_Z r) <= 11 # 10000)) /\
  ((~ exists r, Z.divide grid r /\ Qabs (t - inject_Z r) <= 11 # 10000) -> to_grid_time t grid = Err ValueError).
Proof.
  intros t grid Hg.
  assert (H : forall r, to_grid_time t grid = Ok r <-> (Z.divide grid r /\ Qabs (t - inject_Z r) <= 11 # 10000)).
  { intros r. unfold to_grid_time. destruct (Qlt_bool tolerance (Qabs (t - inject_Z (py_round t)))) eqn:E1.
    - split; [discriminate|]. intros [_ H]. exfalso. apply Qlt_bool_iff in E1. unfold tolerance in E1.
      assert (Hr : py_round t = r). { apply py_round_unique. apply Qabs_Qle_condition in H. split; lra. }
      rewrite Hr in E1. lra.
    - apply Qlt_bool_false in E1. destruct (Z.eqb (py_round t mod grid) 0) eqn:E2; cbn [negb].
      + apply Z.eqb_eq in E2. apply Z.mod_divide in E2; [|lia]. split.
        * intros Hr. injection Hr as <-. split; [exact E2|exact E1].
        * intros [_ H]. f_equal. apply py_round_unique. apply Qabs_Qle_condition in H. split; lra.
      + split; [discriminate|]. intros [Hd H]. exfalso.
        assert (Hr : py_round t = r). { apply py_round_unique. apply Qabs_Qle_condition in H. split; lra. }
        rewrite Hr in E2. apply Z.mod_divide in Hd; [|lia]. rewrite Hd in E2. discriminate. }
  split; [exact H|]. intros Hn. destruct (to_grid_time t grid) as [r|e] eqn:E.
  - exfalso. apply Hn. exists r. apply H. reflexivity.
  - unfold to_grid_time in E. destruct (Qlt_bool _ _); [congruence|]. destruct (negb _); congruence.
Qed.

(** the predicate agrees *)
Theorem C24_predicate : forall t grid, is_multiple_of_grid_time t grid = true <-> exists r, to_grid_time t grid = Ok r.
Proof.
  intros t grid. unfold is_multiple_of_grid_time. destruct (to_grid_time t grid) as [r|e]; split; eauto; [discriminate|intros [r H]; discriminate].
Qed.

Theorem C24_monotone : forall t1 t2 grid r1 r2, t1 <= t2 -> to_grid_time t1 grid = Ok r1 -> to_grid_time t2 grid = Ok r2 -> (r1 <= r2)%Z.
Proof.
  intros t1 t2 grid r1 r2 H H1 H2. unfold to_grid_time in *.
  destruct (Qlt_bool _ (Qabs (t1 - _))); [discriminate|]. destruct (negb _) in H1; [discriminate|].
  destruct (Qlt_bool _ (Qabs (t2 - _))); [discriminate|]. destruct (negb _) in H2; [discriminate|].
  injection H1 as <-. injection H2 as <-. apply py_round_mono. exact H.
Qed.

Example C24_example : to_grid_time (20001 # 1000) 4 = Ok 20%Z /\ to_grid_time (20002 # 1000) 4 = Err ValueError /\ to_grid_time 21 4 = Err ValueError.
Proof. repeat split; vm_compute; reflexivity. Qed.

(** ** C25 *)
Theorem C25_dac : forall v,
  (Qabs v <= 1 -> exists c, expand_awg v 65536 = Ok c /\ (-32768 <= c <= 32767)%Z /\
      (Qabs (inject_Z c - v * 32768) <= 1 # 2 \/ (c = 32767%Z /\ 32767 < v * 32768))) /\
  (1 < Qabs v -> expand_awg v 65536 = Err ValueError).
Proof.
  intros v. unfold expand_awg. split; intros Hv.
  - assert (E : Qlt_bool 1 (Qabs v) = false) by (apply Qlt_bool_false; exact Hv). rewrite E. change (65536 / 2)%Z with 32768%Z.
    set (r := py_round (v * inject_Z 32768)). exists (Z.max (-(32768)) (Z.min r (32768 - 1))). split; [reflexivity|]. split; [lia|].
    apply Qabs_Qle_condition in Hv. destruct Hv as [V1 V2].
    pose proof (py_round_spec (v * inject_Z 32768)) as [R1 R2]. fold r in R1, R2. change (inject_Z 32768) with 32768 in R1, R2.
    assert (L : (-32768 <= r)%Z). { rewrite <- (py_round_int (-32768)). unfold r. apply py_round_mono. change (inject_Z 32768) with 32768. change (inject_Z (-32768)) with (-(32768)). lra. }
    destruct (Z_le_gt_dec r 32767) as [Hr|Hr].
    + left. rewrite Z.min_l by lia. rewrite Z.max_r by lia. apply Qabs_Qle_condition. split; lra.
    + right. rewrite Z.min_r by lia. split; [reflexivity|].
      assert (Hz : (32767 + 1 <= r)%Z) by lia. apply inject_Z_le in Hz. rewrite inject_succ in Hz. change (inject_Z 32767) with 32767 in Hz. lra.
  - assert (E : Qlt_bool 1 (Qabs v) = true) by (apply Qlt_bool_iff; exact Hv). rewrite E. reflexivity.
Qed.

Theorem C25_monotone : forall v w size c d, v <= w -> (0 <= size)%Z -> expand_awg v size = Ok c -> expand_awg w size = Ok d -> (c <= d)%Z.
Proof.
  intros v w size c d H Hs H1 H2. unfold expand_awg in *. destruct (Qlt_bool 1 (Qabs v)); [discriminate|]. destruct (Qlt_bool 1 (Qabs w)); [discriminate|].
  injection H1 as <-. injection H2 as <-.
  assert (Hm : (0 <= size / 2)%Z) by (apply Z.div_pos; lia). apply inject_Z_le in Hm. change (inject_Z 0) with 0 in Hm.
  assert (py_round (v * inject_Z (size / 2)) <= py_round (w * inject_Z (size / 2)))%Z by (apply py_round_mono; apply Qmult_le_compat_r; assumption).
  lia.
Qed.

(** distinct amplitudes more than one step apart give distinct codes (no aliasing), except in the clipped top step *)
Theorem C25_resolution : forall v w c d, Qabs v <= 1 -> Qabs w <= 1 -> w * 32768 <= 32767 -> v * 32768 + 1 < w * 32768 ->
  expand_awg v 65536 = Ok c -> expand_awg w 65536 = Ok d -> (c < d)%Z.
Proof.
  intros v w c d Hv Hw Ht Hd Hc Hd2. destruct (C25_dac v) as [Hv1 _]. destruct (Hv1 Hv) as [c' [E1 [_ B1]]]. rewrite Hc in E1. injection E1 as <-.
  destruct (C25_dac w) as [Hw1 _]. destruct (Hw1 Hw) as [d' [E2 [_ B2]]]. rewrite Hd2 in E2. injection E2 as <-.
  destruct B1 as [B1|[_ B1]]; [|lra]. destruct B2 as [B2|[_ B2]]; [|lra].
  apply Qabs_Qle_condition in B1, B2. apply inject_Z_lt. lra.
Qed.

Example C25_example : expand_awg 1 65536 = Ok 32767%Z /\ expand_awg (-(1)) 65536 = Ok (-32768)%Z /\ expand_awg (1#2) 65536 = Ok 16384%Z /\ expand_awg (10001 # 10000) 65536 = Err ValueError.
Proof. repeat split; vm_compute; reflexivity. Qed.

(** ** C26 *)
(** The phase word is within half a step of the phase modulo 360 degrees (a step is 360/1e9 degrees). *)
Theorem C26_phase_partial : forall deg,
  (0 <= nco_phase deg <= 1000000000)%Z /\
  exists t, same_angle t deg /\ 0 <= t < 360 /\ Qabs (inject_Z (nco_phase deg) - t * (1000000000 / 360)) <= 1 # 2.
Proof.
  intros deg. pose proof (py_mod_range deg 360 ltac:(lra)) as [H1 H2]. pose proof (py_round_spec (py_mod deg 360 * (1000000000 / 360))) as [R1 R2].
  assert (Hk : 1000000000 / 360 == 25000000 # 9) by reflexivity. split.
  - unfold nco_phase. set (x := py_mod deg 360 * (1000000000 / 360)) in *.
    assert (X1 : 0 <= x) by (unfold x; rewrite Hk; lra). assert (X2 : x <= 1000000000) by (unfold x; rewrite Hk; lra).
    apply py_round_mono in X1, X2. change 0 with (inject_Z 0) in X1. change 1000000000 with (inject_Z 1000000000) in X2. rewrite py_round_int in X1, X2. lia.
  - exists (py_mod deg 360). split; [|split; [split; lra|apply Qabs_Qle_condition; split; exact R1 || exact R2]].
    unfold py_mod. exists (- Qfloor (deg / 360))%Z. rewrite inject_Z_opp. ring.
Qed.

(** The word 1000000000 (a full turn, one past the last step 999999999) can be produced. *)
Theorem C26_phase_full_turn_refuted : nco_phase (3599999999999 # 10000000000) = 1000000000%Z.
Proof. vm_compute. reflexivity. Qed.

Theorem C26_frequency : forall hz,
  (forall s, nco_freq hz = Ok s -> (-2000000000 <= s <= 2000000000)%Z /\ Qabs (inject_Z s / 4 - hz) <= 1 # 8) /\
  (Qabs hz <= 500000000 -> exists s, nco_freq hz = Ok s) /\
  (500000000 + (1 # 8) < Qabs hz -> nco_freq hz = Err ValueError).
Proof.
  intros hz. unfold nco_freq. pose proof (py_round_spec (hz * 4)) as [R1 R2]. set (s := py_round (hz * 4)) in *.
  split; [|split].
  - intros s' H. destruct ((s <? -2000000000)%Z || (2000000000 <? s)%Z) eqn:E; [discriminate|]. injection H as <-.
    apply orb_false_iff in E. destruct E as [E1 E2]. apply Z.ltb_ge in E1, E2. split; [lia|]. unfold Qdiv. change (/ 4) with (1#4). apply Qabs_Qle_condition. split; lra.
  - intros H. apply Qabs_Qle_condition in H. destruct H as [H1 H2]. exists s.
    assert (L : (-2000000000 <= s)%Z). { rewrite <- (py_round_int (-2000000000)). apply py_round_mono. change (inject_Z (-2000000000)) with (-2000000000#1). lra. }
    assert (U : (s <= 2000000000)%Z). { rewrite <- (py_round_int 2000000000). apply py_round_mono. change (inject_Z 2000000000) with (2000000000#1). lra. }
    destruct (s <? -2000000000)%Z eqn:E1; [apply Z.ltb_lt in E1; lia|]. destruct (2000000000 <? s)%Z eqn:E2; [apply Z.ltb_lt in E2; lia|]. reflexivity.
  - intros H. destruct ((s <? -2000000000)%Z || (2000000000 <? s)%Z) eqn:E; [reflexivity|exfalso].
    apply orb_false_iff in E. destruct E as [E1 E2]. apply Z.ltb_ge in E1, E2. apply inject_Z_le in E1, E2.
    change (inject_Z (-2000000000)) with (-2000000000#1) in E1. change (inject_Z 2000000000) with (2000000000#1) in E2.
    apply Qlt_not_le in H. apply H. apply Qabs_Qle_condition. split; lra.
Qed.

Example C26_example : nco_phase (-90) = 750000000%Z /\ nco_freq 100 = Ok 400%Z /\ nco_freq 500000001 = Err ValueError.
Proof. repeat split; vm_compute; reflexivity. Qed.

(** ** C36: waveform granularity *)
(** closest_number_ceil returns a multiple of the granularity, strictly above the number and by at most one granule. *)
Theorem C36_closest_number_ceil : forall n m r, closest_number_ceil n m = Ok r ->
  Z.divide m r /\ (n < r <= n + m)%Z.
Proof.
  intros n m r H. unfold closest_number_ceil in H. destruct (0 <? n)%Z eqn:E1; [|discriminate]. destruct (0 <? m)%Z eqn:E2; [|discriminate].
  cbn [negb] in H. injection H as <-. apply Z.ltb_lt in E1, E2. rewrite Z.quot_div_nonneg by lia.
  split; [exists (n / m + 1)%Z; ring|]. pose proof (Z.div_mod n m ltac:(lia)). pose proof (Z.mod_pos_bound n m E2). lia.
Qed.
