(** C63: the unitaries of gates are what the documentation says. *)
From Coq Require Import Reals Qreals QArith Qabs Qround Lra Lia.
From Verif Require Import NumericModel NumericProps GateMat GateModel GateSpec GateProps.
Local Open Scope R_scope.

(** The unitary of every gate is unitary. *)
Theorem C63_unitary : (forall theta phi, is_unitary 2 (rxy_unitary theta phi)) /\ (forall theta, is_unitary 2 (rz_unitary theta)) /\ is_unitary 2 h_unitary /\ is_unitary 4 cnot_unitary /\ is_unitary 4 cz_unitary.
Proof.
  split; [intros; apply rxy_is_unitary|]. split; [intros; apply rz_is_unitary|]. split; [apply h_is_unitary|]. split; [apply cnot_is_unitary | apply cz_is_unitary].
Qed.

(** ** Angles *)
Lemma radians_eq : forall a b, (a == b)%Q -> radians a = radians b.
Proof. intros a b H. unfold radians. now rewrite (Qeq_eqR _ _ H). Qed.
Lemma radians_turns : forall t k, radians (t + inject_Z k * 360) = radians t + IZR k * (2 * PI).
Proof. intros t k. unfold radians. rewrite Q2R_plus, Q2R_mult. assert (Q2R (inject_Z k) = IZR k) as -> by (unfold Q2R, inject_Z; cbn; field). assert (Q2R 360 = 360) as -> by (unfold Q2R; cbn; field). field. Qed.
Lemma same_radians : forall a b, same_angle a b -> exists k, radians a = radians b + IZR k * (2 * PI).
Proof. intros a b [k H]. exists k. rewrite (radians_eq _ _ H). apply radians_turns. Qed.
Lemma rz_turns : forall t k, meq 2 (rz_matrix (t + IZR k * (2 * PI))) (scale (sgn k) (rz_matrix t)).
Proof.
  intros t k. apply meq2; unfold rz_matrix, scale, m2; try ring.
  - replace (- (t + IZR k * (2 * PI)) / 2) with (- t / 2 + IZR (- k) * PI) by (rewrite opp_IZR; field). rewrite cis_half_turns. unfold sgn. rewrite Z.even_opp. reflexivity.
  - replace ((t + IZR k * (2 * PI)) / 2) with (t / 2 + IZR k * PI) by field. apply cis_half_turns.
Qed.
Lemma half_turns : forall t k, re (cos (t / 2 + IZR k * PI)) = (sgn k * re (cos (t / 2)))%C /\ re (sin (t / 2 + IZR k * PI)) = (sgn k * re (sin (t / 2)))%C.
Proof.
  intros t k. rewrite !cos_of_cis, !sin_of_cis, cis_half_turns. unfold sgn. destruct (Z.even k); unfold re, cmul, cneg, c1, cis; cbn; split; f_equal; ring.
Qed.
Lemma rxy_turns : forall t p k l, meq 2 (rxy_matrix (t + IZR k * (2 * PI)) (p + IZR l * (2 * PI))) (scale (sgn k) (rxy_matrix t p)).
Proof.
  intros t p k l. unfold rxy_matrix. replace ((t + IZR k * (2 * PI)) / 2) with (t / 2 + IZR k * PI) by field. destruct (half_turns t k) as [-> ->]. rewrite cis_turns.
  replace (- (p + IZR l * (2 * PI))) with (- p + IZR (- l) * (2 * PI)) by (rewrite opp_IZR; ring). rewrite cis_turns. apply meq2; unfold scale, m2; ring.
Qed.
Lemma rz_same : forall a b, same_angle a b -> same_gate 2 (rz_matrix (radians a)) (Rz_of b).
Proof.
  intros a b H. destruct (same_radians _ _ H) as [k ->]. exists (sgn k). split; [apply sqmod_sgn|]. eapply meq_trans; [apply rz_turns | apply scale_meq, rz_rotation].
Qed.
Lemma rxy_same : forall a b a' b', same_angle a a' -> same_angle b b' -> same_gate 2 (rxy_matrix (radians a) (radians b)) (Rxy_of a' b').
Proof.
  intros a b a' b' H H'. destruct (same_radians _ _ H) as [k ->]. destruct (same_radians _ _ H') as [l ->]. exists (sgn k). split; [apply sqmod_sgn|]. eapply meq_trans; [apply rxy_turns | apply scale_meq, rxy_rotation].
Qed.
(** Rz(theta) has the unitary of a rotation by theta around z, for every theta, up to the sign that a full turn has. *)
Theorem C63_rz : forall theta, same_gate 2 (rz_unitary theta) (Rz_of theta).
Proof. intros theta. unfold rz_unitary. rewrite deg_rad. apply rz_same. apply C10_angle_in_range_and_equivalent. Qed.
(** Rxy(theta, phi) that of a rotation by theta around the axis phi; angles are stored with 8 decimals, so exactly only if they have no more *)
Definition decimals8 (x : Q) : Prop := exists n : Z, (x == inject_Z n / 100000000)%Q.
Lemma round8_exact : forall x, decimals8 x -> (py_round8 x == x)%Q.
Proof.
  intros x [n H]. unfold py_round8. assert (E : (x * 100000000 == inject_Z n)%Q) by (rewrite H; field). rewrite (py_round_comp _ _ E), py_round_int. symmetry. exact H.
Qed.
Lemma decimals_turns : forall x y, same_angle y x -> decimals8 x -> decimals8 y.
Proof. intros x y [k H] [n N]. exists (n + k * 36000000000)%Z. rewrite H, N, inject_Z_plus, inject_Z_mult. change (inject_Z 36000000000) with 36000000000%Q. field. Qed.
Lemma phi_same : forall p, same_angle (py_mod p 360) p.
Proof. intros p. exists (- Qfloor (p / 360))%Z. unfold py_mod. rewrite inject_Z_opp. ring. Qed.
Theorem C63_rxy : forall theta phi, decimals8 theta -> decimals8 phi -> same_gate 2 (rxy_unitary theta phi) (Rxy_of theta phi).
Proof.
  intros theta phi H H'. unfold rxy_unitary. rewrite !deg_rad. pose proof (C10_angle_in_range_and_equivalent theta) as [_ [_ A]]. unfold rz_theta in A. pose proof (phi_same phi) as B. unfold rxy_theta, rxy_phi.
  rewrite (radians_eq _ _ (round8_exact _ (decimals_turns _ _ A H))), (radians_eq _ _ (round8_exact _ (decimals_turns _ _ B H'))). now apply rxy_same.
Qed.
(** and otherwise every entry is within 2e-10 *)
Lemma cos_lip : forall a b, Rabs (cos a - cos b) <= Rabs (a - b).
Proof.
  intros a b. destruct (Req_dec a b) as [->|N]; [rewrite !(Rminus_diag_eq _ _ eq_refl); apply Rle_refl|].
  destruct (MVT_abs cos (fun x => - sin x) b a) as [c [H _]]; [intros; apply derivable_pt_lim_cos|]. rewrite H. rewrite Rabs_Ropp. rewrite <- (Rmult_1_l (Rabs (a - b))) at 2.
  apply Rmult_le_compat_r; [apply Rabs_pos|]. pose proof (SIN_bound c). apply Rabs_le. lra.
Qed.
Lemma sin_lip : forall a b, Rabs (sin a - sin b) <= Rabs (a - b).
Proof. intros a b. rewrite <- !cos_shift. eapply Rle_trans; [apply cos_lip|]. replace (PI / 2 - a - (PI / 2 - b)) with (- (a - b)) by ring. rewrite Rabs_Ropp. apply Rle_refl. Qed.
Lemma prod_lip : forall a b x y d e, Rabs (a - x) <= d -> Rabs (b - y) <= e -> Rabs a <= 1 -> Rabs y <= 1 -> Rabs (a * b - x * y) <= d + e.
Proof.
  intros a b x y d e H H' A Y. replace (a * b - x * y) with ((a - x) * y + a * (b - y)) by ring. eapply Rle_trans; [apply Rabs_triang|]. rewrite !Rabs_mult. apply Rplus_le_compat.
  - rewrite <- (Rmult_1_r d). apply Rmult_le_compat; auto using Rabs_pos.
  - rewrite <- (Rmult_1_l e). apply Rmult_le_compat; auto using Rabs_pos.
Qed.
Lemma sin1 : forall a, Rabs (sin a) <= 1. Proof. intros a. apply Rabs_le. pose proof (SIN_bound a). lra. Qed.
Lemma cos1 : forall a, Rabs (cos a) <= 1. Proof. intros a. apply Rabs_le. pose proof (COS_bound a). lra. Qed.
Lemma rxy_close : forall t p t' p' d e, Rabs (t / 2 - t' / 2) <= d -> Rabs (p - p') <= e -> close 2 (d + e) (rxy_matrix t p) (rxy_matrix t' p').
Proof.
  intros t p t' p' d e D E.
  assert (C1 : Rabs (cos (t / 2) - cos (t' / 2)) <= d) by (eapply Rle_trans; [apply cos_lip | exact D]). assert (S1 : Rabs (sin (t / 2) - sin (t' / 2)) <= d) by (eapply Rle_trans; [apply sin_lip | exact D]).
  assert (C2 : Rabs (cos p - cos p') <= e) by (eapply Rle_trans; [apply cos_lip | exact E]). assert (S2 : Rabs (sin p - sin p') <= e) by (eapply Rle_trans; [apply sin_lip | exact E]).
  assert (0 <= d) by (eapply Rle_trans; [apply Rabs_pos | exact D]). assert (0 <= e) by (eapply Rle_trans; [apply Rabs_pos | exact E]).
  pose proof (prod_lip _ _ _ _ _ _ S1 C2 (sin1 _) (cos1 _)) as X. pose proof (prod_lip _ _ _ _ _ _ S1 S2 (sin1 _) (sin1 _)) as Y.
  assert (Z : Rabs (0 - 0) <= d + e) by (rewrite Rminus_0_r, Rabs_R0; lra).
  intros i j Hi Hj. destruct i as [|[|i]]; [| |lia]; (destruct j as [|[|j]]; [| |lia]); unfold rxy_matrix, m2; rewrite ?cis_neg; unfold cmul, cneg, cconj, cis, ci, re; cbn [fst snd].
  - split; [lra | exact Z].
  - split.
    + eapply Rle_trans; [|exact Y]. right. rewrite <- Rabs_Ropp. f_equal. ring.
    + eapply Rle_trans; [|exact X]. right. rewrite <- Rabs_Ropp. f_equal. ring.
  - split.
    + eapply Rle_trans; [|exact Y]. right. f_equal. ring.
    + eapply Rle_trans; [|exact X]. right. rewrite <- Rabs_Ropp. f_equal. ring.
  - split; [lra | exact Z].
Qed.
Lemma radians_close : forall a b, (Qabs (a - b) <= 1 # 200000000)%Q -> Rabs (radians a - radians b) <= 112 / 1000000000000.
Proof.
  intros a b H. unfold radians. replace (Q2R a / 360 * (2 * PI) - Q2R b / 360 * (2 * PI)) with ((Q2R a - Q2R b) * (PI / 180)) by field.
  apply Qabs_Qle_condition in H as [H1 H2]. apply Qle_Rle in H1, H2. rewrite Q2R_minus in H1, H2. unfold Q2R in H1 at 1. unfold Q2R in H2 at 3. cbn in H1, H2. pose proof PI_4 as P4. pose proof PI_RGT_0 as P0.
  rewrite Rabs_mult. rewrite (Rabs_right (PI / 180)) by lra.
  assert (A : Rabs (Q2R a - Q2R b) <= 5 / 1000000000) by (apply Rabs_le; lra). pose proof (Rabs_pos (Q2R a - Q2R b)) as N.
  eapply Rle_trans; [apply Rmult_le_compat; [exact N | lra | exact A | apply (Rmult_le_compat_r (/ 180)); [lra | exact P4]]|]. lra.
Qed.
Theorem C63_rxy_close : forall theta phi, exists z, sqmod z = 1 /\ close 2 (2 / 10000000000) (rxy_unitary theta phi) (scale z (Rxy_of theta phi)).
Proof.
  intros theta phi. destruct (C10_rxy_partial theta) as [_ [t [T T']]]. destruct (C10_rxy_phi_partial phi) as [_ [p [P P']]]. destruct (rxy_same _ _ _ _ T P) as [z [Z E]]. exists z. split; [exact Z|].
  apply radians_close in T', P'. unfold rxy_unitary. rewrite !deg_rad. intros i j Hi Hj. rewrite <- (E i j Hi Hj).
  assert (T2 : Rabs (radians (rxy_theta theta) / 2 - radians t / 2) <= 56 / 1000000000000).
  { replace (radians (rxy_theta theta) / 2 - radians t / 2) with ((radians (rxy_theta theta) - radians t) * / 2) by field. rewrite Rabs_mult, (Rabs_right (/ 2)) by lra. lra. }
  destruct (rxy_close _ _ _ _ _ _ T2 P' i j Hi Hj) as [A B]. split; lra.
Qed.
