(** C63: the pulses that are played for a circuit of rotations on a transmon, and what they do to the qubit. *)
From Coq Require Import Reals Qreals QArith Qabs Qround Lra Lia.
From Verif Require Import Base DevModel DevSpec DevConf DevConfSpec DevConfThms4 FacModel FacSpec FacThms FacThms2 NumericModel NumericProps GateMat GateModel GateSpec GateProps GateThms GateThms2.
Local Open Scope string_scope.
Local Open Scope R_scope.

(** a gate on the qubit, with the angles given to its constructor *)
Inductive g1 := GRxy (theta phi : Q) | GRz (theta : Q).
Definition gate_unitary (g : g1) : mat := match g with GRxy t p => rxy_unitary t p | GRz t => rz_unitary t end.
(** the first gate is the factor on the right *)
Fixpoint circuit (gs : list g1) : mat := match gs with [] => ident | g :: r => mmul 2 (circuit r) (gate_unitary g) end.
(** compilation to pulses of the device (FacModel.gate_op, with the stored angles) *)
Definition compiled (cfg : config) (m : string) (g : g1) : result dop :=
  match g with
  | GRxy t p => gate_op cfg m "Rxy" false [("theta", numq (rxy_theta t)); ("phi", numq (rxy_phi p))] []
  | GRz t => gate_op cfg m "Rz" false [("theta", numq (rz_theta t))] []
  end.
Definition entries_of (d : dop) : list dict := match d with DOp _ ps _ => ps | _ => [] end.
(** What is played: a pulse with the phase [p], while the phase of its clock is [c], is played with the phase [p + c]
    (waveforms.py: rotate_wave multiplies by exp(i p); the modulation by the clock multiplies by exp(i (w t + c))). [amplitude, phase] *)
Definition quantity (v : cval) : Q := match fl v with Ok (Some q) => q | _ => 0%Q end.
Fixpoint played (c : Q) (es : list dict) : list (Q * Q) :=
  match es with
  | [] => []
  | e :: r => if is_none (FacModel.at_ e "wf_func") then played (c + quantity (FacModel.at_ e "phase_shift"))%Q r
              else (quantity (FacModel.at_ e "G_amp"), (c + quantity (FacModel.at_ e "phase"))%Q) :: played c r
  end.
(** What pulses do: the pulse of Rxy(theta, phi) has the amplitude amp180 * theta / 180 and the phase phi, and does the rotation Rxy(theta, phi)
    (or, if the axis turns the other way with the phase of the signal, Rxy(theta, -phi): [sign] is 1 or -1) *)
Fixpoint rotations (sign amp180 : Q) (ps : list (Q * Q)) : mat := match ps with [] => ident | (a, p) :: r => mmul 2 (rotations sign amp180 r) (Rxy_of (a * 180 / amp180) (sign * p)) end.
(** The pulses played for a circuit, on a qubit that starts in the state 0, give the outcomes of the circuit. *)
Definition PulsesImplement (sign : Q) (circuits : list g1 -> Prop) : Prop := forall cfg m x gs ds va a vm vt t port,
  configured cfg m x -> icls x = BasicTransmonElement -> value x "rxy" "amp180" = Some va -> number va = Some a -> ~ (a == 0)%Q -> value x "rxy" "motzoi" = Some vm ->
  value x "rxy" "duration" = Some vt -> number vt = Some t -> value x "ports" "microwave" = Some port -> circuits gs ->
  mapM (compiled cfg m) gs = Ok ds -> forall j, (j < 2)%nat -> probability (rotations sign a (played 0 (List.concat (map entries_of ds)))) j = probability (circuit gs) j.

(** ** moving rotations around z to the end *)
Lemma rxy_frame : forall t p a, meq 2 (mmul 2 (rxy_matrix t p) (rz_matrix a)) (mmul 2 (rz_matrix a) (rxy_matrix t (p - a))).
Proof.
  intros t p a. assert (E : forall x y, (cis x * cis y)%C = cis (x + y)) by (intros; now rewrite cis_add).
  apply meq2; unfold mmul, rxy_matrix, rz_matrix, m2; cbn [csum]; try ring.
  - transitivity (- ci * re (sin (t / 2)) * (cis (- p) * cis (a / 2)))%C; [ring|]. transitivity (- ci * re (sin (t / 2)) * (cis (- a / 2) * cis (- (p - a))))%C; [|ring]. rewrite !E. do 2 f_equal. field.
  - transitivity (- ci * re (sin (t / 2)) * (cis p * cis (- a / 2)))%C; [ring|]. transitivity (- ci * re (sin (t / 2)) * (cis (a / 2) * cis (p - a)))%C; [|ring]. rewrite !E. do 2 f_equal. field.
Qed.
(** the rotations of a circuit, each seen in the frame turned by the rotations around z before it *)
Fixpoint in_frame (c : Q) (gs : list g1) : list (Q * Q) :=
  match gs with [] => [] | GRxy t p :: r => (rxy_theta t, (rxy_phi p - c)%Q) :: in_frame c r | GRz t :: r => in_frame (c + rz_theta t)%Q r end.
Fixpoint turned (gs : list g1) : Q := match gs with [] => 0%Q | GRxy _ _ :: r => turned r | GRz t :: r => (rz_theta t + turned r)%Q end.
Fixpoint product (l : list (Q * Q)) : mat := match l with [] => ident | (t, p) :: r => mmul 2 (product r) (Rxy_of t p) end.
Lemma Rxy_eq : forall t p, meq 2 (Rxy_of t p) (rxy_matrix (radians t) (radians p)).
Proof. intros. apply meq_sym, rxy_rotation. Qed.
Lemma radians_sub : forall a b, radians (a - b) = radians a - radians b.
Proof. intros a b. unfold radians. rewrite Q2R_minus. field. Qed.
Lemma frame : forall gs c, meq 2 (mmul 2 (circuit gs) (rz_matrix (radians c))) (mmul 2 (rz_matrix (radians (c + turned gs))) (product (in_frame c gs))).
Proof.
  induction gs as [|[t p|t] gs IH]; intros c; cbn [circuit in_frame turned product gate_unitary].
  - eapply meq_trans; [apply mmul_ident2_l|]. apply meq_sym. eapply meq_trans; [apply mmul_ident2|]. rewrite (radians_eq (c + 0) c) by ring. apply meq_refl.
  - eapply meq_trans; [apply mmul_assoc2|]. unfold rxy_unitary. rewrite !deg_rad.
    eapply meq_trans; [apply mmul_meq; [apply meq_refl | apply rxy_frame]|]. eapply meq_trans; [apply meq_sym, mmul_assoc2|].
    eapply meq_trans; [apply mmul_meq; [apply IH | apply meq_refl]|]. eapply meq_trans; [apply mmul_assoc2|]. apply mmul_meq; [apply meq_refl|]. apply mmul_meq; [apply meq_refl|].
    rewrite <- radians_sub. apply meq_sym, Rxy_eq.
  - eapply meq_trans; [apply mmul_assoc2|]. unfold rz_unitary. rewrite deg_rad. eapply meq_trans; [apply mmul_meq; [apply meq_refl | apply rz_mul]|]. rewrite <- radians_add.
    rewrite (radians_eq (rz_theta t + c) (c + rz_theta t)) by ring. eapply meq_trans; [apply IH|]. rewrite (radians_eq (c + rz_theta t + turned gs) (c + (rz_theta t + turned gs))) by ring. apply meq_refl.
Qed.
(** A circuit is the product of its rotations in the plane, with the angle of every rotation around z before it taken off its phase, and a rotation around z at the end (which no measurement sees). *)
Theorem C63_frame : forall gs, meq 2 (circuit gs) (mmul 2 (Rz_of (turned gs)) (product (in_frame 0 gs))).
Proof.
  intros gs. pose proof (frame gs 0) as F. assert (Z : meq 2 (rz_matrix (radians 0)) ident).
  { assert (radians 0 = 0) as -> by (unfold radians, Q2R; cbn; field). apply meq2; unfold rz_matrix, ident, m2; cbn [Nat.eqb]; auto; replace (- 0 / 2) with 0 by field; replace (0 / 2) with 0 by field; apply cis_0. }
  eapply meq_trans; [apply meq_sym, mmul_ident2|]. eapply meq_trans; [apply mmul_meq; [apply meq_refl | apply meq_sym, Z]|]. eapply meq_trans; [exact F|].
  apply mmul_meq; [|apply meq_refl]. rewrite (radians_eq (0 + turned gs) (turned gs)) by ring. apply rz_rotation.
Qed.
Lemma probability_rz : forall t A j, (j < 2)%nat -> probability (mmul 2 (rz_matrix t) A) j = probability A j.
Proof.
  intros t A j H. unfold probability, mmul, rz_matrix, m2. destruct j as [|[|j]]; [| |lia]; cbn [csum].
  - transitivity (sqmod (cis (- t / 2) * A 0%nat 0%nat)%C); [f_equal; ring|]. rewrite sqmod_mul, sqmod_cis. ring.
  - transitivity (sqmod (cis (t / 2) * A 1%nat 0%nat)%C); [f_equal; ring|]. rewrite sqmod_mul, sqmod_cis. ring.
Qed.
Lemma probability_meq : forall A B j, meq 2 A B -> (j < 2)%nat -> probability A j = probability B j.
Proof. intros A B j H Hj. unfold probability. now rewrite (H j 0%nat Hj ltac:(lia)). Qed.
Theorem C63_outcomes : forall gs j, (j < 2)%nat -> probability (circuit gs) j = probability (product (in_frame 0 gs)) j.
Proof.
  intros gs j H. rewrite (probability_meq _ _ _ (C63_frame gs) H). rewrite (probability_meq _ (mmul 2 (rz_matrix (radians (turned gs))) (product (in_frame 0 gs)))); auto; [now apply probability_rz|].
  apply mmul_meq; [apply meq_sym, rz_rotation | apply meq_refl].
Qed.

(** ** what is played *)
Fixpoint plus_frame (c : Q) (gs : list g1) : list (Q * Q) :=
  match gs with [] => [] | GRxy t p :: r => (rxy_theta t, (c + rxy_phi p)%Q) :: plus_frame c r | GRz t :: r => plus_frame (c + rz_theta t)%Q r end.
Definition as_played (a : Q) (q r : Q * Q) : Prop := (fst q == a * (fst r / 180))%Q /\ (snd q == snd r)%Q.
Lemma field_at : forall e l k v, fields e l -> In (k, v) l -> FacModel.at_ e k = v.
Proof. intros e l k v F I. unfold fields in F. rewrite Forall_forall in F. specialize (F _ I). cbn in F. unfold FacModel.at_. now rewrite F. Qed.
Lemma played_plus : forall cfg m x va a vm vt t port, configured cfg m x -> icls x = BasicTransmonElement -> value x "rxy" "amp180" = Some va -> number va = Some a -> value x "rxy" "motzoi" = Some vm ->
  value x "rxy" "duration" = Some vt -> number vt = Some t -> value x "ports" "microwave" = Some port ->
  forall gs ds c c', mapM (compiled cfg m) gs = Ok ds -> (c == c')%Q -> Forall2 (as_played a) (played c (List.concat (map entries_of ds))) (plus_frame c' gs).
Proof.
  intros cfg m x va a vm vt t port C X Va Na Vm Vt Nt P. induction gs as [|g gs IH]; intros ds c c' H E; cbn [mapM] in H.
  - injection H as <-. constructor.
  - destruct (compiled cfg m g) as [d|] eqn:Eg; [cbn [bind] in H | discriminate H]. destruct (mapM (compiled cfg m) gs) as [ds'|] eqn:Es; [|discriminate H]. injection H as <-. cbn [map List.concat].
    destruct g as [th ph|th]; cbn [compiled plus_frame] in *.
    + destruct (C62_rxy_transmon cfg m x [("theta", numq (rxy_theta th)); ("phi", numq (rxy_phi ph))] va a vm vt t port (numq (rxy_theta th)) (rxy_theta th) (numq (rxy_phi ph)) C X Va Na Vm Vt Nt P eq_refl eq_refl eq_refl) as [e [amp [ref [G [A [_ F]]]]]].
      rewrite Eg in G. injection G as ->. cbn [entries_of List.app played]. rewrite (field_at _ _ "wf_func" _ F ltac:(cbn; tauto)), (field_at _ _ "G_amp" _ F ltac:(cbn; tauto)), (field_at _ _ "phase" _ F ltac:(cbn; tauto)).
      cbn [is_none str]. constructor; [|now apply IH]. split; cbn; [exact A | now rewrite E].
    + destruct (C62_rz cfg m x [("theta", numq (rz_theta th))] (numq (rz_theta th)) C (or_introl X) eq_refl) as [e [G F]]. rewrite Eg in G. injection G as ->. cbn [entries_of List.app played].
      rewrite (field_at _ _ "wf_func" _ F ltac:(cbn; tauto)), (field_at _ _ "phase_shift" _ F ltac:(cbn; tauto)). cbn [is_none none]. apply IH; [reflexivity|]. cbn. now rewrite E.
Qed.
Lemma rotations_product : forall a l l', ~ (a == 0)%Q -> Forall2 (as_played a) l l' -> meq 2 (rotations 1 a l) (product l').
Proof.
  intros a l l' A F. induction F as [|[q p] [t ph] l l' [H1 H2] F IH]; cbn [rotations product]; [apply meq_refl|]. apply mmul_meq; [exact IH|]. cbn in H1, H2.
  unfold Rxy_of. rewrite (radians_eq (1 * p) ph), (radians_eq (q * 180 / a) t); [apply meq_refl | | rewrite H2; ring]. rewrite H1. field. exact A.
Qed.
(** circuits in which every rotation around z is by a multiple of 180 degrees *)
Definition half_turns_only (gs : list g1) : Prop := forall th, In (GRz th) gs -> exists k, (th == inject_Z k * 180)%Q.
Lemma plus_minus : forall gs c k, half_turns_only gs -> (c == inject_Z k * 180)%Q -> meq 2 (product (plus_frame c gs)) (product (in_frame c gs)).
Proof.
  induction gs as [|[t p|t] gs IH]; intros c k H E; cbn [plus_frame in_frame product]; [apply meq_refl | |].
  - apply mmul_meq; [apply (IH c k); auto; intros th I; apply H; now right|]. eapply meq_trans; [apply Rxy_eq|]. apply meq_sym. eapply meq_trans; [apply Rxy_eq|].
    assert (R : radians (c + rxy_phi p) = radians (rxy_phi p - c) + IZR k * (2 * PI)).
    { rewrite <- radians_turns. apply radians_eq. assert (E2 : (c + c == inject_Z k * 360)%Q) by (rewrite E; ring). rewrite <- E2. ring. }
    rewrite R. apply meq_sym. pose proof (rxy_turns (radians (rxy_theta t)) (radians (rxy_phi p - c)) 0 k) as T. cbn [sgn Z.even] in T. replace (radians (rxy_theta t) + 0 * (2 * PI)) with (radians (rxy_theta t)) in T by ring.
    eapply meq_trans; [exact T|]. intros i j _ _. unfold scale, sgn. cbn [Z.even]. ring.
  - destruct (H t (or_introl eq_refl)) as [n N]. destruct (C10_angle_in_range_and_equivalent t) as [_ [_ [l L]]]. apply (IH _ (k + (n + 2 * l))%Z); [intros th I; apply H; now right|].
    rewrite E, L, N, !inject_Z_plus, inject_Z_mult. change (inject_Z 2) with 2%Q. ring.
Qed.
(** Only for these is the circuit implemented. Missing: other rotations around z (refuted below). *)
Theorem C63_pulses_implement_partial : PulsesImplement 1 half_turns_only.
Proof.
  intros cfg m x gs ds va a vm vt t port C X Va Na A Vm Vt Nt P H M j Hj. rewrite (C63_outcomes gs j Hj).
  apply probability_meq; auto. eapply meq_trans; [apply rotations_product; [exact A | exact (played_plus _ _ _ _ _ _ _ _ _ C X Va Na Vm Vt Nt P _ _ _ _ M (Qeq_refl 0))]|].
  apply (plus_minus gs 0 0%Z H). reflexivity.
Qed.
