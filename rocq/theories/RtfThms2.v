(** C71: the theorems. *)
From Verif Require Import Base CircModel PathModel RtfModel RtfSpec RtfProps RtfProps2 RtfThms.
From Coq Require Import Ascii.
Local Open Scope string_scope.
Local Open Scope list_scope.
Local Open Scope Z_scope.

Lemma compensation_inv descs pcs confs s confs' : valid pcs -> latency_compensation baseband descs pcs confs = Ok (s, confs') ->
  kept confs confs' /\ List.length s = 4%nat /\
  (forall o d f, nth_error s o = Some d -> r_coeffs (d f) = None /\
     ((r_cfg (d f) = Bypassed /\ forall k, ~ compensates descs pcs o k) \/ exists k, compensates descs pcs o k /\ r_cfg (d f) = if Z.testbit k (bit f) then DelayComp else Bypassed) /\
     ((r_delay (d f) = false /\ forall k, ~ compensates_marker descs pcs o k) \/ exists k, compensates_marker descs pcs o k /\ r_delay (d f) = Z.testbit k (bit f))) /\
  (forall ch d outs o, In (ch, Some d) descs -> used pcs ch -> d_debug d = Some true -> In (ch, outs) drives -> In o outs ->
     ~ used pcs (digital_name o) /\ forall c, nget confs' o = Some c -> f_debug c = true).
Proof.
  intros V E. unfold latency_compensation in E. destruct (lat_inv _ _ _ _ _ _ _ _ winv_fresh E) as ([L C F D] & K & G). cbn [app] in *.
  split; [exact K|]. split; [exact L|]. split.
  - intros o d f H. split; [now apply (C o d)|]. split.
    + destruct (F o d f H) as [[A B]|(k & A & B)]; [left; split; [exact A|]; intros k X; now apply (B k), evs_out_iff|right; exists k; split; [now apply evs_out_iff|exact B]].
    + destruct (D o d f H) as [[A B]|(k & A & B)]; [left; split; [exact A|]; intros k X; now apply (B k), evs_mark_iff|right; exists k; split; [now apply evs_mark_iff|exact B]].
  - intros ch d outs o H U DD DR O. destruct (drives_outs _ _ DR) as [CO DG].
    destruct (G ch d o H) as [G1 G2]; [now apply memb_used|exact DG|exact DD|unfold outs_of; now rewrite CO|]. split; [|exact G2].
    intros X. apply memb_used in X. congruence.
Qed.

(** what configure_qcm does, in terms of the corrections that reach an output *)
Lemma qcm_inv descs pcs dcs s : valid pcs -> fitting dcs pcs -> configure_qcm descs pcs (Some dcs) = Ok s ->
  exists confs s0, confinv dcs pcs confs /\ List.length s0 = 4%nat /\ List.length s = 4%nat /\
  (forall o d, nth_error s o = Some d -> exists d0, nth_error s0 o = Some d0 /\ forall f, d f = match nget confs o with Some c => after c d0 f | None => d0 f end) /\
  (forall o c, nget confs o = Some c -> forall f v, f_corr c f = Some v -> bad_coeffs f v = false) /\
  (forall o c, nget confs o = Some c -> (o < 4)%nat) /\
  (forall o d f, nth_error s0 o = Some d -> r_coeffs (d f) = None /\
     ((r_cfg (d f) = Bypassed /\ forall k, ~ compensates descs pcs o k) \/ exists k, compensates descs pcs o k /\ r_cfg (d f) = if Z.testbit k (bit f) then DelayComp else Bypassed) /\
     ((r_delay (d f) = false /\ forall k, ~ compensates_marker descs pcs o k) \/ exists k, compensates_marker descs pcs o k /\ r_delay (d f) = Z.testbit k (bit f))) /\
  (forall ch d outs o, In (ch, Some d) descs -> used pcs ch -> d_debug d = Some true -> In (ch, outs) drives -> In o outs ->
     ~ used pcs (digital_name o) /\ forall c, nget confs o = Some c -> f_debug c = true).
Proof.
  intros V FT E. unfold configure_qcm in E. destruct (distortion_configs descs pcs dcs) as [confs0|] eqn:DC; cbn [bind] in E; [|discriminate].
  destruct (latency_compensation baseband descs pcs confs0) as [[s0 confs]|] eqn:LC; cbn [bind fst snd] in E; [|discriminate].
  pose proof (confs_inv _ _ _ _ FT DC) as [I1 I2 I3]. destruct (compensation_inv _ _ _ _ _ V LC) as ([K1 K2] & L & S0 & G).
  assert (ND : NoDup (map fst confs)) by (rewrite K1; exact I3). destruct (apply_inv _ _ _ ND E) as (L2 & A & B).
  exists confs, s0. split; [|split; [exact L|split; [congruence|split; [exact A|split; [|split; [|split; [exact S0|exact G]]]]]]].
  - constructor; [|intros o c H; apply nget_in; rewrite K1; apply nget_in; now apply (I2 o c)|exact ND].
    intros o c H. destruct (K2 _ _ H) as (c0 & H0 & -> & _). now apply I1.
  - intros o c H. destruct (B _ _ H) as [_ B2]. exact B2.
  - intros o c H. rewrite <- L. destruct (B _ _ H) as [B2 _]. exact B2.
Qed.

Lemma nth_some {A} (l : list A) n : (n < List.length l)%nat -> exists x, nth_error l n = Some x.
Proof. intros H. destruct (nth_error l n) eqn:E; [eauto|]. apply nth_error_None in E. lia. Qed.

(** The filters of a correction are enabled, with their coefficients, at the outputs of its port-clock. *)
Theorem C71_enabled descs pcs dcs s o c f v : valid pcs -> fitting dcs pcs -> no_overlap dcs pcs -> configure_qcm descs pcs (Some dcs) = Ok s ->
  assigned dcs pcs o c -> c f = Some v ->
  exists d, nth_error s o = Some d /\ r_coeffs (d f) = Some v /\ r_cfg (d f) = Enabled.
Proof.
  intros V FT NO E A CF. destruct (qcm_inv _ _ _ _ V FT E) as (confs & s0 & [I1 I2 _] & _ & L & S1 & _ & LT & _ & _).
  destruct (nget confs o) as [c'|] eqn:N; [|exfalso; now apply (I2 o c)]. assert (f_corr c' = c) by (apply (NO o); [now apply I1|exact A]). subst c.
  destruct (nth_some s o) as [d H]; [rewrite L; now apply (LT o c')|]. exists d. split; [exact H|]. destruct (S1 _ _ H) as (d0 & _ & K). rewrite (K f), N. unfold after. rewrite CF. auto.
Qed.

(** Every other filter of an output has no coefficients, and is bypassed or, if the channel of the output asks for it, delay-compensated. *)
Theorem C71_compensated descs pcs dcs s o f : valid pcs -> fitting dcs pcs -> configure_qcm descs pcs (Some dcs) = Ok s -> (o < 4)%nat ->
  (forall c, assigned dcs pcs o c -> c f = None) ->
  exists d, nth_error s o = Some d /\ r_coeffs (d f) = None /\
    ((forall k, ~ compensates descs pcs o k) -> r_cfg (d f) = Bypassed) /\
    (forall k, compensates descs pcs o k -> (forall k', compensates descs pcs o k' -> k' = k) -> r_cfg (d f) = if Z.testbit k (bit f) then DelayComp else Bypassed) /\
    ((forall k, ~ compensates_marker descs pcs o k) -> r_delay (d f) = false) /\
    (forall k, compensates_marker descs pcs o k -> (forall k', compensates_marker descs pcs o k' -> k' = k) -> r_delay (d f) = Z.testbit k (bit f)).
Proof.
  intros V FT E O N. destruct (qcm_inv _ _ _ _ V FT E) as (confs & s0 & [I1 _ _] & _ & L & S1 & _ & _ & S0 & _).
  destruct (nth_some s o) as [d H]; [lia|]. exists d. split; [exact H|]. destruct (S1 _ _ H) as (d0 & H0 & K).
  assert (X : d f = d0 f). { rewrite (K f). destruct (nget confs o) as [c|] eqn:NG; [|reflexivity]. unfold after. now rewrite (N _ (I1 _ _ NG)). }
  rewrite X. destruct (S0 o d0 f H0) as (P1 & P2 & P3). split; [exact P1|]. repeat split.
  - intros Z0. destruct P2 as [[P _]|(k & P & _)]; [exact P|exfalso; now apply (Z0 k)].
  - intros k C U. destruct P2 as [[_ P]|(k' & P & Q0)]; [exfalso; now apply (P k)|]. now rewrite Q0, (U _ P).
  - intros Z0. destruct P3 as [[P _]|(k & P & _)]; [exact P|exfalso; now apply (Z0 k)].
  - intros k C U. destruct P3 as [[_ P]|(k' & P & Q0)]; [exfalso; now apply (P k)|]. now rewrite Q0, (U _ P).
Qed.

(** In marker debug mode the marker of an output is delayed with every enabled filter, and it cannot be used for anything else. *)
Theorem C71_debug descs pcs dcs s ch d0 outs o : valid pcs -> fitting dcs pcs -> configure_qcm descs pcs (Some dcs) = Ok s ->
  In (ch, Some d0) descs -> used pcs ch -> d_debug d0 = Some true -> In (ch, outs) drives -> In o outs ->
  ~ used pcs (digital_name o) /\ forall c f v d, assigned dcs pcs o c -> no_overlap dcs pcs -> c f = Some v -> nth_error s o = Some d -> r_delay (d f) = true.
Proof.
  intros V FT E H U DD DR O. destruct (qcm_inv _ _ _ _ V FT E) as (confs & s0 & [I1 I2 _] & _ & L & S1 & _ & _ & _ & G).
  destruct (G _ _ _ _ H U DD DR O) as [G1 G2]. split; [exact G1|]. intros c f v d A NO CF ND. destruct (S1 _ _ ND) as (d1 & _ & K). rewrite (K f).
  destruct (nget confs o) as [c'|] eqn:N; [|exfalso; now apply (I2 o c)]. assert (f_corr c' = c) by (apply (NO o); [now apply I1|exact A]). subst c.
  unfold after. rewrite CF. cbn [r_delay]. now rewrite (G2 _ eq_refl).
Qed.

(** Exponential coefficients outside their range, and wrong numbers of coefficients, are refused. Missing: the range of the FIR coefficients (false, see below). *)
Theorem C71_range_partial descs pcs dcs s o c f v : valid pcs -> fitting dcs pcs -> no_overlap dcs pcs -> configure_qcm descs pcs (Some dcs) = Ok s ->
  assigned dcs pcs o c -> c f = Some v -> (f <> Fir -> in_range f v) /\ (f = Fir -> List.length v = 32%nat).
Proof.
  intros V FT NO E A CF. destruct (qcm_inv _ _ _ _ V FT E) as (confs & s0 & [I1 I2 _] & _ & _ & _ & B & _).
  destruct (nget confs o) as [c'|] eqn:N; [|exfalso; now apply (I2 o c)]. assert (f_corr c' = c) by (apply (NO o); [now apply I1|exact A]). subst c.
  pose proof (B _ _ N _ _ CF) as G. split.
  - intros NF. assert (X : match v with [t; a] => Qlt_bool t 6 || Qlt_bool a (-1) || Qle_bool 1 a | _ => true end = false) by (destruct f; try exact G; congruence).
    assert (Y : exists t a, v = [t; a] /\ (6 <= t)%Q /\ (-1 <= a < 1)%Q); [|destruct f; try exact Y; congruence].
    destruct v as [|t [|a [|? ?]]]; try discriminate. exists t, a. split; [reflexivity|]. apply orb_false_iff in X. destruct X as [X X3]. apply orb_false_iff in X. destruct X as [X1 X2].
    unfold Qlt_bool in X1, X2. apply negb_false_iff, Qle_bool_iff in X1, X2. split; [exact X1|]. split; [exact X2|].
    apply Qnot_le_lt. intros Y. apply Qle_bool_iff in Y. congruence.
  - intros ->. unfold bad_coeffs in G. apply orb_false_iff in G. destruct G as [G _]. apply orb_false_iff in G. destruct G as [G _]. apply negb_false_iff, Nat.eqb_eq in G. exact G.
Qed.

(** The other modules with baseband outputs (QRM) have the compensation only. *)
Theorem C71_other descs pcs s o f : valid pcs -> configure_other baseband descs pcs = Ok s -> (o < 4)%nat ->
  exists d, nth_error s o = Some d /\ r_coeffs (d f) = None /\
    ((forall k, ~ compensates descs pcs o k) -> r_cfg (d f) = Bypassed) /\
    (forall k, compensates descs pcs o k -> (forall k', compensates descs pcs o k' -> k' = k) -> r_cfg (d f) = if Z.testbit k (bit f) then DelayComp else Bypassed) /\
    ((forall k, ~ compensates_marker descs pcs o k) -> r_delay (d f) = false) /\
    (forall k, compensates_marker descs pcs o k -> (forall k', compensates_marker descs pcs o k' -> k' = k) -> r_delay (d f) = Z.testbit k (bit f)).
Proof.
  intros V E O. apply (C71_compensated descs pcs [] s); auto; [intros ? ? ? []| |intros c (? & ? & ? & [] & _)].
  unfold configure_other in E. unfold configure_qcm, distortion_configs. cbn [foldM bind]. destruct (latency_compensation baseband descs pcs []) as [[s0 confs]|] eqn:LC; cbn [bind fst snd] in *; [|discriminate].
  destruct (compensation_inv _ _ _ _ _ V LC) as ([K _] & _). destruct confs; [cbn [foldM]; exact E|discriminate].
Qed.
