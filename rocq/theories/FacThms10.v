(** C62: the preparation of two spins. *)
From Coq Require Import Ascii Lqa.
From Verif Require Import Base DevModel DevSpec DevProps DevProps2 DevConf TimingModel TimingSpec TimingProps FacModel FacSpec FacProps FacThms FacThms2 FacThms3 FacThms4 FacThms7.
Local Open Scope string_scope.

Lemma det_init : forall x1 x2 x3 x4 r3 r4, 0 <= x1 -> x1 == x2 -> 0 <= r3 -> 0 <= r3 + r4 ->
  let tc pt r := [{| tc_ref := None; tc_pt := pt; tc_ptnew := None; tc_rel := r |}] in
  exists D its a1 a2 a3 a4, (forall dl, determine ASAP (OSched None dl 1 [Item (slot 0) (tc None 0) None (OLeaf true x1 None); Item (slot 1) (tc (Some PtStart) 0) None (OLeaf true x2 None);
     Item (slot 2) (tc (Some PtEnd) r3) None (OLeaf true x3 None); Item (slot 3) (tc (Some PtStart) r4) None (OLeaf true x4 None)]) = Ok (OSched (Some D) dl 1 its)) /\
   map (fun i => (it_abs i, it_op i)) its = [(Some a1, OLeaf true x1 None); (Some a2, OLeaf true x2 None); (Some a3, OLeaf true x3 None); (Some a4, OLeaf true x4 None)] /\
   a1 == 0 /\ a2 == 0 /\ a3 == x1 + r3 /\ a4 == x1 + r3 + r4 /\ lasts_until D [x1; x2; a3 + x3; a4 + x4].
Proof.
  intros x1 x2 x3 x4 r3 r4 X1 X12 R3 R4 tc.
  pose (ss := [mk (slot 0) x1 None (tc None 0); mk (slot 1) x2 None (tc (Some PtStart) 0); mk (slot 2) x3 None (tc (Some PtEnd) r3); mk (slot 3) x4 None (tc (Some PtStart) r4)]).
  assert (exists l, determine_level ASAP 1 ss = Ok (normalize l, schedule_duration 1 (normalize l)) /\
    map (fun s => (s_abs s, s_dur s)) l = [(Some 0, x1); (Some (0 + 0), x2); (Some (0 + 0 + x2 + r3), x3); (Some (0 + 0 + x2 + r3 + r4), x4)]) as [l [E M]].
  { eexists. split; [cbv -[normalize schedule_duration Qplus Qminus Qmult Qopp]; reflexivity | reflexivity]. }
  assert (exists s1 s2 s3 s4, l = [s1; s2; s3; s4]) as [s1 [s2 [s3 [s4 ->]]]] by (destruct l as [|s1 [|s2 [|s3 [|s4 [|s5 l]]]]]; try discriminate M; eauto).
  cbn in M. injection M as A1 L1 A2 L2 A3 L3 A4 L4.
  assert (N : normalize [s1; s2; s3; s4] = [s1; s2; s3; s4]).
  { apply C04_normalisation.
    - intros s I. cbn in I. intuition (subst s; eauto).
    - intros n t [s [I [_ T]]]. cbn in I. intuition (subst s; rewrite T in *; match goal with H : Some _ = Some _ |- _ => injection H as -> end; lra). }
  rewrite N in E. eexists (schedule_duration 1 [s1; s2; s3; s4]), _, _, _, _, _. split; [|split; [|split; [|split; [|split; [|split]]]]].
  - intros dl. rewrite determine_steps. cbn [sub_steps sub_step bind mapM]. unfold item_sch at 1 2 3 4. cbn [it_op op_dur op_delay it_name it_tcs it_abs bind].
    fold (mk (slot 0) x1 None (tc None 0)) (mk (slot 1) x2 None (tc (Some PtStart) 0)) (mk (slot 2) x3 None (tc (Some PtEnd) r3)) (mk (slot 3) x4 None (tc (Some PtStart) r4)). fold ss. rewrite E. cbn [bind fst snd write_all]. reflexivity.
  - cbn. rewrite A1, A2, A3, A4. reflexivity.
  - lra.
  - lra.
  - lra.
  - lra.
  - eapply lasts_equiv; [|apply duration_lasts; reflexivity]. cbn. unfold abs_of. rewrite A1, A2, A3, A4, L1, L2, L3, L4. repeat (apply Forall2_cons || apply Forall2_nil); lra.
Qed.
Definition ramp_of (a : dict) (who : string) (e : dict) : Prop := exists v x y, at_ a (who ++ "_ramp_amp") = x /\ at_ a (who ++ "_ramp_rate") = y /\
  fields e [("wf_func", str "quantify_scheduler.waveforms.ramp"); ("amp", x); ("port", at_ a (who ++ "_port")); ("clock", at_ a (who ++ "_clock")); ("t0", zero); ("offset", zero); ("duration", v)] /\
  forall p r, fl x = Ok (Some p) -> fl y = Ok (Some r) -> ~ r == 0 /\ exists l, fl v = Ok (Some l) /\ l == p / r.
Definition square_of (a : dict) (who : string) (e : dict) : Prop :=
  fields e [("wf_func", str "quantify_scheduler.waveforms.square"); ("amp", at_ a (who ++ "_square_amp")); ("port", at_ a (who ++ "_port")); ("clock", at_ a (who ++ "_clock")); ("t0", zero); ("duration", at_ a "square_duration")].
Lemma divided : forall x y v, divide x y = Ok v -> forall p r, fl x = Ok (Some p) -> fl y = Ok (Some r) -> ~ r == 0 /\ exists l, fl v = Ok (Some l) /\ l == p / r.
Proof.
  intros x y v H p r P R. unfold divide in H. rewrite P, R in H. cbn [bind] in H. destruct (Qeq_bool r 0) eqn:Z; [discriminate H|].
  split; [intros E; apply Qeq_bool_iff in E; congruence|]. unfold arith in H. rewrite P, R in H. cbn in H. injection H as <-. exists (p / r). split; reflexivity.
Qed.
(** The preparation of two spins: both square pulses start at once; then the two ramps, from 0 to their amplitude at their rate: the one of the child ramp_diff after the one of the parent, and the first of them when the squares end. *)
Theorem C62_spin_init : forall a d T diff, spin_init_pulse a = Ok d -> fl (at_ a "square_duration") = Ok (Some T) -> 0 <= T -> fl (at_ a "ramp_diff") = Ok (Some diff) ->
  exists sp sc rp rc tp tc, square_of a "parent" sp /\ square_of a "child" sc /\ ramp_of a "parent" rp /\ ramp_of a "child" rc /\
    tc - tp == diff /\ T <= tp /\ T <= tc /\ (tp == T \/ tc == T) /\
    forall o, timing d = Ok o -> exists o' D lp lc, determine ASAP o = Ok o' /\ op_dur o' = Some D /\ fl (at_ rp "duration") = Ok (Some lp) /\ fl (at_ rc "duration") = Ok (Some lc) /\ lasts_until D [T; tp + lp; tc + lc] /\
      forall t e s, Plays d o' t e s <-> (e = sp \/ e = sc) /\ s == t \/ e = rp /\ s == t + tp \/ e = rc /\ s == t + tc.
Proof.
  intros a d T diff H QT PT Qd. unfold spin_init_pulse in H.
  apply bindE in H as [s1 [S1 H]]. apply bindE in H as [s2 [S2 H]]. apply bindE in H as [rel [R H]]. apply bindE in H as [d1 [D1 H]]. apply bindE in H as [r1 [R1 H]]. apply bindE in H as [d2 [D2 H]]. apply bindE in H as [r2 [R2 H]]. injection H as <-.
  apply made_ok in S1, S2, R1, R2.
  match type of S1 with _ = DOp _ [?e] _ => set (sp := e) in * end. match type of S2 with _ = DOp _ [?e] _ => set (sc := e) in * end. match type of R1 with _ = DOp _ [?e] _ => set (rp := e) in * end. match type of R2 with _ = DOp _ [?e] _ => set (rc := e) in * end.
  unfold absmin0 in R. rewrite Qd in R. cbn [bind] in R.
  assert (exists r, fl rel = Ok (Some r) /\ 0 <= r /\ 0 <= r + diff /\ (r == 0 \/ r + diff == 0)) as [r [Fr [Pr [Pd Z]]]].
  { unfold Qlt_bool in R. destruct (Qle_bool diff 0) eqn:L; cbn [negb] in R; injection R as <-.
    - apply Qle_bool_iff in L. exists (- diff). split; [reflexivity|]. split; [lra|]. split; [lra|]. right. lra.
    - assert (0 <= diff). { destruct (Qlt_le_dec diff 0) as [X|X]; auto. apply Qlt_le_weak, Qle_bool_iff in X. congruence. } exists 0. split; [reflexivity|]. split; [lra|]. split; [lra|]. left. lra. }
  exists sp, sc, rp, rc, (T + r), (T + r + diff).
  split; [subst sp; unfold square_of; fs|]. split; [subst sc; unfold square_of; fs|].
  split; [exists d1; eexists _, _; split; [reflexivity|]; split; [reflexivity|]; split; [subst rp; fs | now apply divided]|].
  split; [exists d2; eexists _, _; split; [reflexivity|]; split; [reflexivity|]; split; [subst rc; fs | now apply divided]|].
  split; [lra|]. split; [lra|]. split; [lra|]. split; [destruct Z as [Z|Z]; [left | right]; lra|].
  intros o O. cbn [timing bind] in O. unfold time at 1 in O.
  assert (G1 : single s1 sp) by (exists "SquarePulse"; subst s1; now left). assert (G2 : single s2 sc) by (exists "SquarePulse"; subst s2; now left).
  assert (G3 : single r1 rp) by (exists "RampPulse"; subst r1; now left). assert (G4 : single r2 rc) by (exists "RampPulse"; subst r2; now left).
  apply bindE in O as [is [O E]]. injection E as <-.
  apply bindE in O as [o1 [O1 O]]. apply bindE in O as [z1 [Z1 O]]. apply bindE in O as [is1 [O E]]. injection E as <-. injection Z1 as <-.
  apply bindE in O as [o2 [O2 O]]. apply bindE in O as [z2 [Z2 O]]. apply bindE in O as [is2 [O E]]. injection E as <-. injection Z2 as <-.
  apply bindE in O as [o3 [O3 O]]. apply bindE in O as [z3 [Z3 O]]. apply bindE in O as [is3 [O E]]. injection E as <-.
  apply bindE in O as [o4 [O4 O]]. apply bindE in O as [z4 [Z4 O]]. injection O as <-.
  unfold time in Z3, Z4. rewrite Fr in Z3. rewrite Qd in Z4. injection Z3 as <-. injection Z4 as <-.
  destruct (timing_single _ _ _ G1 O1) as [a1 [b1 [U1 [V1 ->]]]]. destruct (timing_single _ _ _ G2 O2) as [a2 [b2 [U2 [V2 ->]]]]. destruct (timing_single _ _ _ G3 O3) as [a3 [b3 [U3 [V3 ->]]]]. destruct (timing_single _ _ _ G4 O4) as [a4 [b4 [U4 [V4 ->]]]].
  assert (a1 = 0) as -> by (now injection U1). assert (a2 = 0) as -> by (now injection U2). assert (a3 = 0) as -> by (now injection U3). assert (a4 = 0) as -> by (now injection U4).
  assert (b1 = T) as -> by (enough (X : Ok (Some T) = Ok (Some b1)) by (now injection X); rewrite <- QT; exact V1). assert (b2 = T) as -> by (enough (X : Ok (Some T) = Ok (Some b2)) by (now injection X); rewrite <- QT; exact V2).
  destruct (det_init (0 + T) (0 + T) (0 + b3) (0 + b4) r diff) as [D [its [c1 [c2 [c3 [c4 [E [M [C1 [C2 [C3 [C4 L]]]]]]]]]]]]; [lra | reflexivity | exact Pr | exact Pd |].
  exists (OSched (Some D) None 1 its), D, b3, b4. split; [apply E|]. split; [reflexivity|]. split; [exact V3|]. split; [exact V4|]. split.
  - destruct L as [L1 [L2 L3]]. split; [exact L1|]. split.
    + intros q [<-|[<-|[<-|[]]]]; [apply Qle_trans with (0 + T); [lra | apply L2; cbn; auto] | apply Qle_trans with (c3 + (0 + b3)); [lra | apply L2; cbn; auto] | apply Qle_trans with (c4 + (0 + b4)); [lra | apply L2; cbn; auto]].
    + destruct L3 as [L3|[q [I L3]]]; [now left | right]. destruct I as [<-|[<-|[<-|[<-|[]]]]].
      * exists T. split; [cbn; auto | lra].
      * exists T. split; [cbn; auto | lra].
      * exists (T + r + b3). split; [cbn; auto | lra].
      * exists (T + r + diff + b4). split; [cbn; auto | lra].
  - assert (exists i1 i2 i3 i4, its = [i1; i2; i3; i4]) as [i1 [i2 [i3 [i4 ->]]]] by (destruct its as [|s1' [|s2' [|s3' [|s4' [|s5' l]]]]]; try discriminate M; eauto).
    cbn in M. injection M as W1 Y1 W2 Y2 W3 Y3 W4 Y4. intros t e s. rewrite plays_sched. split.
    + intros [k [d' [pt [rl [i [w [K1 [K2 [K3 K4]]]]]]]]]. destruct k as [|[|[|[|k]]]]; cbn in K1, K2; try (injection K1 as <- <- <-; injection K2 as <-).
      * rewrite Y1 in K4. apply (plays_single _ _ _ _ _ _ _ _ _ G1 U1) in K4 as [-> K4]. left. split; auto. rewrite W1 in K3. injection K3 as <-. lra.
      * rewrite Y2 in K4. apply (plays_single _ _ _ _ _ _ _ _ _ G2 U2) in K4 as [-> K4]. left. split; auto. rewrite W2 in K3. injection K3 as <-. lra.
      * rewrite Y3 in K4. apply (plays_single _ _ _ _ _ _ _ _ _ G3 U3) in K4 as [-> K4]. right; left. split; auto. rewrite W3 in K3. injection K3 as <-. lra.
      * rewrite Y4 in K4. apply (plays_single _ _ _ _ _ _ _ _ _ G4 U4) in K4 as [-> K4]. right; right. split; auto. rewrite W4 in K3. injection K3 as <-. lra.
      * destruct k; discriminate K1.
    + intros [[[-> | ->] P]|[[-> P]|[-> P]]].
      * exists 0%nat. eexists _, _, _, _, c1. split; [reflexivity|]. split; [reflexivity|]. split; [exact W1|]. rewrite Y1. apply (plays_single _ _ _ _ _ _ _ _ _ G1 U1). split; auto. lra.
      * exists 1%nat. eexists _, _, _, _, c2. split; [reflexivity|]. split; [reflexivity|]. split; [exact W2|]. rewrite Y2. apply (plays_single _ _ _ _ _ _ _ _ _ G2 U2). split; auto. lra.
      * exists 2%nat. eexists _, _, _, _, c3. split; [reflexivity|]. split; [reflexivity|]. split; [exact W3|]. rewrite Y3. apply (plays_single _ _ _ _ _ _ _ _ _ G3 U3). split; auto. lra.
      * exists 3%nat. eexists _, _, _, _, c4. split; [reflexivity|]. split; [reflexivity|]. split; [exact W4|]. rewrite Y4. apply (plays_single _ _ _ _ _ _ _ _ _ G4 U4). split; auto. lra.
Qed.
(** the hypotheses hold: the child ramps 20 ns before the parent *)
Example spin_init_example : exists d o o', let a := [("square_duration", numq (1 # 10000000)); ("ramp_diff", numq (- (1 # 50000000))); ("parent_port", str "q0:gt"); ("parent_clock", str "cl0.baseband"); ("parent_square_amp", numq (1 # 2)); ("parent_ramp_amp", numq (1 # 4)); ("parent_ramp_rate", CV (VInt 1000000));
    ("child_port", str "q1:gt"); ("child_clock", str "cl0.baseband"); ("child_square_amp", numq (1 # 3)); ("child_ramp_amp", numq (1 # 4)); ("child_ramp_rate", CV (VInt 2000000))] in
  spin_init_pulse a = Ok d /\ fl (at_ a "square_duration") = Ok (Some (1 # 10000000)) /\ timing d = Ok o /\ determine ASAP o = Ok o' /\
  (exists e s, Plays d o' 0 e s /\ at_ e "port" = str "q0:gt" /\ s == 3 # 25000000) /\ (exists e s, Plays d o' 0 e s /\ at_ e "port" = str "q1:gt" /\ s == 1 # 10000000).
Proof.
  eexists _, _, _. split; [vm_compute; reflexivity|]. split; [reflexivity|]. split; [vm_compute; reflexivity|]. split; [vm_compute; reflexivity|]. split.
  - eexists _, (3 # 25000000). split; [eapply (Plays_item _ _ _ _ _ _ 2%nat); [reflexivity | reflexivity | reflexivity|]; eapply Plays_entry; [left; reflexivity | reflexivity | vm_compute; reflexivity]|]. split; reflexivity.
  - eexists _, (1 # 10000000). split; [eapply (Plays_item _ _ _ _ _ _ 3%nat); [reflexivity | reflexivity | reflexivity|]; eapply Plays_entry; [left; reflexivity | reflexivity | vm_compute; reflexivity]|]. split; reflexivity.
Qed.
