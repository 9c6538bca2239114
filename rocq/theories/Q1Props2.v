(** More properties of generated programs: loop counts (C18), conditionals (C19), acquisition bins (C21), acquisition
    spacing (C35). *)
From Coq Require Import Permutation Arith.
From Verif Require Import Base Q1Model Q1Machine Q1Spec Q1Blk Q1Gen Q1Ops Q1Forest Q1Whole Q1Props.
Open Scope Z_scope.

(** ** C18 *)
Definition is_play (e : Z * event) : bool := match snd e with EPlay _ _ => true | _ => false end.
Definition n_plays (tr : list (Z * event)) : Z := Z.of_nat (List.length (filter is_play tr)).

(** how often the schedule asks for a waveform to be played *)
Definition kind_plays (k : kind) : Z :=
  match k with KPulse None None _ _ => 0 | KPulse _ _ _ _ => 1 | _ => 0 end.
Fixpoint plays_of (n : pnode) : Z :=
  match n with
  | POp _ k => kind_plays k
  | PLoop _ n body _ => n * fold_right Z.add 0 (map plays_of body)
  | PCond _ _ _ _ => 0
  end.
Definition plays_of_all (l : list pnode) : Z := fold_right Z.add 0 (map plays_of l).

Fixpoint no_cond (n : pnode) : bool :=
  match n with POp _ _ => true | PLoop _ _ body _ => forallb no_cond body | PCond _ _ _ _ => false end.

Lemma n_plays_app a b : n_plays (a ++ b) = n_plays a + n_plays b.
Proof. unfold n_plays. rewrite filter_app, app_length. lia. Qed.

Lemma n_plays_iterate f c n : (forall off s, n_plays (fst (f off s)) = c) ->
  forall off len s, n_plays (fst (iterate f n off len s)) = Z.of_nat n * c.
Proof.
  intros H. induction n as [|n IH]; intros off len s; [reflexivity|]. cbn [iterate].
  pose proof (H off s) as H1. destruct (f off s) as [e1 s1]. pose proof (IH (off + len) len s1) as H2.
  destruct (iterate f n _ _ _) as [e2 s2]. cbn [fst] in *. rewrite n_plays_app. lia.
Qed.

Lemma n_plays_op t k s : n_plays (shift t (op_events k s)) = kind_plays k.
Proof.
  destruct k as [|[p|]|[a|] [b|] g0 g1| |d|i b [|x y|d|d f0 f1 [|]]]; reflexivity.
Qed.

Lemma node_ok_loop nb t n body te : node_ok nb (PLoop t n body te) = true -> 1 <= n /\ forallb (node_ok nb) body = true.
Proof. cbn [node_ok]. rewrite !andb_true_iff, Z.leb_le. intuition; apply Z.leb_le; assumption. Qed.

Lemma n_plays_node nb : forall x env, no_cond x = true -> node_ok nb x = true -> forall off s, n_plays (fst (play env x off s)) = plays_of x.
Proof.
  intros x env. revert x. apply (pnode_ind2 (fun x => no_cond x = true -> node_ok nb x = true -> forall off s, n_plays (fst (play env x off s)) = plays_of x)).
  - intros t k _ _ off s. cbn [play fst plays_of]. apply n_plays_op.
  - intros t n body te IH Hc Hok off s. destruct (node_ok_loop _ _ _ _ _ Hok) as [Hn Hb]. cbn [play plays_of].
    rewrite (n_plays_iterate _ (fold_right Z.add 0 (map plays_of body))).
    + rewrite Z2Nat.id by lia. reflexivity.
    + cbn [no_cond] in Hc. clear Hok Hn. intros o. revert Hc Hb. induction IH as [|x body Hx _ IHb]; intros Hc Hb s0; [reflexivity|].
      cbn [forallb] in Hc, Hb. apply andb_true_iff in Hc, Hb. destruct Hc as [Hc1 Hc2], Hb as [Hb1 Hb2].
      cbn [seq_play map fold_right]. specialize (Hx Hc1 Hb1 o s0). destruct (play env x o s0) as [e1 s1].
      specialize (IHb Hc2 Hb2 s1). destruct (seq_play _ body s1) as [e2 s2]. cbn [fst] in *. rewrite n_plays_app. lia.
  - intros t a body te _ Hc. discriminate.
Qed.

Lemma n_plays_all nb env l : forallb no_cond l = true -> forallb (node_ok nb) l = true -> forall off s,
  n_plays (fst (play_all env l off s)) = plays_of_all l.
Proof.
  unfold play_all, plays_of_all. induction l as [|x l IH]; intros Hc Hb off s; [reflexivity|].
  cbn [forallb] in Hc, Hb. apply andb_true_iff in Hc, Hb. destruct Hc as [Hc1 Hc2], Hb as [Hb1 Hb2].
  cbn [seq_play map fold_right]. pose proof (n_plays_node nb x env Hc1 Hb1 off s) as H1. destruct (play env x off s) as [e1 s1].
  specialize (IH Hc2 Hb2 off s1). destruct (seq_play _ l s1) as [e2 s2]. cbn [fst] in *. rewrite n_plays_app. lia.
Qed.

(** Each pulse is played exactly (product of the repetition counts of the loops around it) x (schedule repetitions) times. *)
Theorem C18_loop_bodies_run_exactly_n_times : forall env mrk offs lat reps total forest p t0,
  Forall (fun o => 0 <= o < M32) offs -> 1 <= reps < M32 -> 4 + lat <= TMAX -> total <= TMAX ->
  forallb (node_ok (List.length offs)) forest = true -> forallb no_cond forest = true ->
  generate mrk offs lat reps total (flat_map flat forest) = Ok p ->
  exists tr tend, Runs env p t0 tr tend /\ n_plays tr = reps * plays_of_all forest.
Proof.
  intros env mrk offs lat reps total forest p t0 H1 H2 H3 H4 H5 H6 H7.
  eexists. eexists. split; [eapply C15_program_plays_schedule; eauto|].
  unfold full_trace. rewrite n_plays_app.
  rewrite (n_plays_iterate _ (plays_of_all forest)).
  - rewrite Z2Nat.id by lia. unfold header_events. destruct (existsb has_cond forest); cbn; lia.
  - intros off s. unfold one_run. pose proof (n_plays_all _ env forest H6 H5 (off + 4) s) as H8.
    destruct (play_all env forest (off + 4) s) as [e s']. cbn [fst] in *. exact H8.
Qed.

Example C18_example : let f := [PLoop 0 3 [POp 0 (KPulse (Some 0) None 1 1); PLoop 10 70000 [POp 10 (KPulse (Some 1) None 1 1)] 20] 700010] in
  forallb (node_ok 0) f = true /\ forallb no_cond f = true /\ plays_of_all f = 210003 /\
  exists p, generate 0 [] 0 5 2100030 (flat_map flat f) = Ok p.
Proof. cbv zeta. split; [vm_compute; reflexivity|]. split; [reflexivity|]. split; [reflexivity|]. eexists. vm_compute. reflexivity. Qed.

(** A loop with 0 repetitions (accepted by LoopOperation and by the generator) is executed: the counter wraps around. *)
Theorem C18_zero_repetitions_refuted : exists p s tr,
  generate 0 [] 0 1 100 [SLoop 0 0; SOp 0 (KPulse (Some 0) None 1 1); SRet 10] = Ok p /\
  steps (fun _ _ => false) p (m0 0) tr s /\ n_plays tr = 3.
Proof.
  eexists. eexists. eexists. split; [vm_compute; reflexivity|]. split.
  - do 25 (eapply steps_cons; [vm_compute; reflexivity|]). apply steps_refl.
  - vm_compute. reflexivity.
Qed.

(** ** C19 *)
(** Whatever the trigger outcomes, the program ends at the same time; and by C15 everything after a conditional
    happens at its scheduled time in both cases.  Restrictions (all needed, see the refutations): bodies are lists of pulses,
    parameter updates and square/weighted acquisitions ([simple_kind]), at most 65528 ns long, with gaps of 0 or at least 4 ns. *)
Theorem C19_branches_take_equal_time_partial : forall mrk offs lat reps total forest p t0,
  Forall (fun o => 0 <= o < M32) offs -> 1 <= reps < M32 -> 4 + lat <= TMAX -> total <= TMAX ->
  forallb (node_ok (List.length offs)) forest = true ->
  generate mrk offs lat reps total (flat_map flat forest) = Ok p ->
  exists tend, forall env, exists tr, Runs env p t0 tr tend.
Proof. intros. eexists. intros env. eexists. eapply C15_program_plays_schedule; eauto. Qed.

(** An operation after a conditional is executed at the same time in every repetition, for all trigger outcomes. *)
Theorem C19_after_conditional_on_time_partial : forall env mrk offs lat reps total t a body te t2 w0 w1 g0 g1 p t0 i,
  Forall (fun o => 0 <= o < M32) offs -> 1 <= reps < M32 -> 4 + lat <= TMAX -> total <= TMAX ->
  forallb (node_ok (List.length offs)) [PCond t a body te; POp t2 (KPulse (Some w0) (Some w1) g0 g1)] = true ->
  generate mrk offs lat reps total (flat_map flat [PCond t a body te; POp t2 (KPulse (Some w0) (Some w1) g0 g1)]) = Ok p ->
  0 <= i < reps ->
  exists tr tend, Runs env p t0 tr tend /\ In (first_rep t0 lat + i * (total + 4) + 4 + t2, EPlay w0 w1) tr.
Proof.
  intros. destruct (C15_every_pulse_every_repetition env mrk offs lat reps total [PCond t a body te; POp t2 (KPulse (Some w0) (Some w1) g0 g1)] p t0 t2 w0 w1 g0 g1 i) as [tr [tend [HR [_ HI]]]]; eauto.
  right. left. reflexivity.
Qed.

Definition cond_prog (body : list pnode) (te total : Z) : result (list instr) :=
  generate 0 [] 0 1 total (flat_map flat [PCond 0 1 body te]).

Definition two_times (body : list pnode) (te total : Z) : Prop := exists p tr1 t1 tr2 t2,
  cond_prog body te total = Ok p /\ Runs (fun _ _ => true) p 0 tr1 t1 /\ Runs (fun _ _ => false) p 0 tr2 t2 /\ t1 <> t2.

Ltac two_times_tac :=
  unfold two_times; do 5 eexists; split; [vm_compute; reflexivity|]; split; [apply (exec_runs _ _ 200); vm_compute; reflexivity|]; split; [apply (exec_runs _ _ 200); vm_compute; reflexivity|]; vm_compute; discriminate.

(** a loop in the body *)
Theorem C19_loop_in_body_refuted : two_times [PLoop 0 10 [POp 0 (KPulse (Some 0) None 1 1)] 20] 200 1000.
Proof. two_times_tac. Qed.
(** a body longer than 65532 ns *)
Theorem C19_long_body_refuted : two_times [POp 0 (KPulse (Some 0) None 1 1)] 150000 300000.
Proof. two_times_tac. Qed.
(** gaps below 4 ns *)
Theorem C19_short_gap_refuted : two_times [POp 0 (KPulse (Some 0) None 1 1); POp 6 (KPulse (Some 0) None 1 1)] 12 100.
Proof. two_times_tac. Qed.
(** an acquisition that takes several instructions *)
Theorem C19_ttl_in_body_refuted : two_times [POp 0 (KAcq 0 (BImm 0) (ATTL 100))] 200 1000.
Proof. two_times_tac. Qed.
(** a latch reset in the body *)
Theorem C19_latch_reset_in_body_refuted : two_times [POp 0 (KLatchRst 4)] 200 1000.
Proof. two_times_tac. Qed.

Example C19_example : let f := [PCond 0 1 [POp 0 (KPulse (Some 3) None 9 9); POp 20 KUpd] 100; POp 200 (KPulse (Some 1) (Some 2) 3 4)] in
  forallb (node_ok 0) f = true /\ exists p, generate 0 [] 0 5 1000 (flat_map flat f) = Ok p.
Proof. cbv zeta. split; [vm_compute; reflexivity|]. eexists. vm_compute. reflexivity. Qed.

(** The body plays in a repetition if and only if the latch of the trigger address it names is set then: the number of
    waveforms played is the number of repetitions during which address [a] is set. *)
Theorem C19_body_follows_its_trigger_partial : forall env mrk offs lat reps total t a t1 w0 w1 g0 g1 te p t0,
  Forall (fun o => 0 <= o < M32) offs -> 1 <= reps < M32 -> 4 + lat <= TMAX -> total <= TMAX ->
  forallb (node_ok (List.length offs)) [PCond t a [POp t1 (KPulse (Some w0) (Some w1) g0 g1)] te] = true ->
  generate mrk offs lat reps total (flat_map flat [PCond t a [POp t1 (KPulse (Some w0) (Some w1) g0 g1)] te]) = Ok p ->
  exists tr tend, Runs env p t0 tr tend /\
    n_plays tr = Z.of_nat (List.length (filter (fun k => env k a) (seq 0 (Z.to_nat reps)))).
Proof.
  intros env mrk offs lat reps total t a t1 w0 w1 g0 g1 te p t0 H1 H2 H3 H4 H5 H6.
  eexists. eexists. split; [eapply C15_program_plays_schedule; eauto|].
  unfold full_trace. rewrite n_plays_app.
  set (fo := [PCond t a [POp t1 (KPulse (Some w0) (Some w1) g0 g1)] te]).
  assert (HI : forall n off len s, n_plays (fst (iterate (one_run env fo) n off len s)) =
            Z.of_nat (List.length (filter (fun k => env k a) (seq (kcond s) n)))).
  { induction n as [|n IH]; intros off len s; [reflexivity|]. cbn [iterate seq filter].
    assert (HO : n_plays (fst (one_run env fo off s)) = (if env (kcond s) a then 1 else 0) /\
                 kcond (snd (one_run env fo off s)) = S (kcond s)).
    { unfold one_run, play_all, fo. cbn [seq_play play]. destruct (env (kcond s) a); split; reflexivity. }
    destruct (one_run env fo off s) as [e1 s1]. destruct HO as [HO1 HO2]. cbn [fst snd] in HO1, HO2.
    specialize (IH (off + len) len s1). destruct (iterate _ n _ _ _) as [e2 s2]. cbn [fst] in *.
    rewrite n_plays_app, HO1, IH, HO2. destruct (env (kcond s) a); cbn [List.length]; lia. }
  rewrite HI. cbn [start_state kcond].
  unfold header_events. destruct (existsb has_cond fo); cbn [app]; reflexivity.
Qed.

(** ** C21 (execution side): bins of append-mode acquisitions *)
Definition bins_of_event (idx : Z) (e : Z * event) : list Z :=
  match snd e with
  | EAcquire i b | EAcqW i b _ _ => if i =? idx then [b] else []
  | ETTL i b en => if (i =? idx) && (en =? 1) then [b] else []
  | ETags i b en _ => if (i =? idx) && (en =? 1) then [b] else []
  | _ => []
  end.
Definition bins_used (idx : Z) (tr : list (Z * event)) : list Z := flat_map (bins_of_event idx) tr.

(** all acquisitions with index [idx] use the bin counter [r], and no others do *)
Definition kind_uses (idx : Z) (r : nat) (k : kind) : bool :=
  match k with
  | KAcq i (BReg r') _ => Bool.eqb (i =? idx) (Nat.eqb r' r)
  | KAcq i (BImm _) _ => negb (i =? idx)
  | _ => true
  end.
Fixpoint node_uses (idx : Z) (r : nat) (n : pnode) : bool :=
  match n with POp _ k => kind_uses idx r k | PLoop _ _ body _ => forallb (node_uses idx r) body | PCond _ _ _ _ => false end.

Definition kind_acqs (idx : Z) (k : kind) : Z := match k with KAcq i _ _ => if i =? idx then 1 else 0 | _ => 0 end.
Fixpoint acqs_of (idx : Z) (n : pnode) : Z :=
  match n with
  | POp _ k => kind_acqs idx k
  | PLoop _ n body _ => n * fold_right Z.add 0 (map (acqs_of idx) body)
  | PCond _ _ _ _ => 0
  end.
Definition acqs_of_all idx (l : list pnode) : Z := fold_right Z.add 0 (map (acqs_of idx) l).

(** [c] consecutive bins from [b] on *)
Definition consecutive (b c : Z) : list Z := map (fun j => (b + Z.of_nat j) mod M32) (seq 0 (Z.to_nat c)).

Lemma M32_pos : 0 < M32. Proof. reflexivity. Qed.

Lemma consecutive_app b c1 c2 : 0 <= c1 -> 0 <= c2 -> consecutive b c1 ++ consecutive ((b + c1) mod M32) c2 = consecutive b (c1 + c2).
Proof.
  intros H1 H2. unfold consecutive. rewrite Z2Nat.inj_add by lia. rewrite seq_app, map_app. f_equal.
  assert (Hs : forall k n, seq (0 + k) n = map (fun j => (k + j)%nat) (seq 0 n)).
  { clear. intros k n. induction n as [|n IH]; [reflexivity|]. rewrite !seq_S, map_app, IH. reflexivity. }
  rewrite Hs, map_map. apply map_ext. intros j.
  rewrite Zplus_mod_idemp_l. f_equal. lia.
Qed.

(** [Cons f c]: [f] uses [c] consecutive bins of counter [r], starting where the counter stands, and advances it by [c] *)
Definition Cons (idx : Z) (r : nat) (f : Z -> sst -> list (Z * event) * sst) (c : Z) : Prop := forall off s,
  0 <= bins s r < M32 -> bins_used idx (fst (f off s)) = consecutive (bins s r) c /\ bins (snd (f off s)) r = (bins s r + c) mod M32.

Lemma Cons_iterate idx r f c n : 0 <= c -> Cons idx r f c -> forall len, Cons idx r (fun off s => iterate f n off len s) (Z.of_nat n * c).
Proof.
  intros Hc H len. induction n as [|n IH]; intros off s Hs.
  - split; [reflexivity|]. change (bins s r = (bins s r + 0) mod M32). rewrite Z.add_0_r, Z.mod_small by lia. reflexivity.
  - cbn [iterate]. destruct (H off s Hs) as [H1 H2]. destruct (f off s) as [e1 s1]. cbn [fst snd] in *.
    assert (Hs1 : 0 <= bins s1 r < M32) by (rewrite H2; apply Z.mod_pos_bound, M32_pos).
    destruct (IH (off + len) s1 Hs1) as [H3 H4]. destruct (iterate f n _ _ _) as [e2 s2]. cbn [fst snd] in *.
    unfold bins_used in *. rewrite flat_map_app, H1, H3, H4, H2, consecutive_app by nia.
    replace (c + Z.of_nat n * c) with (Z.of_nat (S n) * c) by lia. split; [reflexivity|].
    rewrite Zplus_mod_idemp_l. f_equal. lia.
Qed.

Lemma Cons_op idx r t k : kind_uses idx r k = true -> Cons idx r (fun off s => (shift (off + t) (op_events k s), op_next k s)) (kind_acqs idx k).
Proof.
  intros Hk off s Hs. 
  assert (H0 : consecutive (bins s r) 0 = [] /\ bins s r = (bins s r + 0) mod M32) by (split; [reflexivity|rewrite Z.add_0_r, Z.mod_small by lia; reflexivity]).
  assert (H1 : consecutive (bins s r) 1 = [bins s r]) by (unfold consecutive; change (Z.to_nat 1) with 1%nat; cbn [seq map]; change (Z.of_nat 0) with 0; rewrite Z.add_0_r, Z.mod_small by lia; reflexivity).
  destruct k as [|[p|]|[a|] [b|] g0 g1| |d|i b p]; try exact H0.
  cbn [kind_uses] in Hk. cbn [kind_acqs]. destruct b as [z|r'].
  - apply negb_true_iff in Hk. rewrite Hk. cbn [op_next bump_bin snd fst bins].
    split; [|apply H0]. destruct H0 as [H0 _]. rewrite H0. destruct p as [|x y|d|d f0 f1 [|]]; cbn; rewrite ?Hk; reflexivity.
  - apply Bool.eqb_prop in Hk. destruct (i =? idx) eqn:Ei.
    + symmetry in Hk. apply Nat.eqb_eq in Hk. subst r'. cbn [op_next bump_bin snd fst bins]. rewrite upd_same. split; [|reflexivity].
      rewrite H1. destruct p as [|x y|d|d f0 f1 [|]]; cbn; rewrite ?Ei; reflexivity.
    + symmetry in Hk. apply Nat.eqb_neq in Hk. cbn [op_next bump_bin snd fst bins]. rewrite upd_other by congruence. split; [|apply H0].
      destruct H0 as [H0 _]. rewrite H0. destruct p as [|x y|d|d f0 f1 [|]]; cbn; rewrite ?Ei; reflexivity.
Qed.

Lemma acqs_nonneg nb idx : forall x, node_ok nb x = true -> 0 <= acqs_of idx x.
Proof.
  apply (pnode_ind2 (fun x => node_ok nb x = true -> 0 <= acqs_of idx x)).
  - intros t k _. cbn. destruct k; cbn; try lia. destruct (_ =? _); lia.
  - intros t n body te IH Hok. destruct (node_ok_loop _ _ _ _ _ Hok) as [Hn Hb]. cbn [acqs_of].
    apply Z.mul_nonneg_nonneg; [lia|]. clear Hok. induction IH as [|x l Hx _ IHl]; [cbn; lia|].
    cbn [forallb map fold_right] in *. apply andb_true_iff in Hb. destruct Hb as [Hb1 Hb2]. specialize (Hx Hb1). specialize (IHl Hb2). lia.
  - intros; cbn; lia.
Qed.

Lemma acqs_all_nonneg nb idx l : forallb (node_ok nb) l = true -> 0 <= acqs_of_all idx l.
Proof.
  unfold acqs_of_all. induction l as [|x l IH]; intros H; [cbn; lia|]. cbn [forallb map fold_right] in *. apply andb_true_iff in H. destruct H as [H1 H2].
  pose proof (acqs_nonneg nb idx x H1). specialize (IH H2). lia.
Qed.

Lemma Cons_seq nb idx r env l : Forall (fun x => node_uses idx r x = true -> node_ok nb x = true -> Cons idx r (play env x) (acqs_of idx x)) l ->
  forallb (node_uses idx r) l = true -> forallb (node_ok nb) l = true ->
  Cons idx r (fun off s => seq_play (fun x s => play env x off s) l s) (acqs_of_all idx l).
Proof.
  unfold acqs_of_all. induction 1 as [|x l Hx _ IH]; intros Hu Hk off s Hs.
  - split; [reflexivity|]. change (bins s r = (bins s r + 0) mod M32). rewrite Z.add_0_r, Z.mod_small by lia. reflexivity.
  - cbn [forallb] in Hu, Hk. apply andb_true_iff in Hu, Hk. destruct Hu as [Hu1 Hu2], Hk as [Hk1 Hk2].
    cbn [seq_play map fold_right]. destruct (Hx Hu1 Hk1 off s Hs) as [H1 H2]. destruct (play env x off s) as [e1 s1]. cbn [fst snd] in *.
    assert (Hs1 : 0 <= bins s1 r < M32) by (rewrite H2; apply Z.mod_pos_bound, M32_pos).
    destruct (IH Hu2 Hk2 off s1 Hs1) as [H3 H4]. destruct (seq_play _ l s1) as [e2 s2]. cbn [fst snd] in *.
    pose proof (acqs_nonneg nb idx x Hk1). pose proof (acqs_all_nonneg nb idx l Hk2). unfold acqs_of_all in *.
    unfold bins_used in *. rewrite flat_map_app, H1, H3, H4, H2, consecutive_app by lia. split; [reflexivity|].
    rewrite Zplus_mod_idemp_l. f_equal. lia.
Qed.

Lemma Cons_node nb idx r env : forall x, node_uses idx r x = true -> node_ok nb x = true -> Cons idx r (play env x) (acqs_of idx x).
Proof.
  apply (pnode_ind2 (fun x => node_uses idx r x = true -> node_ok nb x = true -> Cons idx r (play env x) (acqs_of idx x))).
  - intros t k Hu _. exact (Cons_op idx r t k Hu).
  - intros t n body te IH Hu Hok. destruct (node_ok_loop _ _ _ _ _ Hok) as [Hn Hb]. cbn [node_uses] in Hu.
    pose proof (Cons_seq nb idx r env body IH Hu Hb) as HS.
    pose proof (Cons_iterate idx r _ _ (Z.to_nat n) (acqs_all_nonneg nb idx body Hb) HS (te - t)) as HI.
    rewrite Z2Nat.id in HI by lia. exact HI.
  - intros t a body te _ Hu. discriminate.
Qed.

(** In append mode the acquisitions of one acquisition index are stored in consecutive bins, in the order in which they are executed,
    starting at the first bin reserved for it - through all loops and repetitions. *)
Theorem C21_append_bins_consecutive : forall env mrk offs lat reps total forest p t0 idx r,
  Forall (fun o => 0 <= o < M32) offs -> 1 <= reps < M32 -> 4 + lat <= TMAX -> total <= TMAX ->
  forallb (node_ok (List.length offs)) forest = true ->
  generate mrk offs lat reps total (flat_map flat forest) = Ok p ->
  forallb (node_uses idx r) forest = true -> (r < List.length offs)%nat ->
  exists tr tend, Runs env p t0 tr tend /\ bins_used idx tr = consecutive (nth r offs 0) (reps * acqs_of_all idx forest).
Proof.
  intros env mrk offs lat reps total forest p t0 idx r H1 H2 H3 H4 H5 H6 H7 H8.
  eexists. eexists. split; [eapply C15_program_plays_schedule; eauto|].
  assert (Hc : Cons idx r (one_run env forest) (acqs_of_all idx forest)).
  { intros off s Hs.
    assert (HF : Forall (fun x => node_uses idx r x = true -> node_ok (List.length offs) x = true -> Cons idx r (play env x) (acqs_of idx x)) forest)
      by (apply Forall_forall; intros x _; apply Cons_node).
    destruct (Cons_seq _ idx r env forest HF H7 H5 (off + 4) s Hs) as [A1 A2]. unfold one_run, play_all.
    destruct (seq_play _ forest s) as [e s']. cbn [fst snd] in *. auto. }
  assert (Hr : 0 <= nth r offs 0 < M32) by (rewrite Forall_forall in H1; apply H1, nth_In, H8).
  destruct (Cons_iterate idx r _ _ (Z.to_nat reps) (acqs_all_nonneg _ idx forest H5) Hc (total + 4) (first_rep t0 lat) (start_state offs) Hr) as [A1 _].
  rewrite Z2Nat.id in A1 by lia. unfold full_trace. unfold bins_used in *. rewrite flat_map_app, A1.
  unfold header_events. destruct (existsb has_cond forest); reflexivity.
Qed.

(** ... hence all different, as long as there are fewer than 2^32 of them *)
Lemma consecutive_NoDup b c : 0 <= b -> c <= M32 -> NoDup (consecutive b c).
Proof.
  intros Hb Hc. unfold consecutive.
  assert (HI : forall l, NoDup l -> (forall j, In j l -> Z.of_nat j < M32) -> NoDup (map (fun j => (b + Z.of_nat j) mod M32) l)).
  { induction l as [|x l IH]; intros Hn Hl; [constructor|]. inversion Hn; subst. cbn [map]. constructor.
    - intros Hin. apply in_map_iff in Hin. destruct Hin as [y [Hy Hyl]].
      assert (Hd : (Z.of_nat x - Z.of_nat y) mod M32 = 0).
      { replace (Z.of_nat x - Z.of_nat y) with ((b + Z.of_nat x) - (b + Z.of_nat y)) by lia. rewrite Zminus_mod, Hy, Z.sub_diag. reflexivity. }
      assert (x <> y) by congruence.
      pose proof (Hl x (or_introl eq_refl)). pose proof (Hl y (or_intror Hyl)).
      apply Z.mod_divide in Hd; [|discriminate]. destruct Hd as [k Hk]. assert (k = 0) by nia. lia.
    - apply IH; [assumption|]. intros j Hj. apply Hl. right. exact Hj. }
  apply HI; [apply seq_NoDup|]. intros j Hj. apply in_seq in Hj. lia.
Qed.

Theorem C21_append_bins_distinct : forall env mrk offs lat reps total forest p t0 idx r,
  Forall (fun o => 0 <= o < M32) offs -> 1 <= reps < M32 -> 4 + lat <= TMAX -> total <= TMAX ->
  forallb (node_ok (List.length offs)) forest = true ->
  generate mrk offs lat reps total (flat_map flat forest) = Ok p ->
  forallb (node_uses idx r) forest = true -> (r < List.length offs)%nat ->
  reps * acqs_of_all idx forest <= M32 ->
  exists tr tend, Runs env p t0 tr tend /\ NoDup (bins_used idx tr).
Proof.
  intros env mrk offs lat reps total forest p t0 idx r H1 H2 H3 H4 H5 H6 H7 H8 H9.
  destruct (C21_append_bins_consecutive env mrk offs lat reps total forest p t0 idx r H1 H2 H3 H4 H5 H6 H7 H8) as [tr [te [HR HB]]].
  exists tr, te. split; [exact HR|]. rewrite HB. apply consecutive_NoDup; [|exact H9].
  rewrite Forall_forall in H1. apply H1, nth_In, H8.
Qed.

Example C21_append_example : forallb (node_uses 0 0) [PLoop 100 3 [POp 100 (KAcq 0 (BReg 0) ASquare)] 600] = true /\
  forallb (node_ok 1) [PLoop 100 3 [POp 100 (KAcq 0 (BReg 0) ASquare)] 600] = true /\
  exists p, generate 3 [10] 5 2 500000 (flat_map flat [PLoop 100 3 [POp 100 (KAcq 0 (BReg 0) ASquare)] 600]) = Ok p.
Proof. split; [reflexivity|]. split; [vm_compute; reflexivity|]. eexists. vm_compute. reflexivity. Qed.

(** ** C35: at least 300 ns between acquisitions *)
(** Between operations of one straight-line piece of a schedule this is checked... *)
Lemma auto_wait_tacq w c q q' : auto_wait w c q = Ok q' -> tacq q' = tacq q.
Proof.
  assert (HE : forall d q, tacq (emit_wait d c q) = tacq q) by (intros d q1; unfold emit_wait, add_elapsed; destruct c; cbn; [destruct (stk q1)|]; reflexivity).
  assert (HR : forall n d q, tacq (repeat_wait n d c q) = tacq q) by (induction n as [|n IH]; intros d q1; [reflexivity|cbn; rewrite IH; apply HE]).
  unfold auto_wait. destruct (w =? 0); [intros H; injection H as <-; reflexivity|]. destruct (w <? 0); [discriminate|].
  intros H. match type of H with (do q1 <- ?a; _) = _ => destruct a as [q1|] eqn:Ea; [|discriminate] end. cbn [bind] in H.
  assert (H1 : tacq q1 = tacq q).
  { destruct (w >? MAXW); [|injection Ea as <-; reflexivity]. cbv zeta in Ea. destruct (w / MAXW >? 4); [|injection Ea as <-; apply HR].
    unfold with_loop in Ea. destruct (alloc q) as [[r qa]|] eqn:Eal; [|discriminate]. cbn [bind] in Ea.
    destruct (alloc_inv _ _ _ Eal) as [_ Hqa].
    match type of Ea with (do _ <- (do _ <- ?f; _); _) = _ => destruct f as [q4|] eqn:Ef; [|discriminate] end. cbn [bind] in Ea.
    destruct (free_inv _ _ _ Ef) as [_ ->]. cbn [stk set_av] in Ea.
    destruct (stk _) as [|a [|b cc]] in Ea; try discriminate. cbn [bind] in Ea. injection Ea as <-.
    cbn [tacq set_stk set_av emit]. rewrite HE. cbn. rewrite Hqa. reflexivity. }
  destruct ((if w >? MAXW then w mod MAXW else w) >? 0); injection H as <-; rewrite ?HE; exact H1.
Qed.

Definition acq_too_close (t1 t2 : Z) : Prop := t2 - t1 < 300.

(** ... an acquisition less than 300 ns after the previous one of the same sequencer is rejected *)
Theorem C35_close_acquisition_rejected : forall idx b p q tl,
  tacq q = Some tl -> elapsed q - tl < 300 -> insert_acq idx b p q = Err ValueError.
Proof.
  intros idx b p q tl H1 H2. unfold insert_acq. rewrite H1. destruct (elapsed q - tl <? MINACQ) eqn:E; [reflexivity|].
  apply Z.ltb_ge in E. unfold MINACQ in E. lia.
Qed.

(** ... but not between the iterations of a loop: this program is accepted and acquires every 100 ns. *)
Theorem C35_loop_iterations_refuted : exists p tr tend,
  generate 0 [] 0 1 1000 (flat_map flat [PLoop 0 3 [POp 0 (KAcq 0 (BImm 0) ASquare)] 100]) = Ok p /\
  Runs (fun _ _ => false) p 0 tr tend /\ exists T, In (T, EAcquire 0 0) tr /\ In (T + 100, EAcquire 0 0) tr.
Proof.
  eexists. eexists. eexists. split; [vm_compute; reflexivity|]. split; [apply (exec_runs _ _ 200); vm_compute; reflexivity|].
  exists 16. split; vm_compute; tauto.
Qed.
