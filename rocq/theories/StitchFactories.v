(** C31: the waveforms of long_square_pulse, staircase_pulse and long_ramp_pulse. *)
From Verif Require Import Base UpdModel UpdProps StitchModel StitchProps.
Open Scope Z_scope.

Lemma veq_refl a : veq a a. Proof. split; reflexivity. Qed.
Lemma veq_trans a b c : veq a b -> veq b c -> veq a c. Proof. intros [H1 H2] [H3 H4]. split; [rewrite H1; exact H3|rewrite H2; exact H4]. Qed.
Lemma vadd_eq a b c d : veq a b -> veq c d -> veq (vadd a c) (vadd b d).
Proof. intros [H1 H2] [H3 H4]. split; cbn [vadd fst snd]; [rewrite H1, H3|rewrite H2, H4]; reflexivity. Qed.
Lemma vadd_0l a b : veq a v0 -> veq (vadd a b) b. Proof. intros [H1 H2]. unfold v0 in *. cbn [fst snd] in *. split; cbn [vadd fst snd]; [rewrite H1|rewrite H2]; ring. Qed.
Lemma vadd_0r a b : veq b v0 -> veq (vadd a b) a. Proof. intros [H1 H2]. unfold v0 in *. cbn [fst snd] in *. split; cbn [vadd fst snd]; [rewrite H1|rewrite H2]; ring. Qed.
Lemma vsum_0 {A} (f : A -> V) l : (forall x, In x l -> veq (f x) v0) -> veq (vsum (map f l)) v0.
Proof.
  induction l as [|x l IH]; intros H; [apply veq_refl|]. cbn [map vsum]. eapply veq_trans; [apply vadd_0l, H; left; reflexivity|apply IH; intros; apply H; right; assumption].
Qed.
Lemma vsum_app {A} (f : A -> V) l1 l2 : veq (vsum (map f (l1 ++ l2))) (vadd (vsum (map f l1)) (vsum (map f l2))).
Proof.
  induction l1 as [|x l IH]; cbn [app map vsum]; [split; cbn; ring|]. destruct IH as [H1 H2]. split; cbn [vadd fst snd] in *; [rewrite H1|rewrite H2]; ring.
Qed.
Lemma vsum_single {A} (f : A -> V) l1 x l2 : (forall y, In y l1 -> veq (f y) v0) -> (forall y, In y l2 -> veq (f y) v0) -> veq (vsum (map f (l1 ++ x :: l2))) (f x).
Proof.
  intros H1 H2. eapply veq_trans; [apply vsum_app|]. eapply veq_trans; [apply vadd_0l, vsum_0, H1|]. cbn [map vsum]. apply vadd_0r, vsum_0, H2.
Qed.
Lemma pulse_at_out p n : n < b_t p \/ b_t p + b_dur p <= n -> pulse_at p n = v0.
Proof. intros H. unfold pulse_at. destruct (Z.leb_spec (b_t p) n), (Z.ltb_spec n (b_t p + b_dur p)); try lia; reflexivity. Qed.
Lemma pulse_at_in p n : b_t p <= n < b_t p + b_dur p ->
  pulse_at p n = match b_sh p with Square a => a | Ramp amp off => ((amp / inject_Z (b_dur p) * inject_Z (n - b_t p) + off)%Q, 0%Q) end.
Proof. intros H. unfold pulse_at. rewrite (proj2 (Z.leb_le _ _)), (proj2 (Z.ltb_lt _ _)) by lia. reflexivity. Qed.
Definition shift (t0 : Z) (p : bpulse) : bpulse := {| b_t := b_t p + t0; b_dur := b_dur p; b_sh := b_sh p |}.
Lemma pulse_at_shift t0 p n : pulse_at (shift t0 p) (t0 + n) = pulse_at p n.
Proof.
  unfold pulse_at, shift. cbn [b_t b_dur b_sh]. replace (t0 + n - (b_t p + t0)) with (n - b_t p) by lia.
  destruct (Z.leb_spec (b_t p + t0) (t0 + n)), (Z.leb_spec (b_t p) n); try lia; destruct (Z.ltb_spec (t0 + n) (b_t p + t0 + b_dur p)), (Z.ltb_spec n (b_t p + b_dur p)); try lia; reflexivity.
Qed.
Lemma signal_build b t0 n : signal (build b t0) (t0 + n) = vadd (offset_at (s_offs (build b t0)) (t0 + n)) (vsum (map (fun p => pulse_at p n) (pulses b))).
Proof. unfold signal. f_equal. unfold build. cbn [s_pulses]. rewrite map_map. f_equal. apply map_ext. intros p. apply (pulse_at_shift t0 p n). Qed.

(** appending at the end is never rejected for a long enough duration *)
Definition dur_of (d : option Z) : Z := match d with Some d => d | None => 0 end.
Lemma op_end_bounds b h : reached b h -> forall o, In o (offsets b) -> o_t o <= o_end o <= operation_end b.
Proof.
  intros Hr o Ho. destruct (reached_inv b h Hr) as [Hc Hs]. destruct (chain_last _ Hc) as [Hl _]. specialize (Hl o Ho). unfold operation_end.
  assert (Hok : okd o); [|pose proof (okd_end o Hok); lia]. clear - Hc Ho. induction (offsets b) as [|x l IH]; [destruct Ho|]. destruct Hc as (H1 & _ & H2). destruct Ho as [<-|Ho]; auto.
Qed.
Lemma max_list_snoc l x : (forall y, In y l -> y <= x) -> max_list (l ++ [x]) = x.
Proof.
  intros H. destruct (max_list_spec (l ++ [x])) as [H1 [[H2 _]|H2]]; [destruct l; discriminate|]. assert (Hx : x <= max_list (l ++ [x])) by (apply H1, in_or_app; right; left; reflexivity).
  apply in_app_or in H2. destruct H2 as [H2|[H2|[]]]; [specialize (H _ H2); lia|lia].
Qed.
Lemma append_offset b h v dur rel m : reached b h -> 0 <= m -> 0 <= rel -> (forall d, dur = Some d -> m <= d) ->
  exists b', add_voltage_offset b v dur rel true m = Ok b' /\ reached b' (h ++ [{| o_v := v; o_t := rel + operation_end b; o_dur := dur |}]) /\
             pulses b' = pulses b /\ operation_end b' = rel + operation_end b + dur_of dur.
Proof.
  intros Hr Hm Hrel Hd. set (o := {| o_v := v; o_t := rel + operation_end b; o_dur := dur |}). pose proof (op_end_bounds b h Hr) as Hb.
  assert (Hod : 0 <= dur_of dur) by (destruct dur as [d|]; cbn; [specialize (Hd d eq_refl)|]; lia).
  assert (Hoe : o_end o = rel + operation_end b + dur_of dur) by (unfold o_end, o, dur_of; cbn; destruct dur; reflexivity).
  destruct (C31_overlap b h v dur rel true m Hr Hm) as [[(d & Hd1 & Hd2) _]|[(_ & (o' & Ho' & Hov) & _)|(_ & _ & b' & Hb' & Hr')]].
  - specialize (Hd d Hd1). lia.
  - exfalso. destruct (C31_operation_end b h Hr) as (_ & He & _). specialize (He o' Ho'). destruct (reached_inv b h Hr) as [_ Hs].
    assert (Hin : In o' (offsets b)) by (rewrite Hs; apply sorted_In; exact Ho'). specialize (Hb o' Hin). unfold overlap in Hov. cbn [o_t] in Hov. lia.
  - exists b'. split; [exact Hb'|]. split; [exact Hr'|]. pose proof (add_offset_inv _ _ _ _ _ _ _ Hb') as Hi. cbn zeta in Hi. destruct Hi as (_ & i & Hi & ->). cbn [pulses]. split; [reflexivity|].
    destruct (C31_operation_end b h Hr) as (Hp & _ & _). destruct (C31_operation_end _ _ Hr') as (Hp' & Ho' & Hc). cbn [pulses] in *.
    assert (Hge : rel + operation_end b + dur_of dur <= operation_end {| pulses := pulses b; offsets := insert_at i o (offsets b) |}).
    { rewrite <- Hoe. apply Ho'. apply in_or_app. right. left. reflexivity. }
    apply Z.le_antisymm; [|exact Hge]. destruct Hc as [(p & Hpi & Hpe)|[(q & Hqi & Hqe)|[[Hc|Hc] Hz]]].
    + change (if true then rel + operation_end b else rel) with (rel + operation_end b) in *. fold o in Hpe |- *. rewrite Hpe. specialize (Hp p Hpi). lia.
    + change (if true then rel + operation_end b else rel) with (rel + operation_end b) in *. fold o in Hqe |- *. rewrite Hqe. apply in_app_or in Hqi. destruct Hqi as [Hqi|[<-|[]]]; [|fold o; lia].
      destruct (reached_inv b h Hr) as [_ Hs]. assert (Hin : In q (offsets b)) by (rewrite Hs; apply sorted_In; exact Hqi). specialize (Hb q Hin). lia.
    + change (if true then rel + operation_end b else rel) with (rel + operation_end b) in *. fold o in Hz |- *. rewrite Hz. unfold operation_end. rewrite Hc. cbn [map max_list]. lia.
    + destruct h; discriminate.
Qed.
Lemma append_pulse b h p : reached b h -> 0 <= b_dur p -> b_t p = 0 ->
  reached (add_pulse b p true) h /\ pulses (add_pulse b p true) = pulses b ++ [{| b_t := operation_end b; b_dur := b_dur p; b_sh := b_sh p |}] /\ operation_end (add_pulse b p true) = operation_end b + b_dur p.
Proof.
  intros Hr Hd Ht. split; [constructor; assumption|]. assert (E : pulses (add_pulse b p true) = pulses b ++ [{| b_t := operation_end b; b_dur := b_dur p; b_sh := b_sh p |}]) by (unfold add_pulse; cbn [pulses]; rewrite Ht; reflexivity).
  split; [exact E|]. unfold operation_end at 1. rewrite E. rewrite map_app. cbn [map b_t b_dur]. rewrite max_list_snoc.
  - change (offsets (add_pulse b p true)) with (offsets b). unfold operation_end in *. lia.
  - intros y Hy. apply in_map_iff in Hy. destruct Hy as (q & <- & Hq). destruct (C31_operation_end b h Hr) as (Hp & _ & _). specialize (Hp q Hq). lia.
Qed.
Lemma op_end_new : operation_end new_builder = 0. Proof. reflexivity. Qed.

(** ** C31, long_square_pulse: rejected below 4 ns; otherwise the requested amplitude at each time in the duration and zero outside *)
Theorem C31_long_square : forall (amp : V) (duration t0 : Z),
  (duration < 4 /\ long_square_pulse amp duration t0 = Err ValueError) \/
  (4 <= duration /\ exists s, long_square_pulse amp duration t0 = Ok s /\
    forall n, (0 <= n < duration -> veq (signal s (t0 + n)) amp) /\ (n < 0 \/ duration <= n -> veq (signal s (t0 + n)) v0)).
Proof.
  intros amp D t0. unfold long_square_pulse, MIN_TIME. destruct (Z.ltb_spec D 4) as [Hlt|Hge]; [left; auto|right]. split; [exact Hge|].
  destruct (append_offset new_builder [] amp None 0 4 r_new) as (b1 & -> & Hr1 & Hp1 & He1); [lia|lia|discriminate|]. cbn [bind app dur_of] in *. rewrite op_end_new in *.
  destruct (append_offset b1 _ v0 None (D - 4) 4 Hr1) as (b2 & -> & Hr2 & Hp2 & He2); [lia|lia|discriminate|]. cbn [bind app dur_of] in *.
  set (p := {| b_t := 0; b_dur := 4; b_sh := Square amp |}). destruct (append_pulse b2 _ p Hr2) as (Hr3 & Hp3 & He3); [cbn; lia|reflexivity|]. cbn [p b_dur b_sh] in Hp3, He3.
  set (b3 := add_pulse b2 p true) in *. assert (E2 : operation_end b2 = D - 4) by lia. assert (E3 : operation_end b3 = D) by lia. rewrite E2 in Hp3. rewrite Hp2, Hp1 in Hp3. cbn [new_builder pulses app] in Hp3.
  eexists. split; [reflexivity|]. intros n. rewrite signal_build, Hp3. cbn [map vsum]. set (P := {| b_t := D - 4; b_dur := 4; b_sh := Square amp |}).
  rewrite He1 in Hr3. replace (D - 4 + (0 + 0 + 0)) with (D - 4) in Hr3 by lia. change (0 + 0) with 0 in Hr3.
  set (o1 := {| o_v := amp; o_t := 0; o_dur := None |}) in *. set (o2 := {| o_v := v0; o_t := D - 4; o_dur := None |}) in *.
  destruct (C31_builder b3 _ t0 n Hr3) as (Hafter & _ & Hhold & Hzero). rewrite E3 in *.
  assert (Hnc : forall o, In o [o1; o2] -> ~ covers o n) by (intros o [<-|[<-|[]]] (d & Hd & _); discriminate).
  assert (Hsum : forall x, veq (vadd x v0) x) by (intros x; apply vadd_0r, veq_refl).
  split.
  - intros Hn. destruct (Z.lt_ge_cases n (D - 4)) as [Hc|Hc].
    + rewrite (pulse_at_out P n) by (left; exact Hc). rewrite (Hhold (proj2 Hn) Hnc [] o1 [o2] eq_refl).
      * eapply veq_trans; [apply vadd_0r, Hsum|apply veq_refl].
      * split; [reflexivity|cbn; lia].
      * intros ? [].
      * intros o' [<-|[]] [_ H]. cbn in H. lia.
    + rewrite (pulse_at_in P n) by (cbn; lia). cbn [P b_sh]. rewrite (Hhold (proj2 Hn) Hnc [o1] o2 [] eq_refl).
      * eapply veq_trans; [apply vadd_0l, veq_refl|apply Hsum].
      * split; [reflexivity|cbn; lia].
      * intros o' [<-|[]] _. cbn. lia.
      * intros ? [].
  - intros Hn. rewrite (pulse_at_out P n) by (cbn; lia). destruct Hn as [Hn|Hn].
    + rewrite Hzero; [split; cbn; ring|lia|exact Hnc|]. intros o [<-|[<-|[]]] [_ H]; cbn in H; lia.
    + eapply veq_trans; [apply vadd_0r, Hsum|exact (Hafter Hn)].
Qed.

(** ** staircase_pulse *)
Fixpoint steps (t s : Z) (l : list Q) : list offs := match l with [] => [] | a :: r => {| o_v := (a, 0%Q); o_t := t; o_dur := Some s |} :: steps (t + s) s r end.
Lemma steps_fold s m : 0 <= m <= s -> forall l b h, reached b h -> exists b',
  foldM (fun b a => add_voltage_offset b (a, 0%Q) (Some s) 0 true m) l b = Ok b' /\ reached b' (h ++ steps (operation_end b) s l) /\ pulses b' = pulses b /\ operation_end b' = operation_end b + Z.of_nat (List.length l) * s.
Proof.
  intros Hm. induction l as [|a l IH]; intros b h Hr.
  - exists b. cbn. rewrite app_nil_r. repeat split; [exact Hr|lia].
  - cbn [foldM]. destruct (append_offset b h (a, 0%Q) (Some s) 0 m Hr) as (b1 & -> & Hr1 & Hp1 & He1); [lia|lia|intros d [= <-]; lia|]. cbn [bind dur_of] in *.
    destruct (IH b1 _ Hr1) as (b' & -> & Hr' & Hp' & He'). exists b'. split; [reflexivity|]. rewrite <- app_assoc in Hr'. cbn [app] in Hr'. rewrite He1 in Hr', He'. cbn [Z.add] in *.
    split; [exact Hr'|]. split; [congruence|]. rewrite He'. cbn [List.length]. lia.
Qed.
Lemma steps_nth s : forall l t k a, nth_error l k = Some a -> In {| o_v := (a, 0%Q); o_t := t + Z.of_nat k * s; o_dur := Some s |} (steps t s l).
Proof.
  induction l as [|x l IH]; intros t [|k] a H; try discriminate; cbn [steps].
  - injection H as ->. left. f_equal. lia.
  - right. cbn in H. specialize (IH (t + s) k a H). replace (t + Z.of_nat (S k) * s) with (t + s + Z.of_nat k * s) by lia. exact IH.
Qed.
Lemma steps_In s : forall l t o, In o (steps t s l) -> exists k, (k < List.length l)%nat /\ o_t o = t + Z.of_nat k * s /\ o_dur o = Some s.
Proof.
  induction l as [|x l IH]; intros t o []; cbn [List.length].
  - subst o. exists O. cbn [o_t o_dur]. repeat split; lia.
  - destruct (IH _ _ H) as (k & Hk & Ht & Hd). exists (S k). rewrite Ht, Hd. repeat split; lia.
Qed.

Lemma linspace_len a b n : List.length (linspace a b n) = n. Proof. unfold linspace. rewrite map_length, seq_length. reflexivity. Qed.
Lemma linspace_nth a b n k : (k < n)%nat -> nth_error (linspace a b n) k = Some (a + inject_Z (Z.of_nat k) * ((b - a) / inject_Z (Z.of_nat (n - 1))))%Q.
Proof.
  intros H. unfold linspace. rewrite nth_error_map. assert (E : nth_error (seq 0 n) k = Some k).
  { rewrite (nth_error_nth' (seq 0 n) O) by (rewrite seq_length; exact H). rewrite seq_nth by exact H. reflexivity. }
  rewrite E. reflexivity.
Qed.

(** C31, staircase_pulse with num_steps >= 1: when the duration divides into steps that are a multiple of the minimum operation time m and at least twice as long, the amplitude at time n of the pulse is
    that of step number n / step, going linearly from the start to the final amplitude, and zero outside *)
Theorem C31_staircase : forall (start final : Q) (num : nat) (step t0 m : Z), (1 <= num)%nat -> 0 < m -> step mod m = 0 -> 2 * m <= step ->
  exists s, staircase_pulse start final num (Z.of_nat num * step) t0 m = Ok s /\
  forall n, (0 <= n < Z.of_nat num * step -> veq (signal s (t0 + n)) ((start + inject_Z (n / step) * ((final - start) / inject_Z (Z.of_nat num - 1)))%Q, 0%Q)) /\
            (n < 0 \/ Z.of_nat num * step <= n -> veq (signal s (t0 + n)) v0).
Proof.
  intros st fi num s t0 m Hnum Hm Hmod Hs. unfold staircase_pulse, step_grid.
  assert (Hdiv : Z.of_nat num * s / Z.of_nat num = s) by (rewrite Z.mul_comm; apply Z.div_mul; lia).
  rewrite Hdiv, Hmod. rewrite (Z.mul_comm (Z.of_nat num) s), Z.mod_mul by lia. cbn [Z.eqb andb bind].
  destruct num as [|w]; [lia|]. set (amps := linspace st fi (S w)).
  assert (Hamps : exists am z, amps = am ++ [z] /\ List.length am = w).
  { destruct amps as [|a0 r0] eqn:Ea using rev_ind; [exfalso; pose proof (linspace_len st fi (S w)) as H; fold amps in H; rewrite Ea in H; discriminate|]. exists r0, a0. split; [reflexivity|].
    pose proof (linspace_len st fi (S w)) as H; fold amps in H. rewrite Ea in H. rewrite app_length in H. cbn in H. lia. }
  destruct Hamps as (am & z & Ham & Hlen). rewrite Ham, removelast_last, last_last.
  destruct (steps_fold s m ltac:(lia) am new_builder [] r_new) as (b1 & -> & Hr1 & Hp1 & He1). cbn [bind app] in *. rewrite op_end_new in *. rewrite Hlen in He1. cbn [Z.add] in He1.
  destruct (append_offset b1 _ (z, 0%Q) (Some (s - m)) 0 m Hr1) as (b2 & -> & Hr2 & Hp2 & He2); [lia|lia|intros d [= <-]; lia|]. cbn [bind dur_of] in *.
  destruct (append_offset b2 _ v0 None 0 MIN_TIME Hr2) as (b3 & -> & Hr3 & Hp3 & He3); [unfold MIN_TIME; lia|lia|discriminate|]. cbn [bind dur_of] in *.
  set (p := {| b_t := 0; b_dur := m; b_sh := Square (z, 0%Q) |}). destruct (append_pulse b3 _ p Hr3) as (Hr4 & Hp4 & He4); [cbn; lia|reflexivity|]. cbn [p b_dur b_sh] in Hp4, He4.
  set (b4 := add_pulse b3 p true) in *. set (W := Z.of_nat w) in *. replace (s * Z.of_nat (S w)) with (W * s + s) by (unfold W; lia).
  assert (E2 : operation_end b2 = W * s + s - m) by lia. assert (E3 : operation_end b3 = W * s + s - m) by lia. assert (E4 : operation_end b4 = W * s + s) by lia.
  rewrite Hp3, Hp2, Hp1, E3 in Hp4. cbn [new_builder pulses app] in Hp4. rewrite He1, E2 in Hr4. cbn [Z.add] in Hr4.
  eexists. split; [reflexivity|]. intros n. rewrite signal_build, Hp4. cbn [map vsum]. set (P := {| b_t := W * s + s - m; b_dur := m; b_sh := Square (z, 0%Q) |}).
  set (o2 := {| o_v := (z, 0%Q); o_t := W * s; o_dur := Some (s - m) |}) in *. set (o3 := {| o_v := v0; o_t := W * s + s - m; o_dur := None |}) in *.
  destruct (C31_builder b4 _ t0 n Hr4) as (Hafter & Hcov & Hhold & Hzero). rewrite E4 in *.
  assert (Hsum : forall x, veq (vadd x v0) x) by (intros x; apply vadd_0r, veq_refl).
  assert (Hin : forall o, In o ((steps 0 s am ++ [o2]) ++ [o3]) <-> In o (steps 0 s am) \/ o = o2 \/ o = o3).
  { intros o. rewrite !in_app_iff. cbn [In]. intuition congruence. }
  assert (HzQ : (z == st + inject_Z W * ((fi - st) / inject_Z W))%Q).
  { assert (Hz : nth_error amps w = Some z) by (rewrite Ham, nth_error_app2 by lia; rewrite Hlen, Nat.sub_diag; reflexivity).
    unfold amps in Hz. rewrite linspace_nth in Hz by lia. replace (S w - 1)%nat with w in Hz by lia. injection Hz as <-. reflexivity. }
  split.
  - intros Hn. pose proof (Z.div_mod n s ltac:(lia)) as Hdm. pose proof (Z.mod_pos_bound n s ltac:(lia)) as Hmb. assert (Hk0 : 0 <= n / s) by (apply Z.div_pos; lia).
    assert (Hkw : n / s <= W) by (apply Z.lt_succ_r; apply Z.div_lt_upper_bound; [lia|unfold Z.succ; nia]). replace (Z.of_nat (S w) - 1) with W by (unfold W; lia).
    destruct (Z.lt_ge_cases (n / s) W) as [Hc|Hc].
    + assert (Hlt : n < W * s) by nia. rewrite (pulse_at_out P n) by (left; cbn; lia).
      destruct (nth_error am (Z.to_nat (n / s))) as [a|] eqn:Ea; [|apply nth_error_None in Ea; lia].
      rewrite (Hcov (proj2 Hn) {| o_v := (a, 0%Q); o_t := 0 + Z.of_nat (Z.to_nat (n / s)) * s; o_dur := Some s |}).
      * eapply veq_trans; [apply vadd_0r, Hsum|]. cbn [o_v].
        assert (Hz : nth_error amps (Z.to_nat (n / s)) = Some a) by (rewrite Ham, nth_error_app1 by lia; exact Ea).
        unfold amps in Hz. rewrite linspace_nth in Hz by lia. replace (S w - 1)%nat with w in Hz by lia. injection Hz as <-. rewrite Z2Nat.id by lia. apply veq_refl.
      * apply Hin. left. apply steps_nth. exact Ea.
      * exists s. cbn [o_dur o_t]. split; [reflexivity|]. rewrite Z2Nat.id by lia. nia.
    + assert (Ek : n / s = W) by lia. rewrite Ek in *. assert (Hz2 : veq (z, 0%Q) ((st + inject_Z W * ((fi - st) / inject_Z W))%Q, 0%Q)) by (split; [exact HzQ|reflexivity]).
      destruct (Z.lt_ge_cases n (W * s + s - m)) as [Hq|Hq].
      * rewrite (pulse_at_out P n) by (left; exact Hq). rewrite (Hcov (proj2 Hn) o2); [|apply Hin; auto|exists (s - m); cbn [o2 o_dur o_t]; split; [reflexivity|lia]].
        eapply veq_trans; [apply vadd_0r, Hsum|exact Hz2].
      * rewrite (pulse_at_in P n) by (cbn; lia). cbn [P b_sh]. rewrite (Hhold (proj2 Hn)) with (h1 := steps 0 s am ++ [o2]) (o := o3) (h2 := []).
        -- eapply veq_trans; [apply vadd_0l, veq_refl|]. eapply veq_trans; [apply Hsum|exact Hz2].
        -- intros o Ho. apply Hin in Ho. intros (d & Hd & Hdn). destruct Ho as [Ho|[->| ->]]; [|injection Hd as <-; cbn [o2 o_t] in Hdn; lia|discriminate].
           apply steps_In in Ho. destruct Ho as (k & Hk & Ht & Hd'). rewrite Hd' in Hd. injection Hd as <-. rewrite Ht in Hdn. nia.
        -- reflexivity.
        -- split; [reflexivity|cbn [o3 o_t]; lia].
        -- intros o' Ho' [Hd _]. apply in_app_or in Ho'. destruct Ho' as [Ho'|[<-|[]]]; [|discriminate]. apply steps_In in Ho'. destruct Ho' as (k & _ & _ & Hd'). congruence.
        -- intros ? [].
  - intros Hn. rewrite (pulse_at_out P n) by (cbn; nia). destruct Hn as [Hn|Hn].
    + rewrite Hzero; [split; cbn; ring|unfold W; nia| |].
      * intros o Ho. apply Hin in Ho. intros (d & Hd & Hdn). destruct Ho as [Ho|[->| ->]]; [|cbn [o2 o_t] in Hdn; unfold W in *; nia|discriminate].
        apply steps_In in Ho. destruct Ho as (k & Hk & Ht & Hd'). rewrite Ht in Hdn. nia.
      * intros o Ho. apply Hin in Ho. intros [Hd Hdn]. destruct Ho as [Ho|[->| ->]]; [|discriminate|cbn [o3 o_t] in Hdn; unfold W in *; nia].
        apply steps_In in Ho. destruct Ho as (k & Hk & Ht & Hd'). congruence.
    + eapply veq_trans; [apply vadd_0r, Hsum|exact (Hafter Hn)].
Qed.
(** and in all other cases (step not a multiple of m, or shorter than 2 m) it raises ValueError: a staircase whose steps last exactly the minimum operation time cannot be built *)
Theorem C31_staircase_rejects : forall (start final : Q) (num : nat) (duration t0 m : Z), (1 <= num)%nat -> 0 < m ->
  duration mod Z.of_nat num <> 0 \/ (duration / Z.of_nat num) mod m <> 0 \/ duration / Z.of_nat num < 2 * m ->
  staircase_pulse start final num duration t0 m = Err ValueError.
Proof.
  intros st fi num D t0 m Hnum Hm H. unfold staircase_pulse, step_grid. destruct (Z.eqb_spec (D mod Z.of_nat num) 0) as [H1|H1]; cbn [andb]; [|reflexivity].
  destruct (Z.eqb_spec ((D / Z.of_nat num) mod m) 0) as [H2|H2]; [|reflexivity]. destruct H as [H|[H|H]]; [contradiction|contradiction|]. cbn [bind].
  set (s := D / Z.of_nat num) in *. set (amps := linspace st fi num). destruct (Z.lt_ge_cases s m) as [Hs|Hs].
  - destruct (removelast amps) as [|a r]; cbn [foldM bind].
    + unfold add_voltage_offset at 1. rewrite (proj2 (Z.ltb_lt (s - m) m)) by lia. reflexivity.
    + assert (E : forall b v, add_voltage_offset b v (Some s) 0 true m = Err ValueError) by (intros; unfold add_voltage_offset; rewrite (proj2 (Z.ltb_lt s m) Hs); reflexivity).
      rewrite E. reflexivity.
  - destruct (steps_fold s m ltac:(lia) (removelast amps) new_builder [] r_new) as (b1 & -> & _). cbn [bind].
    assert (E : forall b v, add_voltage_offset b v (Some (s - m)) 0 true m = Err ValueError) by (intros; unfold add_voltage_offset; rewrite (proj2 (Z.ltb_lt (s - m) m)) by lia; reflexivity).
    rewrite E. reflexivity.
Qed.
