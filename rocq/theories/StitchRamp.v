(** C31: the waveform of long_ramp_pulse. *)
From Verif Require Import Base UpdModel UpdProps StitchModel StitchProps StitchFactories.
Open Scope Z_scope.

Section Ramp.
Variables (offset ap : Q) (part : Z).
Hypothesis Hpart : 0 < part.
Fixpoint lst (k : nat) : Q := match k with O => offset | S k => (lst k + ap)%Q end.
Lemma lst_eq k : (lst k == offset + inject_Z (Z.of_nat k) * ap)%Q.
Proof. induction k as [|k IH]; [change (inject_Z (Z.of_nat 0)) with 0%Q; cbn [lst]; ring|]. cbn [lst]. rewrite IH, Nat2Z.inj_succ. unfold Z.succ. rewrite inject_Z_plus. change (inject_Z 1) with 1%Q. ring. Qed.
Definition cond (k : nat) : bool := negb (Qeq_bool (lst k) offset) || negb (isclose offset 0).
Definition off_k (k : nat) : offs := {| o_v := (lst k, 0%Q); o_t := Z.of_nat k * part; o_dur := None |}.
Definition pul_k (k : nat) : bpulse := {| b_t := Z.of_nat k * part; b_dur := part; b_sh := Ramp ap 0 |}.
Definition hs (j n : nat) : list offs := flat_map (fun i => if cond i then [off_k i] else []) (seq j n).

Lemma ramp_parts_ok : forall n j b h, reached b h -> operation_end b = Z.of_nat j * part -> exists b',
  ramp_parts n b (lst j) offset ap part = Ok (b', lst (j + n)) /\ reached b' (h ++ hs j n) /\ operation_end b' = Z.of_nat (j + n) * part /\ pulses b' = pulses b ++ map pul_k (seq j n).
Proof.
  induction n as [|n IH]; intros j b h Hr He.
  - exists b. cbn. rewrite Nat.add_0_r, !app_nil_r. auto.
  - cbn [ramp_parts]. fold (cond j).
    assert (Hoff : exists b1, (if cond j then add_voltage_offset b (lst j, 0%Q) None 0 true MIN_TIME else Ok b) = Ok b1 /\ reached b1 (h ++ (if cond j then [off_k j] else [])) /\ operation_end b1 = operation_end b /\ pulses b1 = pulses b).
    { destruct (cond j); [|exists b; rewrite app_nil_r; auto]. destruct (append_offset b h (lst j, 0%Q) None 0 MIN_TIME Hr) as (b1 & -> & Hr1 & Hp1 & He1); [unfold MIN_TIME; lia|lia|discriminate|].
      exists b1. cbn [dur_of] in He1. rewrite He in Hr1. cbn [Z.add] in Hr1. repeat split; [exact Hr1|lia|exact Hp1]. }
    destruct Hoff as (b1 & -> & Hr1 & He1 & Hp1). cbn [bind]. set (p := {| b_t := 0; b_dur := part; b_sh := Ramp ap 0 |}).
    destruct (append_pulse b1 _ p Hr1) as (Hr2 & Hp2 & He2); [cbn; lia|reflexivity|]. cbn [p b_dur b_sh] in Hp2, He2.
    destruct (IH (S j) _ _ Hr2) as (b' & Hb' & Hr' & He' & Hp'); [rewrite He2; lia|]. cbn [lst] in Hb'. exists b'. replace (j + S n)%nat with (S j + n)%nat by lia. split; [exact Hb'|]. split.
    + rewrite <- app_assoc in Hr'. exact Hr'.
    + split; [exact He'|]. rewrite Hp', Hp2, Hp1, He1, He. rewrite <- app_assoc. reflexivity.
Qed.
Lemma hs_In j n o : In o (hs j n) <-> exists k, (j <= k < j + n)%nat /\ cond k = true /\ o = off_k k.
Proof.
  unfold hs. rewrite in_flat_map. split.
  - intros (k & Hk & Ho). apply in_seq in Hk. destruct (cond k) eqn:E; [|destruct Ho]. destruct Ho as [<-|[]]. exists k. auto.
  - intros (k & Hk & Hc & ->). exists k. split; [apply in_seq; lia|]. rewrite Hc. left. reflexivity.
Qed.
Lemma hs_app j a b : hs j (a + b) = hs j a ++ hs (j + a) b. Proof. unfold hs. rewrite seq_app, flat_map_app. reflexivity. Qed.
(** an offset instruction is left out only while nothing has to be set *)
Lemma cond_false k : cond k = false <-> (lst k == offset)%Q /\ (offset == 0)%Q.
Proof. unfold cond. rewrite orb_false_iff, !negb_false_iff, Qeq_bool_iff, isclose_0. reflexivity. Qed.
Lemma cond_prefix i k : (i <= k)%nat -> cond k = false -> cond i = false.
Proof.
  rewrite !cond_false. intros Hik [H1 H2]. split; [|exact H2]. rewrite lst_eq in H1 |- *. destruct k as [|k]; [replace i with O by lia; exact H1|].
  assert (Hk : ~ (inject_Z (Z.of_nat (S k)) == 0)%Q) by (change 0%Q with (inject_Z 0); rewrite inject_Z_injective; lia).
  assert (Hz : (inject_Z (Z.of_nat (S k)) * ap == 0)%Q) by lra. apply Qmult_integral in Hz. destruct Hz as [Hz|Hz]; [contradiction|]. rewrite Hz. ring.
Qed.
End Ramp.

Lemma seq_split3 n k : (k < n)%nat -> seq 0 n = seq 0 k ++ k :: seq (S k) (n - S k).
Proof. intros H. replace n with (k + S (n - S k))%nat at 1 by lia. rewrite seq_app. reflexivity. Qed.

(** ** C31, long_ramp_pulse: the samples rise linearly from the offset by amp over the duration, and are zero outside, for every amplitude, duration, offset and part duration, except when a nonzero offset
    is combined with an amplitude that is (relatively) negligible and there is more than one part *)
Theorem C31_long_ramp_partial : forall (amp offset : Q) (duration t0 part : Z), 0 < part -> 0 < duration ->
  let whole := (duration - 1) / part in
  (offset == 0)%Q \/ whole = 0 \/ (forall last, (last == offset + inject_Z whole * (inject_Z part / inject_Z duration * amp))%Q -> isclose last offset = false) ->
  exists s, long_ramp_pulse amp duration offset t0 part = Ok s /\
  forall n, (0 <= n < duration -> veq (signal s (t0 + n)) ((amp / inject_Z duration * inject_Z n + offset)%Q, 0%Q)) /\
            (n < 0 \/ duration <= n -> veq (signal s (t0 + n)) v0).
Proof.
  intros amp offset D t0 part Hpart HD whole Hyp. unfold long_ramp_pulse. fold whole. set (ap := (inject_Z part / inject_Z D * amp)%Q) in *.
  assert (Hw0 : 0 <= whole) by (apply Z.div_pos; lia). assert (Hwd : whole * part < D) by (unfold whole; pose proof (Z.mul_div_le (D - 1) part Hpart); lia).
  assert (HDq : ~ (inject_Z D == 0)%Q) by (change 0%Q with (inject_Z 0); rewrite inject_Z_injective; lia).
  set (w := Z.to_nat whole). assert (Ew : Z.of_nat w = whole) by (unfold w; rewrite Z2Nat.id; lia).
  destruct (ramp_parts_ok offset ap part Hpart w O new_builder [] r_new op_end_new) as (b1 & Hb1 & Hr1 & He1 & Hp1). change (lst offset ap 0) with offset in Hb1. rewrite Hb1. clear Hb1. cbn [bind Nat.add app] in *. rewrite Ew in He1.
  set (last := lst offset ap w). assert (Elast : (last == offset + inject_Z whole * ap)%Q) by (unfold last; rewrite lst_eq, Ew; reflexivity).
  set (z := negb (isclose last offset) && negb (isclose (last - ap) 0)).
  assert (Hoff : exists b2, (if z then add_voltage_offset b1 v0 None 0 true MIN_TIME else Ok b1) = Ok b2 /\ reached b2 (hs offset ap part 0 w ++ (if z then [{| o_v := v0; o_t := whole * part; o_dur := None |}] else [])) /\ operation_end b2 = whole * part /\ pulses b2 = pulses b1).
  { destruct z; [|exists b1; rewrite app_nil_r; auto]. destruct (append_offset b1 _ v0 None 0 MIN_TIME Hr1) as (b2 & -> & Hr2 & Hp2 & He2); [unfold MIN_TIME; lia|lia|discriminate|].
    exists b2. cbn [dur_of] in He2. rewrite He1 in Hr2. cbn [Z.add] in Hr2. repeat split; [exact Hr2|lia|exact Hp2]. }
  destruct Hoff as (b2 & -> & Hr2 & He2 & Hp2). cbn [bind]. set (al := (amp - inject_Z whole * ap)%Q). set (dl := D - whole * part). set (p := {| b_t := 0; b_dur := dl; b_sh := Ramp al last |}).
  destruct (append_pulse b2 _ p Hr2) as (Hr3 & Hp3 & He3); [cbn [p b_dur]; lia|reflexivity|]. cbn [p b_dur b_sh] in Hp3, He3. set (b3 := add_pulse b2 p true) in *. assert (E3 : operation_end b3 = D) by lia.
  rewrite He2, Hp2, Hp1 in Hp3. cbn [new_builder pulses app] in Hp3. set (P := {| b_t := whole * part; b_dur := dl; b_sh := Ramp al last |}) in *.
  eexists. split; [reflexivity|]. intros n. rewrite signal_build, Hp3. destruct (C31_builder b3 _ t0 n Hr3) as (Hafter & _ & Hhold & Hzero). rewrite E3 in *.
  set (oz := {| o_v := v0; o_t := whole * part; o_dur := None |}) in *. set (H := hs offset ap part 0 w ++ (if z then [oz] else [])) in *.
  assert (HIn : forall o, In o H -> (exists k, (k < w)%nat /\ cond offset ap k = true /\ o = off_k offset ap part k) \/ z = true /\ o = oz).
  { intros o Ho. unfold H in Ho. apply in_app_or in Ho. destruct Ho as [Ho|Ho]; [left|right].
    - apply hs_In in Ho. destruct Ho as (k & Hk & Hc & Ho). exists k. repeat split; [lia|exact Hc|exact Ho].
    - destruct z; [|destruct Ho]. destruct Ho as [<-|[]]. auto. }
  assert (Hnc : forall o, In o H -> ~ covers o n) by (intros o Ho (d & Hd & _); destruct (HIn o Ho) as [(k & _ & _ & ->)|[_ ->]]; discriminate).
  assert (Hout : forall k, n < Z.of_nat k * part \/ (Z.of_nat k + 1) * part <= n -> veq (pulse_at (pul_k ap part k) n) v0) by (intros k Hk; rewrite pulse_at_out by (cbn [pul_k b_t b_dur]; lia); apply veq_refl).
  assert (HPout : n < whole * part \/ D <= n -> veq (pulse_at P n) v0) by (intros Hn; rewrite pulse_at_out by (cbn [P b_t b_dur]; unfold dl; lia); apply veq_refl).
  split.
  - intros Hn. destruct (Z.lt_ge_cases n (whole * part)) as [Hlt|Hge].
    + (* a whole part *)
      set (k := Z.to_nat (n / part)). assert (Hk0 : 0 <= n / part) by (apply Z.div_pos; lia). assert (Ek : Z.of_nat k = n / part) by (unfold k; rewrite Z2Nat.id; lia).
      pose proof (Z.div_mod n part ltac:(lia)) as Hdm. pose proof (Z.mod_pos_bound n part Hpart) as Hmb. assert (Hkw : (k < w)%nat) by (assert (n / part < whole) by (apply Z.div_lt_upper_bound; lia); lia).
      assert (Hvs : veq (vsum (map (fun q => pulse_at q n) (map (pul_k ap part) (seq 0 w) ++ [P]))) (pulse_at (pul_k ap part k) n)).
      { rewrite (seq_split3 w k Hkw). rewrite (map_app (pul_k ap part)), <- app_assoc. change (map (pul_k ap part) (k :: seq (S k) (w - S k)) ++ [P]) with (pul_k ap part k :: map (pul_k ap part) (seq (S k) (w - S k)) ++ [P]). apply (vsum_single (fun q => pulse_at q n)); cbv beta.
        - intros q Hq. apply in_map_iff in Hq. destruct Hq as (i & <- & Hi). apply in_seq in Hi. apply Hout. right. nia.
        - intros q Hq. apply in_app_or in Hq. destruct Hq as [Hq|[<-|[]]]; [|apply HPout; left; exact Hlt]. apply in_map_iff in Hq. destruct Hq as (i & <- & Hi). apply in_seq in Hi. apply Hout. left. nia. }
      assert (Hov : veq (offset_at (s_offs (build b3 t0)) (t0 + n)) (lst offset ap k, 0%Q)).
      { destruct (cond offset ap k) eqn:Ec.
        - rewrite (Hhold (proj2 Hn) Hnc (hs offset ap part 0 k) (off_k offset ap part k) (hs offset ap part (S k) (w - S k) ++ (if z then [oz] else []))).
          + apply veq_refl.
          + unfold H. replace w with (k + (1 + (w - S k)))%nat at 1 by lia. rewrite !hs_app, <- app_assoc. f_equal. unfold hs at 1. cbn [seq flat_map Nat.add]. rewrite Ec. cbn [app]. replace (k + 1)%nat with (S k) by lia. reflexivity.
          + split; [reflexivity|cbn [off_k o_t]; nia].
          + intros o' Ho' _. apply hs_In in Ho'. destruct Ho' as (i & Hi & _ & ->). cbn [off_k o_t]. nia.
          + intros o' Ho' [_ Ht]. exfalso. apply in_app_or in Ho'. destruct Ho' as [Ho'|Ho'].
            * apply hs_In in Ho'. destruct Ho' as (i & Hi & _ & ->). cbn [off_k o_t] in Ht. nia.
            * destruct z; [|destruct Ho']. destruct Ho' as [<-|[]]. cbn [oz o_t] in Ht. lia.
        - rewrite (Hzero (proj2 Hn) Hnc).
          + apply cond_false in Ec. destruct Ec as [E1 E2]. split; cbn [v0 fst snd]; [rewrite E1, E2|]; reflexivity.
          + intros o Ho [_ Ht]. destruct (HIn o Ho) as [(i & Hi & Hc & ->)|[_ ->]]; cbn [off_k oz o_t] in Ht; [|lia]. assert (i <= k)%nat by nia. rewrite (cond_prefix offset ap i k) in Hc by assumption. discriminate. }
      eapply veq_trans; [apply vadd_eq; [exact Hov|exact Hvs]|]. rewrite pulse_at_in by (cbn [pul_k b_t b_dur]; nia). cbn [pul_k b_sh b_dur b_t]. split; cbn [vadd fst snd]; [|ring].
      rewrite lst_eq, Ek. unfold Z.sub. rewrite inject_Z_plus, inject_Z_opp, inject_Z_mult. unfold ap. field. split; [exact HDq|]. change 0%Q with (inject_Z 0). rewrite inject_Z_injective. lia.
    + (* the last part *)
      assert (Hvs : veq (vsum (map (fun q => pulse_at q n) (map (pul_k ap part) (seq 0 w) ++ [P]))) (pulse_at P n)).
      { apply (vsum_single (fun q => pulse_at q n)); cbv beta; [|intros ? []]. intros q Hq. apply in_map_iff in Hq. destruct Hq as (i & <- & Hi). apply in_seq in Hi. apply Hout. right. nia. }
      assert (Hallf : (forall i, (i < w)%nat -> cond offset ap i = false) -> z = false -> veq (offset_at (s_offs (build b3 t0)) (t0 + n)) v0).
      { intros Hf Hz. rewrite (Hzero (proj2 Hn) Hnc); [apply veq_refl|]. intros o Ho _. destruct (HIn o Ho) as [(i & Hi & Hc & _)|[Hz' _]]; [rewrite Hf in Hc by exact Hi; discriminate|congruence]. }
      assert (Hov : veq (offset_at (s_offs (build b3 t0)) (t0 + n)) v0).
      { destruct z eqn:Ez.
        - rewrite (Hhold (proj2 Hn) Hnc (hs offset ap part 0 w) oz []); [apply veq_refl|reflexivity|split; [reflexivity|cbn [oz o_t]; lia]| |intros ? []].
          intros o' Ho' _. apply hs_In in Ho'. destruct Ho' as (i & Hi & _ & ->). cbn [off_k oz o_t]. nia.
        - destruct (Nat.eq_dec w 0) as [Hw|Hw]; [apply Hallf; [intros; lia|reflexivity]|]. unfold z in Ez. apply andb_false_iff in Ez. rewrite !negb_false_iff in Ez. destruct Ez as [Ez|Ez].
          + (* the last voltage is close to the offset *)
            destruct Hyp as [Hyp|[Hyp|Hyp]]; [|lia|rewrite (Hyp last Elast) in Ez; discriminate].
            assert (Hl0 : (last == offset)%Q).
            { revert Ez. unfold isclose. rewrite Qle_bool_iff. setoid_rewrite Hyp. change (Qabs 0) with 0%Q. rewrite Q.max_l by apply Qabs_nonneg. assert (Hx : (last - 0 == last)%Q) by ring. rewrite Hx.
              intros Hle. pose proof (Qabs_nonneg last). assert (Hq : (Qabs last == 0)%Q) by lra. destruct (Qlt_le_dec last 0) as [Hs|Hs]; [rewrite Qabs_neg in Hq by lra; lra|rewrite Qabs_pos in Hq by exact Hs; exact Hq]. }
            apply Hallf; [|reflexivity]. intros i Hi. apply (cond_prefix offset ap i w); [lia|]. apply cond_false. split; [exact Hl0|exact Hyp].
          + (* the last offset that was set is zero *)
            apply isclose_0 in Ez. destruct w as [|w']; [contradiction|]. assert (Hl : (lst offset ap w' == 0)%Q) by (rewrite <- Ez; unfold last; cbn [lst]; ring).
            destruct (cond offset ap w') eqn:Ec; [|apply Hallf; [|reflexivity]; intros i Hi; apply (cond_prefix offset ap i w'); [lia|exact Ec]].
            rewrite (Hhold (proj2 Hn) Hnc (hs offset ap part 0 w') (off_k offset ap part w') []).
            * split; [exact Hl|reflexivity].
            * unfold H. replace (S w') with (w' + 1)%nat by lia. rewrite hs_app, <- app_assoc. f_equal. unfold hs at 1. cbn [seq flat_map Nat.add app]. rewrite Ec. reflexivity.
            * split; [reflexivity|cbn [off_k o_t]; nia].
            * intros o' Ho' _. apply hs_In in Ho'. destruct Ho' as (i & Hi & _ & ->). cbn [off_k o_t]. nia.
            * intros ? []. }
      eapply veq_trans; [apply vadd_eq; [exact Hov|exact Hvs]|]. rewrite pulse_at_in by (cbn [P b_t b_dur]; unfold dl; lia). cbn [P b_sh b_dur b_t]. split; cbn [vadd v0 fst snd]; [|ring].
      rewrite Elast. unfold al, dl, ap, Z.sub. rewrite !inject_Z_plus, !inject_Z_opp, !inject_Z_mult. field. split; [exact HDq|].
      intros Hz. assert (Hz2 : (inject_Z (D - whole * part) == 0)%Q) by (unfold Z.sub; rewrite inject_Z_plus, inject_Z_opp, inject_Z_mult, <- Hz; ring). change 0%Q with (inject_Z 0) in Hz2. rewrite inject_Z_injective in Hz2. lia.
  - intros Hn. assert (Hvs : veq (vsum (map (fun q => pulse_at q n) (map (pul_k ap part) (seq 0 w) ++ [P]))) v0).
    { apply vsum_0. intros q Hq. apply in_app_or in Hq. destruct Hq as [Hq|[<-|[]]]; [|apply HPout; nia]. apply in_map_iff in Hq. destruct Hq as (i & <- & Hi). apply in_seq in Hi. apply Hout. nia. }
    eapply veq_trans; [apply vadd_0r, Hvs|]. destruct Hn as [Hn|Hn]; [|exact (Hafter Hn)]. rewrite Hzero; [apply veq_refl|lia|exact Hnc|].
    intros o Ho [_ Ht]. destruct (HIn o Ho) as [(i & Hi & Hc & ->)|[_ ->]]; cbn [off_k oz o_t] in Ht; nia.
Qed.

(** The excluded case fails: a constant ramp (amp = 0) with offset 1/2 over 3000 ns in parts of 2000 ns plays twice the offset in its last part *)
Theorem C31_ramp_offset_doubled : exists s, long_ramp_pulse 0 3000 (1 # 2) 0 2000 = Ok s /\ veq (signal s 1000) ((1 # 2)%Q, 0%Q) /\ veq (signal s 2500) (1%Q, 0%Q).
Proof. eexists. split; [vm_compute; reflexivity|]. split; split; vm_compute; reflexivity. Qed.

(** Examples *)
Example C31_ramp_ex : exists s, long_ramp_pulse 1 5000 (-(1 # 4)) 0 2000 = Ok s /\ veq (signal s 4999) ((4999 # 5000) - (1 # 4), 0)%Q.
Proof. eexists. split; [vm_compute; reflexivity|]. split; vm_compute; reflexivity. Qed.
Example C31_stairs_ex : exists s, staircase_pulse 0 1 5 100 0 4 = Ok s /\ veq (signal s 99) (1, 0)%Q /\ veq (signal s 45) (1 # 2, 0)%Q.
Proof. eexists. split; [vm_compute; reflexivity|]. split; split; vm_compute; reflexivity. Qed.
Example C31_stairs_reject_ex : staircase_pulse 0 1 5 20 0 4 = Err ValueError. Proof. vm_compute. reflexivity. Qed.
(** a builder with an offset with a duration on a background, a rejected overlapping offset and a pulse *)
Example C31_builder_ex : exists b1 b2 h, reached b2 h /\ List.length h = 2%nat /\ operation_end b2 = 120 /\
  add_voltage_offset b1 (1, 1)%Q (Some 40) 30 false 4 = Err RuntimeError /\ offset_at (s_offs (build b2 7)) (7 + 35) = (1 # 2, 0)%Q /\ offset_at (s_offs (build b2 7)) (7 + 65) = (1 # 4, 0)%Q /\ offset_at (s_offs (build b2 7)) (7 + 120) = v0.
Proof.
  assert (H1 : exists b, add_voltage_offset new_builder (1 # 4, 0)%Q None 0 true 4 = Ok b) by (eexists; vm_compute; reflexivity). destruct H1 as [b0 H1].
  assert (H2 : exists b, add_voltage_offset b0 (1 # 2, 0)%Q (Some 40) 20 false 4 = Ok b) by (vm_compute in H1; injection H1 as <-; eexists; vm_compute; reflexivity). destruct H2 as [b1 H2].
  pose proof (r_offset _ _ _ _ _ _ 4 _ r_new ltac:(lia) H1) as R1. pose proof (r_offset _ _ _ _ _ _ 4 _ R1 ltac:(lia) H2) as R2.
  set (p := {| b_t := 0; b_dur := 60; b_sh := Square (1, 0)%Q |}). assert (Hp : 0 <= b_dur p) by (cbn; lia). pose proof (r_pulse _ _ p true R2 Hp) as R3.
  exists b1, (add_pulse b1 p true). eexists. split; [exact R3|]. vm_compute in H1. injection H1 as <-. vm_compute in H2. injection H2 as <-. repeat split; vm_compute; reflexivity.
Qed.
Print Assumptions C31_builder.
Print Assumptions C31_overlap.
Print Assumptions C31_long_ramp_partial.
Print Assumptions C31_staircase.
