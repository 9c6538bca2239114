(** C65: phases, and what does not hold. *)
From Verif Require Import Base QSort NumericModel NumericProps DevModel FreqModel NcoModel NcoSpec NcoProps NcoThms NcoThms2 NcoProps2 PathProps2 OvProps.
From Coq Require Import Permutation.
Local Open Scope Q_scope.
Local Open Scope string_scope.

Definition ideg (o : info) : Q := match what (i_pulse o) with KPhase d => d | _ => 0 end.
Lemma total_app a b : total (a ++ b)%list = (total a + total b)%Z.
Proof. unfold total. induction a as [|x a IH]; [reflexivity|]. cbn [app fold_right]. rewrite IH. destruct (snd x); lia. Qed.
Lemma emit_total h o l : emit h o = Ok l -> exists k, Qabs (inject_Z (total l) - (ideg o - inject_Z k * 360) * (1000000000 / 360)) <= (1 # 2) * inject_Z (Z.of_nat (List.length (filter is_phase [o]))).
Proof.
  unfold emit, ideg, is_phase. cbn [filter]. destruct (what (i_pulse o)) as [new old|deg| |]; intros H.
  - destruct old as [f|]; [|discriminate]. destruct (h _) as [i|]; [|discriminate]. binv H z E. injection H as <-. exists 0%Z. vm_compute. discriminate.
  - destruct (Qeq_bool deg 0) eqn:D; injection H as <-.
    + apply Qeq_bool_eq in D. exists 0%Z. rewrite D. vm_compute. discriminate.
    + destruct (nco_phase_steps deg) as [_ [k K]]. exists k. cbn [total fold_right snd]. rewrite Z.add_0_r. cbn [List.length]. change ((1 # 2) * inject_Z (Z.of_nat 1)) with (1 # 2). exact K.
  - injection H as <-. exists 0%Z. vm_compute. discriminate.
  - injection H as <-. exists 0%Z. vm_compute. discriminate.
Qed.
Lemma emits_total h : forall l ls, mapM (emit h) l = Ok ls ->
  exists k, Qabs (inject_Z (total (List.concat ls)) - (sum (map ideg l) - inject_Z k * 360) * (1000000000 / 360)) <= (1 # 2) * inject_Z (Z.of_nat (List.length (filter is_phase l))).
Proof.
  induction l as [|o l IH]; intros ls M; cbn [mapM] in M.
  - injection M as <-. exists 0%Z. vm_compute. discriminate.
  - binv M x E. binv M xs M'. injection M as <-. destruct (IH _ M') as [k1 K1]. destruct (emit_total _ _ _ E) as [k2 K2]. exists (k1 + k2)%Z. cbn [List.concat map sum fold_right]. rewrite total_app. fold (sum (map ideg l)).
    assert (L : List.length (filter is_phase (o :: l)) = (List.length (filter is_phase [o]) + List.length (filter is_phase l))%nat) by (cbn [filter]; destruct (is_phase o); reflexivity).
    rewrite L, Nat2Z.inj_add, !inject_Z_plus. set (a := inject_Z (Z.of_nat (List.length (filter is_phase [o])))) in *. set (b := inject_Z (Z.of_nat (List.length (filter is_phase l)))) in *.
    assert (Hk : 1000000000 / 360 == 25000000 # 9) by reflexivity. rewrite Hk in *. apply Qabs_Qle_condition in K1, K2. apply Qabs_Qle_condition. lra.
Qed.
Lemma sum_perm l l' : Permutation l l' -> sum l == sum l'.
Proof. unfold sum. induction 1; cbn [fold_right]; try lra. Qed.
Lemma sum_filter {A} (f : A -> bool) (g : A -> Q) l : sum (map g (filter f l)) == sum (map (fun x => if f x then g x else 0) l).
Proof. unfold sum. induction l as [|x l IH]; [reflexivity|]. cbn [filter map fold_right]. destruct (f x); cbn [map fold_right]; lra. Qed.

(** The phase words of a program add up to the sum of the phase shifts of its clock, up to full turns and half a step for each shift. *)
Theorem C65_phase_total : forall i ss progs k s prog, compile i ss = Ok progs -> nth_error ss k = Some s -> nth_error progs k = Some prog ->
  exists turns, Qabs (inject_Z (total prog) - (sum (map (degrees (q_clock s)) (entries [] i 0)) - inject_Z turns * 360) * (1000000000 / 360))
                <= (1 # 2) * inject_Z (Z.of_nat (List.length (filter (sets_phase (q_clock s)) (entries [] i 0)))).
Proof.
  intros i ss progs k s prog H Ks Kp. apply compile_inv in H. destruct H as [infos [h [HA [HP M]]]]. pose proof (mapM_nthN _ _ _ _ _ _ M Ks Kp) as PR. unfold program in PR. binv PR ls E. injection PR as <-.
  destruct (emits_total _ _ _ E) as [turns T]. exists turns.
  assert (L : List.length (filter is_phase (ordered infos s)) = List.length (filter (sets_phase (q_clock s)) (entries [] i 0))).
  { pose proof (Permutation_length (times_perm _ _ _ s is_phase sets_phase HA (mk_phase s))) as X. now rewrite !map_length in X. }
  rewrite L in T.
  assert (S : sum (map ideg (ordered infos s)) == sum (map (degrees (q_clock s)) (entries [] i 0))).
  { unfold ordered. rewrite (sum_perm _ _ (Permutation_map ideg (sortq_perm _ _ _))). unfold ops_of. rewrite sum_filter.
    rewrite (sum_perm _ _ (Permutation_map (fun x => if goes (i_pulse x) s then ideg x else 0) (infos_perm _ _ _ HA))). rewrite map_map.
    assert (X : map (fun x => if goes (i_pulse (mk x)) s then ideg (mk x) else 0) (entries [] i 0) = map (degrees (q_clock s)) (entries [] i 0)).
    { apply map_ext. intros [[[r n] p] t]. unfold mk, degrees, ideg, goes. cbn [i_pulse]. rewrite set_old_port, set_old_clock. unfold port, set_old.
      destruct (clock p =? q_clock s); [|reflexivity]. destruct (what p) eqn:W; cbn [what]; rewrite ?W; try reflexivity. destruct port as [pt|]; [|reflexivity]. cbn [andb]. destruct (pt =? q_port s); reflexivity. }
    rewrite X. reflexivity. }
  rewrite S in T. exact T.
Qed.

(** ** With the frequencies of C27 *)
(** One free frequency and no downconverter: the mixer plays the new frequency of the clock. *)
Theorem C65_played : forall i ss progs k s prog r n p t f new old LO IF c lo i0, compile i ss = Ok progs -> one_owner i -> freq_named i ->
  nth_error ss k = Some s -> nth_error progs k = Some prog ->
  occ i r n p t -> clock p = q_clock s -> what p = KFreq (Some new) old -> lookup (clock p) r = Some (Some f) ->
  (LO = None \/ IF = None) -> determine f LO IF None true = Ok (c, lo, i0) ->
  (forall s', In s' ss -> q_clock s' = q_clock s -> q_freq s' = Some i0) ->
  exists z w, starts t p z /\ In (z, SetFreq w) prog /\ Qabs (played lo (inject_Z w / 4) None - new) <= 1 # 8.
Proof.
  intros i ss progs k s prog r n p t f new old LO IF c lo i0 H OW FN Ks Kp O C W LK FREE D U.
  assert (E : lo + i0 == f). { unfold determine in D. cbn [downconvert bind negb] in D. destruct LO as [l|], IF as [x|]; try discriminate; [destruct FREE; discriminate| |]; injection D as <- <- <-; lra. }
  destruct (C65_new_frequency _ _ _ _ _ _ _ _ _ _ _ _ _ _ _ H OW FN Ks Kp O C W LK U E) as [z [w X]]. exists z, w. exact X.
Qed.
(** With a downconverter the frequency moves the other way: the mixer plays 2 f - new. *)
Theorem C65_downconverter_refuted : forall f new LO IF d c lo i0, (LO = None \/ IF = None) -> determine f LO IF (Some d) true = Ok (c, lo, i0) ->
  played lo i0 (Some d) == f /\ played lo (i0 + (new - f)) (Some d) == f - (new - f) /\ (played lo (i0 + (new - f)) (Some d) == new -> new == f).
Proof.
  intros f new LO IF d c lo i0 FREE D. assert (E : d - (lo + i0) == f).
  { unfold determine, downconvert in D. destruct (Qlt_bool d 0); [discriminate|]. destruct (Qlt_bool d f); [discriminate|]. cbn [bind negb] in D. destruct LO as [l|], IF as [x|]; try discriminate; [destruct FREE; discriminate| |]; injection D as <- <- <-; lra. }
  unfold played. repeat split; intros; lra.
Qed.

(** ** Two ports of one clock with different local oscillators: the first gets the change of the second *)
Definition clk := "q0.01".
Definition set_to (q : Q) : item := Op "SetClockFrequency" [{| addr := 0%nat; clock := clk; t0 := 0; what := KFreq (Some q) None |}].
Definition pulse_on (a : nat) (pt : string) : item := Op "SquarePulse" [{| addr := a; clock := clk; t0 := 0; what := KOther (Some pt) |}].
Definition shared : item := Sched [(clk, Some 5000000000)] [(0, pulse_on 1 "q0:mw"); (20, set_to 5100000000); (40, Flow (Sched [(clk, Some 5000000000)] [(0, pulse_on 2 "q0:aux")]))].
(** local oscillators at 4.9 GHz and 4.95 GHz *)
Definition mw := {| q_port := "q0:mw"; q_clock := clk; q_freq := Some 100000000 |}.
Definition aux := {| q_port := "q0:aux"; q_clock := clk; q_freq := Some 50000000 |}.
Lemma shared_entries r n p t : occ shared r n p t -> (n, p) = ("SquarePulse", {| addr := 1%nat; clock := clk; t0 := 0; what := KOther (Some "q0:mw") |}) \/
  (n, p) = ("SetClockFrequency", {| addr := 0%nat; clock := clk; t0 := 0; what := KFreq (Some 5100000000) None |}) \/ (n, p) = ("SquarePulse", {| addr := 2%nat; clock := clk; t0 := 0; what := KOther (Some "q0:aux") |}).
Proof. rewrite occ_entries. cbn. intros [E|[E|[E|[]]]]; injection E as <- <- <- <-; auto. Qed.
Lemma shared_owner : one_owner shared.
Proof.
  intros r n p t r' n' p' t' O O' E. apply shared_entries in O, O'. destruct O as [O|[O|O]], O' as [O'|[O'|O']]; injection O as -> ->; injection O' as -> ->; try discriminate E; auto.
Qed.
Lemma shared_named : freq_named shared.
Proof. intros r n p t new old O E. apply shared_entries in O. destruct O as [O|[O|O]]; injection O as -> ->; try discriminate E. reflexivity. Qed.
Theorem C65_shared_clock_refuted : one_owner shared /\ freq_named shared /\
  compile shared [mw; aux] = Ok [[(20%Z, SetFreq 600000000)]; [(20%Z, SetFreq 600000000)]] /\
  played 4900000000 100000000 None == 5000000000 /\ played 4950000000 50000000 None == 5000000000 /\
  played 4900000000 (inject_Z 600000000 / 4) None == 5050000000 /\ played 4950000000 (inject_Z 600000000 / 4) None == 5100000000.
Proof. split; [exact shared_owner|]. split; [exact shared_named|]. split; [vm_compute; reflexivity|]. repeat split. Qed.
(** in the other order of the sequencers the other one is wrong *)
Theorem C65_order_refuted : compile shared [aux; mw] = Ok [[(20%Z, SetFreq 800000000)]; [(20%Z, SetFreq 800000000)]] /\ played 4950000000 (inject_Z 800000000 / 4) None == 5150000000.
Proof. split; [vm_compute; reflexivity|]. reflexivity. Qed.

(** ** A case of the theorems: two changes, a reset to the old frequency, a phase shift and a phase reset; the second sequencer has another clock *)
Definition res : list (string * option Q) := [("cl0.baseband", Some 0); (clk, Some 5000000000); ("q1.01", Some 6000000000)].
Definition set_back : item := Op "SetClockFrequency" [{| addr := 3%nat; clock := clk; t0 := 0; what := KFreq None None |}].
Definition case : item := Sched res [(0, pulse_on 1 "q0:mw"); (20, set_to 5100000000); (40, Flow (Sched [(clk, Some 5000000000)] [(0, set_back); (8, set_to 5100000000)]));
  (60, Op "ShiftClockPhase" [{| addr := 4%nat; clock := clk; t0 := 0; what := KPhase 450 |}]); (64, Op "ResetClockPhase" [{| addr := 5%nat; clock := clk; t0 := 0; what := KReset |}]);
  (64, Op "SetClockFrequency" [{| addr := 6%nat; clock := "q1.01"; t0 := 0; what := KFreq (Some 6000000001) None |}])].
Definition mw1 := {| q_port := "q1:mw"; q_clock := "q1.01"; q_freq := Some (- 200000000) |}.
Example C65_example : compile case [mw; mw1] = Ok [[(20, SetFreq 800000000); (40, SetFreq 400000000); (48, SetFreq 800000000); (60, PhDelta 250000000); (64, ResetPh)]; [(64, SetFreq (-799999996))]]%Z.
Proof. vm_compute. reflexivity. Qed.
Example C65_example_entries : entries [] case 0 <> [] /\ map (fun e => snd (fst (fst e))) (entries [] case 0) = ["SquarePulse"; "SetClockFrequency"; "SetClockFrequency"; "SetClockFrequency"; "ShiftClockPhase"; "ResetClockPhase"; "SetClockFrequency"].
Proof. split; [discriminate|reflexivity]. Qed.
Lemma case_owner : one_owner case /\ freq_named case.
Proof.
  assert (G : forall r n p t, occ case r n p t -> In (addr p, n, clock p) [(1%nat, "SquarePulse", clk); (0%nat, "SetClockFrequency", clk); (3%nat, "SetClockFrequency", clk); (4%nat, "ShiftClockPhase", clk); (5%nat, "ResetClockPhase", clk); (6%nat, "SetClockFrequency", "q1.01")] /\ (forall a b, what p = KFreq a b -> n = "SetClockFrequency")).
  { intros r n p t O. rewrite occ_entries in O. cbn in O. repeat (destruct O as [O|O]; [injection O as <- <- <- <-; split; [cbn; tauto|cbn; intros; congruence]|]). destruct O. }
  split.
  - intros r n p t r' n' p' t' O O' E. destruct (G _ _ _ _ O) as [I _]. destruct (G _ _ _ _ O') as [I' _]. rewrite <- E in I'. cbn in I, I'.
    repeat (destruct I as [I|I]; [injection I as A1 A2 A3; repeat (destruct I' as [I'|I']; [injection I' as B1 B2 B3; try congruence; split; congruence|]); destruct I'|]). destruct I.
  - intros r n p t a b O E. destruct (G _ _ _ _ O) as [_ F]. eauto.
Qed.
