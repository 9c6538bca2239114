(** C12, C13, continued: compensation anywhere in a schedule, and the cases in which the claims fail. *)
From Verif Require Import Base QSort TimingModel TimingSpec TimingProps TableModel TableProps PulseCompModel PulseCompProps PulseCompProps2 PulseCompProps3.
From Coq Require Import List Relations.
Open Scope string_scope.
Open Scope list_scope.
Open Scope Q_scope.

(** ** Nested compensation *)
(** the part of an operation at a position: the k-th schedulable of a schedule, the body (0) of a loop, conditional or PulseCompensation *)
Fixpoint at_path (o : sop) (p : list nat) : option sop :=
  match p with
  | [] => Some o
  | k :: p' => match o, k with
               | PLeaf _ _ _, _ => None
               | PSched _ _ _ items, _ => match nth_error items k with Some i => at_path (snd i) p' | None => None end
               | PLoop _ b, O | PCond _ b, O | PComp b _ _, O => at_path b p'
               | _, _ => None
               end
  end.
Lemma Forall2_nth {A B} (R : A -> B -> Prop) l l' : Forall2 R l l' -> forall k x, nth_error l k = Some x -> exists y, nth_error l' k = Some y /\ R x y.
Proof. induction 1 as [|a b l l' H H' IH]; intros k x E; [destruct k; discriminate|]. destruct k; cbn in *; [injection E as <-; eauto|apply IH; exact E]. Qed.
Lemma same_fst st l l' : Forall2 (fun i i' : item => fst i = fst i' /\ timing st (snd i) = Ok (snd i')) l l' -> map fst l = map fst l'.
Proof. induction 1 as [|? ? ? ? [? _] ? IHe]; [reflexivity|cbn [map]; congruence]. Qed.
Lemma same_names l ss : mapM item_sch l = Ok ss -> map s_name ss = map (fun i : item => fst (fst (fst i))) l.
Proof. intros E. apply item_sch_spec in E. induction E as [|? ? ? ? [? _] ? IH]; [reflexivity|]. cbn [map]. rewrite IH. f_equal. assumption. Qed.
Lemma write_all_nth l : forall ss k i, List.length ss = List.length l -> nth_error l k = Some i -> exists i', nth_error (write_all l ss) k = Some i' /\ snd i' = snd i.
Proof.
  induction l as [|[[[n t] a] x] l IH]; intros [|s ss] k i L E; try discriminate; [destruct k; discriminate|]. destruct k; cbn in E; [injection E as <-; eexists; split; reflexivity|]. cbn [write_all nth_error]. apply IH; [cbn in L; lia|exact E].
Qed.
Lemma level_length st reps l out d : keys_ok l -> fresh l -> determine_level st reps l = Ok (out, d) -> List.length out = List.length l.
Proof. intros K F E. destruct (C01_timing_constraints_tight _ _ _ _ _ K F E) as [En _]. apply (f_equal (@List.length _)) in En. rewrite !map_length in En. exact En. Qed.
Lemma sched_items st dl n items o' : written (PSched None dl n items) -> timing st (PSched None dl n items) = Ok o' -> exists d out, o' = PSched (Some d) dl n out /\ forall k i, nth_error items k = Some i -> exists i', nth_error out k = Some i' /\ timing st (snd i) = Ok (snd i').
Proof.
  intros W E. apply written_items in W. destruct W as (_ & Hn & N & W). rewrite timing_sched in E. destruct (timing_items st items) as [items'|] eqn:Et; [|discriminate]. cbn [bind] in E. destruct (mapM item_sch items') as [ss|] eqn:Em; [|discriminate]. cbn [bind] in E. destruct (determine_level st n ss) as [[out D]|] eqn:El; [|discriminate]. cbn [bind fst snd] in E. injection E as <-.
  pose proof (timing_items_spec _ _ _ W Et) as F. pose proof (item_sch_spec _ _ Em) as Hs.
  pose proof (same_fst _ _ _ F) as Ef.
  pose proof (same_names _ _ Em) as Enm.
  assert (K : keys_ok ss). { unfold keys_ok. rewrite Enm. replace (map (fun i : item => fst (fst (fst i))) items') with (map (fun i : item => fst (fst (fst i))) items); [exact N|]. rewrite <- !(map_map fst (fun i => fst (fst i))). rewrite Ef. reflexivity. }
  assert (Fr : fresh ss). { intros s Hi. destruct (Forall2_in_r _ _ _ _ Hs Hi) as (i' & Hi' & _ & _ & Ha & _). destruct (Forall2_in_r _ _ _ _ F Hi') as (i & Hi0 & E1 & _). rewrite Ha, <- E1. apply (proj1 (Forall_forall _ _) W _ Hi0). }
  exists D, (write_all items' out). split; [reflexivity|]. intros k i Hk. destruct (Forall2_nth _ _ _ F k i Hk) as (i' & Hk' & _ & Et'). destruct (write_all_nth items' out k i') as (i2 & H2 & E2); [|exact Hk'|].
  - rewrite (level_length _ _ _ _ _ K Fr El). apply (f_equal (@List.length _)) in Enm. rewrite !map_length in Enm. exact Enm.
  - exists i2. split; [exact H2|]. rewrite E2. exact Et'.
Qed.
Lemma compile_sched st d dl n items o' : written (PSched d dl n items) -> compile st (PSched d dl n items) = Ok o' -> exists d' out, o' = PSched (Some d') dl n out /\ forall k i, nth_error items k = Some i -> exists i', nth_error out k = Some i' /\ compile st (snd i) = Ok (snd i').
Proof.
  intros W E. unfold compile in E. rewrite process_sched in E. destruct (process_items items) as [items'|] eqn:Ep; [|discriminate]. cbn [bind] in E. assert (Hd : d = None) by (apply written_items in W; apply W). subst d.
  assert (W' : written (PSched None dl n items')) by (apply (process_written (PSched None dl n items)); [exact W|rewrite process_sched, Ep; reflexivity]). destruct (sched_items _ _ _ _ _ W' E) as (d' & out & -> & H). exists d', out. split; [reflexivity|]. intros k i Hk. destruct (Forall2_nth _ _ _ (process_items_spec _ _ Ep) k i Hk) as (i1 & Hk1 & _ & E1). destruct (H k i1 Hk1) as (i' & Hk' & E'). exists i'. split; [exact Hk'|]. unfold compile. rewrite E1. exact E'.
Qed.
(** Compilation is compositional: what stands at a position of the compiled schedule is what compiling that part alone gives. So C12_pulse_limits, C12_balanced_partial and C13_after_last_pulse_partial hold for every PulseCompensation anywhere in a schedule, also inside other PulseCompensations. *)
Theorem C12_anywhere : forall st p o o' x, written o -> compile st o = Ok o' -> at_path o p = Some x -> written x /\ exists x', at_path o' p = Some x' /\ compile st x = Ok x'.
Proof.
  intros st. induction p as [|k p IH]; intros o o' x W E Hx; [cbn in Hx; injection Hx as Hx; subst x; cbn; eauto|]. cbn [at_path] in Hx. destruct o as [ps qs dl|n b|u b|d dl n items|b max grid].
  - discriminate.
  - destruct k; [|discriminate]. unfold compile in E. cbn [process] in E. destruct (process b) as [b1|] eqn:E1; [|discriminate]. cbn [bind timing] in E. destruct (timing st b1) as [b'|] eqn:E2; [|discriminate]. injection E as <-. cbn [at_path]. apply (IH b); [apply W| |exact Hx]. unfold compile. rewrite E1. exact E2.
  - destruct k; [|discriminate]. unfold compile in E. cbn [process] in E. destruct (process b) as [b1|] eqn:E1; [|discriminate]. cbn [bind timing] in E. destruct (timing st b1) as [b'|] eqn:E2; [|discriminate]. injection E as <-. cbn [at_path]. apply (IH b); [apply W| |exact Hx]. unfold compile. rewrite E1. exact E2.
  - destruct (nth_error items k) as [i|] eqn:Ek; [|discriminate]. destruct (compile_sched _ _ _ _ _ _ W E) as (d' & out & -> & H). destruct (H k i Ek) as (i' & Hk' & E'). cbn [at_path]. rewrite Hk'. apply (IH (snd i)); [|exact E'|exact Hx]. apply written_items in W. destruct W as (_ & _ & _ & W). apply (proj1 (Forall_forall _ _) W). eapply nth_error_In. exact Ek.
  - destruct k; [|discriminate]. pose proof W as W0. unfold compile in E. destruct (process (PComp b max grid)) as [o1|] eqn:E1; [|discriminate]. cbn [bind] in E. pose proof (process_written _ _ W E1) as W1. cbn [process] in E1. destruct (process b) as [b1|] eqn:Eb; [|discriminate]. cbn [bind] in E1. destruct (determine_compensation_pulse b1 max grid) as [pulses|]; [|discriminate]. cbn [bind] in E1. injection E1 as <-.
    destruct (sched_items _ _ _ _ _ W1 E) as (d' & out & -> & H). destruct (H 0%nat _ eq_refl) as (i' & Hi' & E'). cbn [at_path]. rewrite Hi'. apply (IH b); [apply W0| |exact Hx]. unfold compile. rewrite Eb. exact E'.
Qed.

(** ** Where the claims fail *)
(** With the ALAP strategy no schedule that needs a compensation pulse compiles: the body, added first, refers by default to the pulse added after it, and that pulse refers to the body. *)
Theorem C12_alap_refuted : forall b max grid out, written (PComp b max grid) -> compile ALAP (PComp b max grid) = Ok out -> exists d i, out = PSched d None 1 [i].
Proof.
  intros b max grid out W E. unfold compile in E. destruct (process (PComp b max grid)) as [o1|] eqn:E1; [|discriminate]. cbn [bind] in E. pose proof (process_written _ _ W E1) as W1. cbn [process] in E1. destruct (process b) as [b1|] eqn:Eb; [|discriminate]. cbn [bind] in E1. destruct (determine_compensation_pulse b1 max grid) as [pulses|]; [|discriminate]. cbn [bind] in E1. injection E1 as <-.
  apply written_items in W1. destruct W1 as (_ & _ & N & W1). rewrite timing_sched in E. destruct (timing_items ALAP _) as [items'|] eqn:Et; [|discriminate]. cbn [bind] in E. destruct (mapM item_sch items') as [ss|] eqn:Em; [|discriminate]. cbn [bind] in E. destruct (determine_level ALAP 1 ss) as [[ol D]|] eqn:El; [|discriminate]. cbn [bind fst snd] in E. injection E as <-.
  pose proof (timing_items_spec _ _ _ W1 Et) as F. pose proof (item_sch_spec _ _ Em) as Hs. destruct pulses as [|x pulses].
  - cbn [map] in F. inversion F as [|? i' ? l' ? F0]; subst. inversion F0; subst. inversion Hs as [|? s ? ss' ? Hs0]; subst. inversion Hs0; subst. destruct i' as [[[k t] a] o]. destruct ol as [|o1 ol]; cbn [write_all]; [|eauto]. unfold determine_level in El. exfalso. clear - El. destruct (make_explicit ALAP [s]) as [l1|] eqn:E1; [|discriminate]. cbn [bind] in El. destruct (negb _); [discriminate|]. destruct (topo_sort l1) as [order|]; [|discriminate]. destruct (resolve ALAP order l1) as [l2|] eqn:E2; [|discriminate]. cbn [bind] in El. injection El as En _.
    assert (l2 = []) by (destruct l2 as [|y l2]; [reflexivity|]; unfold normalize in En; destruct (Qlt_bool _ _); discriminate). subst l2.
    assert (L1 : List.length l1 = 1%nat). { unfold make_explicit in E1. cbn [map default_refs tl app combine explicit_all] in E1. destruct (explicit_one ALAP None s) as [s'|]; [|discriminate]. injection E1 as <-. reflexivity. }
    clear En E1. unfold resolve in E2. destruct order as [|n rest]; [injection E2 as ->; discriminate|].
    assert (Hstep : forall first st0 n st1, resolve_step ALAP first st0 n = Ok st1 -> List.length (fst st1) = List.length (fst st0)). { intros first [la de] n0 st1 H. unfold resolve_step in H. destruct (get_sch la n0); [|discriminate]. match type of H with bind ?e _ = _ => destruct e; [|discriminate] end. injection H as <-. unfold put_sch. cbn [fst]. apply map_length. }
    destruct (resolve_step ALAP true (l1, []) n) as [s1|] eqn:Es1; [|discriminate]. cbn [bind] in E2. destruct (foldM _ rest s1) as [s2|] eqn:Es2; [|discriminate]. cbn [bind] in E2. injection E2 as E2. apply Hstep in Es1. apply (foldM_keeps (fun st => List.length (fst st) = 1%nat)) in Es2; [rewrite E2 in Es2; discriminate| |cbn in Es1; congruence]. intros st0 n0 st1 Hl H. rewrite (Hstep _ _ _ _ H). exact Hl.
  - exfalso. cbn [map] in F. inversion F as [|? i0 ? l0 F0 F1]; subst. inversion F1 as [|? i1 ? l1 F2 F3]; subst. inversion Hs as [|? s0 ? ss0 H0 H1]; subst. inversion H1 as [|? s1 ? ss1 H2 H3]; subst. destruct F0 as [F0 _], F2 as [F2 _]. destruct H0 as (N0 & T0 & _), H2 as (N1 & T1 & _). rewrite <- F0 in N0, T0. rewrite <- F2 in N1, T1. cbn in N0, T0, N1, T1.
    assert (K : keys_ok (s0 :: s1 :: ss1)). { pose proof (same_fst _ _ _ F) as Ef. change (map fst (body_item b1 :: map pulse_item (x :: pulses)) = map fst (i0 :: i1 :: l1)) in Ef.
      pose proof (same_names _ _ Em) as Enm.
      unfold keys_ok. rewrite Enm. replace (map (fun i : item => fst (fst (fst i))) (i0 :: i1 :: l1)) with (map (fun i : item => fst (fst (fst i))) (body_item b1 :: map pulse_item (x :: pulses))); [exact N|]. rewrite <- !(map_map fst (fun i => fst (fst i))). rewrite Ef. reflexivity. }
    destruct (C03_accepted_only_if_well_founded _ _ _ _ _ K El) as [_ Hc]. apply Hc. exists body_key. apply t_trans with (s_name s1); apply t_step.
    + exists 1%nat, 0%nat, s1. eexists. split; [reflexivity|]. rewrite N1. split; [reflexivity|]. rewrite T1. split; [reflexivity|]. cbn. reflexivity.
    + exists 0%nat, 0%nat, s0. eexists. split; [reflexivity|]. split; [exact N0|]. rewrite T0. split; [reflexivity|]. reflexivity.
Qed.
Lemma process_comp b max grid : process (PComp b max grid) = do b' <- process b; do pulses <- determine_compensation_pulse b' max grid; Ok (PSched None None 1 (body_item b' :: map pulse_item pulses)).
Proof. reflexivity. Qed.
Lemma process_loop n b : process (PLoop n b) = do b' <- process b; Ok (PLoop n b').
Proof. reflexivity. Qed.
(** A loop (or conditional) over a schedule cannot be compensated: only a body that is itself a schedule is timed before its pulses are added up. *)
Theorem C12_loop_over_schedule_refuted : forall st n d dl reps i items max grid, written (PLoop n (PSched d dl reps (i :: items))) ->
  exists e, compile st (PComp (PLoop n (PSched d dl reps (i :: items))) max grid) = Err e.
Proof.
  intros st n d dl reps i items max grid W. unfold compile. rewrite process_comp, process_loop, process_sched. destruct (process_items (i :: items)) as [items'|] eqn:Ei; [|cbn; eauto]. cbn [bind]. unfold determine_compensation_pulse. cbn [bind table sum_end].
  pose proof (process_items_spec _ _ Ei) as F. inversion F as [|? i' ? l' [E1 _] F']; subst. destruct W as [W _]. apply written_items in W. destruct W as (_ & _ & _ & W). inversion W as [|? ? [Ha _] _]; subst. destruct i' as [[[k t] a] x]. rewrite E1 in Ha. cbn in Ha. subst a. cbn [map]. cbn. eauto.
Qed.
(** A pulse on a compensated port with another clock is neither rejected nor compensated, and the compensation pulse may overlap it. *)
Fixpoint port_flux (p : string) (rows : list row) : Q := match rows with [] => 0 | r :: l => (if negb (r_is_acq r) && match port (r_what r) with Some q => String.eqb q p | None => false end then row_area r else 0) + port_flux p l end.
Definition ex_sq (c : string) (t d a : Q) : info := {| t0 := t; dur := d; what := {| port := Some "q0:fl"; clock := c; wave := Square a; tag := 0 |}; is_acq := false |}.
Definition ex_two_clocks : sop := PComp (PLeaf [ex_sq "cl0.baseband" 0 8 (1#2); ex_sq "q0.01" 0 100 (1#2)] [] None) [("q0:fl", 1#1)] 4.
Theorem C12_other_clock_refuted : exists out rows, written ex_two_clocks /\ compile ASAP ex_two_clocks = Ok out /\ generate (table out) 0 None = Ok rows /\ ~ port_flux "q0:fl" rows == 0 /\
  exists r r', In r rows /\ In r' rows /\ port (r_what r) = Some "q0:fl" /\ clock (r_what r) = "q0.01" /\ port (r_what r') = Some "q0:fl" /\ abs_time r' == 8 /\ abs_time r + r_duration r == 100.
Proof.
  eexists _, _. split; [cbn; repeat split; repeat constructor; cbn; try lra; try discriminate; intros []|]. split; [vm_compute; reflexivity|]. split; [vm_compute; reflexivity|]. split; [vm_compute; discriminate|]. eexists _, _. split; [right; left; reflexivity|]. split; [right; right; left; reflexivity|]. vm_compute. repeat split; reflexivity.
Qed.

(** A body that asks for a negative delay of what follows (the schedule a Measure with apply_acquisition_delay=False is compiled to does: circuit_to_device.py l.747-751, measurement_factories.py l.147-151) moves the compensation pulses that are added after it: they start before the last pulse on their port ends. *)
Definition ex_early : sop := PComp (PSched None (Some (-100)) 1 [("p", [{| tc_ref := None; tc_pt := None; tc_ptnew := None; tc_rel := 0 |}], None, PLeaf [ex_sq "cl0.baseband" 0 300 (1#2)] [] None)]) [("q0:fl", 1#1)] 4.
Theorem C13_negative_delay_refuted : exists out rows r r', compile ASAP ex_early = Ok out /\ generate (table out) 0 None = Ok rows /\ In r rows /\ In r' rows /\
  port (r_what r) = Some "q0:fl" /\ clock (r_what r) = "cl0.baseband" /\ wave (r_what r) = Square (1#2) /\ port (r_what r') = Some "q0:fl" /\ clock (r_what r') = "cl0.baseband" /\ (exists a, wave (r_what r') = Square a /\ a == - (75 # 76)) /\
  abs_time r' == 200 /\ abs_time r + r_duration r == 300.
Proof.
  eexists _, _, _, _. split; [vm_compute; reflexivity|]. split; [vm_compute; reflexivity|]. split; [left; reflexivity|]. split; [right; left; reflexivity|]. vm_compute. repeat split; try reflexivity. eexists. split; reflexivity.
Qed.

(** ** Examples *)
(** a schedule of a pulse, a loop of three iterations of a schedule of two pulses, one of them on another port, and a compensated pulse; inside a loop *)
Definition tc_default : tconstr := {| tc_ref := None; tc_pt := None; tc_ptnew := None; tc_rel := 0 |}.
Definition ex_pulse (p : string) (d : Q) (s : shape) : sop := PLeaf [{| t0 := 0; dur := d; what := {| port := Some p; clock := "cl0.baseband"; wave := s; tag := 0 |}; is_acq := false |}] [] None.
Definition ex_body : sop := PSched None None 1
  [("a", [tc_default], None, ex_pulse "q0:fl" 20 (Square (1#2)));
   ("l", [tc_default], None, PLoop 3 (PSched None None 1 [("x", [tc_default], None, ex_pulse "q0:fl" 10 (Sampled (1#5))); ("y", [tc_default], None, ex_pulse "q1:fl" 6 (Square (1#3)))]));
   ("c", [tc_default], None, PComp (ex_pulse "q1:fl" 7 (Square (-1#1))) [("q1:fl", 1#2)] 4)].
Definition ex_schedule : sop := PSched None None 2 [("top", [tc_default], None, PLoop 2 (PSched None None 1 [("k", [tc_default], None, PComp ex_body [("q0:fl", 3#10); ("q1:fl", 3#10)] 4)]))].
Example C12_ex_written : written ex_schedule /\ at_path ex_schedule [0; 0; 0]%nat = Some (PComp ex_body [("q0:fl", 3#10); ("q1:fl", 3#10)] 4).
Proof. split; [|reflexivity]. cbn. repeat match goal with |- _ /\ _ => split | |- Forall _ _ => constructor | |- NoDup _ => constructor | |- ~ _ => cbn; intuition discriminate | |- True => exact I | |- _ = _ => reflexivity | |- (_ <= _)%Z => lia | |- forall x, None = Some x -> _ => discriminate end; cbn; try lra. Qed.
Example C12_ex : exists out, compile ASAP (PComp ex_body [("q0:fl", 3#10); ("q1:fl", 3#10)] 4) = Ok out /\ exists rows, generate (table out) 0 None = Ok rows /\
  map (fun r => (match port (r_what r) with Some p => p | None => "" end, Qred (abs_time r), Qred (r_duration r), wave (r_what r))) rows =
  [("q0:fl", 0, 20, Square (1#2)); ("q0:fl", 20, 10, Sampled (1#5)); ("q1:fl", 30, 6, Square (1#3)); ("q0:fl", 36, 10, Sampled (1#5)); ("q1:fl", 46, 6, Square (1#3)); ("q0:fl", 52, 10, Sampled (1#5)); ("q1:fl", 62, 6, Square (1#3));
   ("q1:fl", 68, 7, Square (-1)); ("q1:fl", 75, 16, Square (7#16)); ("q0:fl", 62, 56, Square (-160#560)); ("q1:fl", 91, 20, Square (-288#960))].
Proof. eexists. split; [vm_compute; reflexivity|]. eexists. split; vm_compute; reflexivity. Qed.
Print Assumptions C12_balanced_partial.
Print Assumptions C12_pulse_limits.
Print Assumptions C13_after_last_pulse_partial.
Print Assumptions C12_anywhere.
Print Assumptions C12_alap_refuted.
