(** C44: concrete time lines, and documented behaviour that does not hold. *)
From Coq Require Import Lqa.
From Verif Require Import Base TimingModel TimingSpec LibModel LibSpec LibProps LibEngine LibProps2 LibThms LibThms2 LibThms4 LibThms5 LibThms9.
Open Scope Q_scope.
Open Scope string_scope.
Open Scope list_scope.

(** ** the hypotheses can be met *)
Fixpoint rep_a (k : nat) : string := match k with O => EmptyString | S k => ("a" ++ rep_a k)%string end.
Lemma uuids_exist : Uuids rep_a.
Proof. split.
  - induction i as [|i IH]; intros [|j] h; cbn in h; try discriminate; auto. injection h as h. f_equal. auto.
  - induction k; cbn; auto. Qed.
Definition g_dur (o : lop) : Q := match o with ResetGate _ => 200 | XGate _ | X90Gate _ | YGate _ | RxyGate _ _ _ => 20 | MeasureGate _ _ _ => 1000 | _ => 0 end.
Definition g_delay (o : lop) : option Q := match o with MeasureGate _ _ _ => Some 100 | _ => None end.
Lemma g_delay_ok : OnlyMeasureDelays g_delay.
Proof. intros o h. destruct o; cbn in h; try congruence. eauto. Qed.

(** the labels and start times the timing pass finds for a schedule *)
Definition times_of (r : result lsched) : list (string * option Q) :=
  match r with Ok s => match determine ASAP (to_tree g_dur g_delay s) with Ok (OSched _ _ _ items) => map (fun i => (it_name i, option_map Qred (it_abs i))) items | _ => [] end | Err _ => [] end.
(** a T1 experiment with the waiting times 50 and 300 *)
Example t1_times : times_of (t1_sched rep_a (Array [50; 300]) "q0" 7) =
    [("Reset 0", Some 0); ("pi 0", Some 200); ("Measurement 0", Some 250); ("Reset 1", Some 1350); ("pi 1", Some 1550); ("Measurement 1", Some 1850)]%string.
Proof. vm_compute. reflexivity. Qed.
(** readout calibration of both states *)
Example calibration_times : map snd (times_of (readout_calibration_sched rep_a "q0" [0; 1; 0]%Z 7 "SSBIntegrationComplex")) = [Some 0; Some 200; Some 1300; Some 1500; Some 1520; Some 2620; Some 2820].
Proof. vm_compute. reflexivity. Qed.
(** CPMG with two gates *)
Example cpmg_times : map snd (times_of (cpmg_sched rep_a (fun _ => rep_a) 2 (Scalar 400) "q0" "XY" 0 7)) = [Some 0; Some 200; Some (50000000001 # 250000000); Some (150000000001 # 250000000); Some (155000000001 # 250000000)].
Proof. vm_compute. reflexivity. Qed.

(** ** one time line per schedule *)
Lemma timeline_unique gdur gdelay s tl tl' : Timeline gdur gdelay s tl -> Timeline gdur gdelay s tl' -> tl = tl'.
Proof. intros (d & it & h1 & h2 & h3) (d' & it' & g1 & g2 & g3). rewrite h1 in g1. injection g1 as -> ->. rewrite <- h2 in g2. rewrite <- h3 in g3.
  clear - g2 g3. revert tl' g2 g3. induction tl as [|[[a b] c] tl IH]; intros [|[[a' b'] c'] tl'] h1 h2; cbn in *; try discriminate; auto.
  injection h1 as -> -> h1. injection h2 as -> h2. f_equal. auto. Qed.

(** ** documentation that does not hold *)
(** the documentation of cpmg_sched says that n_gates=1 corresponds to echo_sched with the same waiting times: the second pi/2 pulse
    comes 4 ns later than in the echo experiment *)
Theorem C44_cpmg_one_gate_refuted : forall u v gdur gdelay tau q reps s s' tl tl',
  Uuids u -> (forall i, Uuids (v i)) -> OnlyMeasureDelays gdelay -> 0 <= gdur (XGate q) <= tau / 2 -> 0 <= gdur (YGate q) <= tau / 2 ->
  echo_sched u (Scalar tau) q reps = Ok s -> Timeline gdur gdelay s tl ->
  cpmg_sched u v 1 (Scalar tau) q "X" 0 reps = Ok s' -> Timeline gdur gdelay s' tl' ->
  exists n1 n2 n1' n2' t1 t2 t1' t2' rec,
    nth_error tl 1 = Some (n1, X90Gate q, t1) /\ nth_error tl 3 = Some (n2, X90Gate q, t2) /\
    nth_error tl' 1 = Some (n1', X90Gate q, t1') /\ nth_error tl' 3 = Some (n2', RxyGate 90 rec q, t2') /\
    t2 - t1 == tau /\ t2' - t1' == tau + 4 / 1000000000.
Proof. intros u v gdur gdelay tau q reps s s' tl tl' hu hv hd hx hy h1 h2 h3 h4.
  destruct (C44_echo u gdur gdelay (Scalar tau) q reps hu ltac:(discriminate) hd) as (s1 & tl1 & g1 & _ & g2 & _ & g3). rewrite h1 in g1. injection g1 as <-. assert (tl = tl1) by (eapply timeline_unique; eauto). subst tl1.
  assert (E : tau / (2 * inject_Z 1) == tau / 2) by (change (inject_Z 1) with 1; field).
  assert (hf : forall t, In t (as_array (Scalar tau)) -> 0 <= gdur (XGate q) <= t / (2 * inject_Z 1) /\ 0 <= gdur (YGate q) <= t / (2 * inject_Z 1)) by (intros t [<-|[]]; rewrite E; auto).
  destruct (C44_cpmg u v gdur gdelay 1 (Scalar tau) q "X" 0 reps hu hv ltac:(discriminate) hd (or_introl eq_refl) eq_refl ltac:(discriminate) hf) as (s2 & tl2 & k1 & _ & k2 & _ & k3).
  rewrite h3 in k1. injection k1 as <-. assert (tl' = tl2) by (eapply timeline_unique; eauto). subst tl2.
  destruct (g3 0%nat tau eq_refl) as (n1 & n2 & n3 & t0 & t1 & t2 & t3 & t4 & (pre & post & -> & hp) & _ & _ & e1 & e2 & _). destruct pre; [|discriminate].
  destruct (k3 0%nat tau eq_refl) as (m1 & m2 & body & r0 & r1 & r2 & r3 & r4 & (pre' & post' & -> & hp') & _ & _ & _ & e3 & _). destruct pre'; [|discriminate].
  exists n1, n3, m1, m2, t1, t3, r1, r3. eexists. repeat (split; [reflexivity|]). rewrite e3, e2, e1. split; field. Qed.

(** the flux pulse of the chevron experiment starts when the pi pulse on the high-frequency qubit ends, even if the pi pulse on the
    low-frequency qubit is still playing *)
Theorem C44_chevron_overlap_refuted : forall u gdur gdelay lf hf amp dur reps,
  Uuids u -> OnlyMeasureDelays gdelay -> lf <> hf -> gdur (XGate hf) < gdur (XGate lf) ->
  exists s tl n2 n4 t_lf t_flux p, chevron_cz_sched u lf hf (Scalar amp) dur None reps = Ok s /\ Timeline gdur gdelay s tl /\
    nth_error tl 1 = Some (n2, XGate lf, t_lf) /\ nth_error tl 3 = Some (n4, Square dur amp p "cl0.baseband"%string, t_flux) /\ t_flux < t_lf + gdur (XGate lf).
Proof. intros u gdur gdelay lf hf amp dur reps hu hd hq hlt. destruct (C44_chevron u gdur gdelay lf hf (Scalar amp) dur None reps hu ltac:(discriminate) hd hq) as (s & tl & g1 & _ & g2 & _ & g3).
  destruct (g3 0%nat amp eq_refl) as (n1 & n2 & n3 & n4 & n5 & t0 & t1 & t2 & t3 & t4 & (pre & post & -> & hp) & _ & _ & e1 & e2 & _). destruct pre; [|discriminate].
  exists s. eexists. exists n2, n4, t1, t3. eexists. split; [exact g1|]. split; [exact g2|]. split; [reflexivity|]. split; [reflexivity|]. rewrite e2, e1. lra. Qed.
