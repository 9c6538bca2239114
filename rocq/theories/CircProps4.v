(** C40: multiplexed gates are played simultaneously, rejected circuits, where the claims fail, examples. *)
From Verif Require Import Base TimingModel TimingSpec TimingProofs3 TimingProps TableModel CircModel CircSpec CircProps CircProps2 CircProps3.
From Coq Require Import List Arith Lia Lqa Relations.
Open Scope string_scope.
Open Scope list_scope.
Open Scope Q_scope.

(** ** Multiplexed gates *)
(** the schedulables of a schedule as the timing pass sees them ([TimingModel.item_sch]), given the durations of the operations *)
Definition level_of (duration : gop -> Q) (o : gop) : list sch :=
  match o with
  | GSched _ _ _ _ ops ss => map (fun '(n, k, tcs) => let x := match get ops k with Some x => x | None => GAsm "" 0 end in {| s_name := n; s_dur := duration x; s_delay := delay_of_sched x; s_tcs := tcs; s_abs := None |}) ss
  | _ => []
  end.
Lemma slot_inj : forall a b, slot a = slot b -> a = b.
Proof. induction a as [|a IH]; intros [|b] H; cbn in H; try discriminate; [reflexivity|]. injection H as H. f_equal. apply IH, H. Qed.
Lemma slot_eqb a b : String.eqb (slot a) (slot b) = Nat.eqb a b.
Proof. destruct (Nat.eqb_spec a b) as [->|H]; [apply String.eqb_refl|]. apply String.eqb_neq. intros E. apply H, slot_inj, E. Qed.
Lemma without_no_delay o : delay_of_sched (without_delay o) = None.
Proof. destruct o; reflexivity. Qed.
Lemma get_slots : forall parts a k, (a <= k)%nat -> get (combine (map slot (seq a (List.length parts))) (map without_delay parts)) (slot k) = option_map without_delay (nth_error parts (k - a)).
Proof.
  induction parts as [|p parts IH]; intros a k Hk; cbn [List.length seq map combine get]; [destruct (k - a)%nat; reflexivity|]. rewrite slot_eqb. destruct (Nat.eqb_spec a k) as [->|Hne]; [rewrite Nat.sub_diag; reflexivity|]. rewrite IH by lia. replace (k - a)%nat with (S (k - S a)) by lia. reflexivity.
Qed.
Definition tcs_at (k : nat) : list tconstr := [if Nat.eqb k 0 then tc_first else tc_start].
Lemma level_inner duration parts : level_of duration (inner_schedule parts) =
  map (fun '(k, p) => {| s_name := slot k; s_dur := duration (without_delay p); s_delay := None; s_tcs := tcs_at k; s_abs := None |}) (combine (seq 0 (List.length parts)) parts).
Proof.
  unfold inner_schedule, level_of. rewrite !map_map.
  assert (H : forall l a, (forall k, nth_error parts (a + k) = nth_error l k) ->
    map (fun x => let x0 := match get (combine (map slot (seq 0 (List.length parts))) (map without_delay parts)) (slot x) with Some x0 => x0 | None => GAsm "" 0 end in {| s_name := slot x; s_dur := duration x0; s_delay := delay_of_sched x0; s_tcs := [if String.eqb (slot x) (slot 0) then tc_first else tc_start]; s_abs := None |}) (seq a (List.length l)) =
    map (fun '(k, p) => {| s_name := slot k; s_dur := duration (without_delay p); s_delay := None; s_tcs := tcs_at k; s_abs := None |}) (combine (seq a (List.length l)) l)).
  { induction l as [|p l IH]; intros a Hl; [reflexivity|]. cbn [List.length seq map combine]. f_equal.
    - rewrite get_slots by lia. rewrite Nat.sub_0_r. pose proof (Hl 0%nat) as H0. rewrite Nat.add_0_r in H0. rewrite H0. cbn [nth_error option_map]. cbv zeta. rewrite without_no_delay. unfold tcs_at. rewrite slot_eqb. reflexivity.
    - apply IH. intros k. change (nth_error l k) with (nth_error (p :: l) (S k)). rewrite <- (Hl (S k)). f_equal. lia. }
  apply H. reflexivity.
Qed.
Lemma nth_combine_seq {A} : forall (l : list A) a k, nth_error (combine (seq a (List.length l)) l) k = option_map (fun x => ((a + k)%nat, x)) (nth_error l k).
Proof. induction l as [|x l IH]; intros a [|k]; cbn; try reflexivity; [rewrite Nat.add_0_r; reflexivity|]. rewrite IH. destruct (nth_error l k); cbn; [|reflexivity]. do 2 f_equal. lia. Qed.
Lemma level_nth duration parts k : nth_error (level_of duration (inner_schedule parts)) k = option_map (fun p => {| s_name := slot k; s_dur := duration (without_delay p); s_delay := None; s_tcs := tcs_at k; s_abs := None |}) (nth_error parts k).
Proof. rewrite level_inner, nth_error_map, nth_combine_seq. destruct (nth_error parts k); reflexivity. Qed.
Lemma level_in duration parts s : In s (level_of duration (inner_schedule parts)) -> exists k p, nth_error parts k = Some p /\ s = {| s_name := slot k; s_dur := duration (without_delay p); s_delay := None; s_tcs := tcs_at k; s_abs := None |}.
Proof. intros H. apply In_nth_error in H. destruct H as (k & Hk). rewrite level_nth in Hk. destruct (nth_error parts k) as [p|] eqn:E; [|discriminate]. injection Hk as <-. eauto. Qed.
Lemma level_name duration parts k p : nth_error parts k = Some p -> In (slot k) (map s_name (level_of duration (inner_schedule parts))).
Proof. intros H. apply in_map_iff. eexists. split; [|eapply nth_error_In; rewrite level_nth, H; reflexivity]. reflexivity. Qed.
Lemma level_keys duration parts : keys_ok (level_of duration (inner_schedule parts)).
Proof.
  unfold keys_ok. rewrite level_inner, map_map. replace (map _ _) with (map slot (seq 0 (List.length parts))).
  - apply FinFun.Injective_map_NoDup; [intros a b; apply slot_inj|apply seq_NoDup].
  - generalize 0%nat. induction parts as [|p parts IH]; intros a; [reflexivity|]. cbn. f_equal. apply IH.
Qed.
Lemma level_fresh duration parts : fresh (level_of duration (inner_schedule parts)).
Proof. intros s H. apply level_in in H. destruct H as (k & p & _ & ->). reflexivity. Qed.
Lemma level_refers duration parts a b : RefersTo ASAP (level_of duration (inner_schedule parts)) a b -> a = slot 0 /\ exists k, b = slot (S k).
Proof.
  intros (k & j & s & c & Hk & <- & Hc & Hr). rewrite level_nth in Hk. destruct (nth_error parts k) as [p|]; [|discriminate]. injection Hk as <-. cbn [s_tcs s_name] in *. unfold tcs_at in Hc. destruct j as [|j]; [|destruct j; discriminate]. injection Hc as <-. destruct k as [|k]; cbn [Nat.eqb] in Hr; [discriminate|]. injection Hr as <-. eauto.
Qed.
(** The schedule made of a multiplexed gate can be timed (as soon as possible), and all its parts start at the same time; it lasts as long as the longest. *)
Theorem C40_simultaneous : forall duration parts, parts <> [] -> (forall p, In p parts -> 0 <= duration (without_delay p)) ->
  exists out d, determine_level ASAP 1 (level_of duration (inner_schedule parts)) = Ok (out, d) /\ List.length out = List.length parts /\
    (forall n t, Starts out n t -> t == 0) /\ (forall p, In p parts -> duration (without_delay p) <= d) /\ (exists p, In p parts /\ duration (without_delay p) == d).
Proof.
  intros duration parts Hne Hd. pose proof (level_keys duration parts) as K. pose proof (level_fresh duration parts) as F.
  destruct (C03_well_founded_accepted ASAP 1 _ K) as (out & d & E).
  - split; [|split; [|split]].
    + destruct parts as [|p parts]; [contradiction|]. rewrite level_inner. discriminate.
    + intros k s Hk. rewrite level_nth in Hk. destruct (nth_error parts k); [|discriminate]. injection Hk as <-. discriminate.
    + discriminate.
    + intros k s j c Hk Hr Hc. rewrite level_nth in Hk. destruct (nth_error parts k); [|discriminate]. injection Hk as <-. cbn [s_tcs] in Hc. unfold tcs_at in Hc. destruct j as [|j]; [|destruct j; discriminate]. injection Hc as <-. destruct k as [|k]; [contradiction|]. cbn. repeat split; discriminate.
  - intros a b H. apply level_refers in H. destruct H as [-> _]. destruct parts as [|p parts]; [contradiction|]. rewrite level_inner. left. reflexivity.
  - intros (n & H). enough (G : forall a b, clos_trans _ (RefersTo ASAP (level_of duration (inner_schedule parts))) a b -> a = slot 0 /\ exists k, b = slot (S k)) by (destruct (G _ _ H) as [H1 (k & H2)]; rewrite H1 in H2; apply slot_inj in H2; discriminate).
    induction 1 as [a b R|a b c _ [IH1 _] _ [_ IH2]]; [eapply level_refers, R|split; assumption].
  - exists out, d. split; [exact E|]. destruct (C01_timing_constraints_tight _ _ _ _ _ K F E) as [N T].
    assert (L : List.length out = List.length parts). { rewrite <- (map_length s_name out), N, map_length, level_inner, map_length, combine_length, seq_length. apply Nat.min_id. }
    split; [exact L|]. destruct (C04_earliest_start_is_zero _ _ _ _ _ K E) as [Z1 (m & tm & Hm & Zm)].
    assert (KO : NoDup (map s_name out)) by (rewrite N; exact K).
    assert (SU : forall n t t', Starts out n t -> Starts out n t' -> t = t').
    { intros n t t' (s & Hs & En & Et) (s' & Hs' & En' & Et'). assert (s = s'); [|congruence]. clear - KO Hs Hs' En En'. subst n. induction out as [|x out IH]; [destruct Hs|]. cbn in KO. inversion KO as [|? ? KN KO']; subst. destruct Hs as [->|Hs], Hs' as [->|Hs']; [reflexivity| | |apply IH; assumption]; exfalso; apply KN; [rewrite <- En'|rewrite En']; apply in_map; assumption. }
    destruct parts as [|p0 parts]; [contradiction|]. destruct (T 0%nat _ (level_nth duration (p0 :: parts) 0)) as (t0 & S0 & _). cbn [s_name] in S0.
    assert (All : forall k p t, nth_error (p0 :: parts) k = Some p -> Starts out (slot k) t -> t == t0).
    { intros k p t Hp Ht. destruct k as [|k]; [rewrite (SU _ _ _ Ht S0); reflexivity|]. pose proof (level_nth duration (p0 :: parts) (S k)) as Hk. rewrite Hp in Hk. destruct (T _ _ Hk) as (t' & St' & [_ (j & c & q & Hc & Hi & Hq)]); [discriminate|]. cbn [s_name s_tcs] in St', Hc. rewrite (SU _ _ _ Ht St').
      unfold tcs_at in Hc. destruct j as [|j]; [|destruct j; discriminate]. injection Hc as <-. inversion Hi as [s r sr tr off offn I1 I2 I3 I4 I5 I6 I7]; subst. cbn in I2. injection I2 as I2. cbn in I6, I7. injection I6 as <-. injection I7 as <-. cbn [tc_rel tc_start] in Hq.
      assert (tr = t0) by (apply (SU (s_name sr)); [exact I5|rewrite <- I2; exact S0]). subst tr. apply level_in in I3. destruct I3 as (? & ? & _ & ->). cbn [delay_or_0 s_delay] in Hq. rewrite <- Hq. unfold delay_or_0. cbn. ring. }
    assert (Name : forall n t, Starts out n t -> exists k p, nth_error (p0 :: parts) k = Some p /\ n = slot k).
    { intros n t (s & Hs & En & _). assert (Hin : In n (map s_name out)) by (rewrite <- En; apply in_map, Hs). rewrite N in Hin. apply in_map_iff in Hin. destruct Hin as (s' & <- & Hs'). apply level_in in Hs'. destruct Hs' as (k & p & Hp & ->). eauto. }
    assert (Zt : t0 == 0). { destruct (Name _ _ Hm) as (k & p & Hp & ->). rewrite <- (All _ _ _ Hp Hm). exact Zm. }
    assert (ZA : forall n t, Starts out n t -> t == 0) by (intros n t Ht; destruct (Name _ _ Ht) as (k & p & Hp & ->); rewrite (All _ _ _ Hp Ht); exact Zt).
    split; [exact ZA|].
    destruct (level_timed _ _ _ _ _ K F E) as (_ & _ & _ & _ & D & ED & D0 & D1 & D2).
    assert (ED' : d == D) by (rewrite ED; ring). 
    assert (Le : forall p, In p (p0 :: parts) -> duration (without_delay p) <= D).
    { intros p Hp. apply In_nth_error in Hp. destruct Hp as (k & Hk). pose proof (level_nth duration (p0 :: parts) k) as Hl. rewrite Hk in Hl. cbn [option_map] in Hl. destruct (T _ _ Hl) as (t & St & _). cbn [s_name] in St. pose proof (D1 _ _ _ St (nth_error_In _ _ Hl) eq_refl) as H. cbn [s_dur] in H. rewrite (ZA _ _ St) in H. rewrite Qplus_0_l in H. exact H. }
    split; [intros p Hp; rewrite ED'; apply Le, Hp|]. destruct D2 as [HD|(n & t & s & St & Hs & En & HD)].
    + exists p0. split; [left; reflexivity|]. specialize (Le p0 (or_introl eq_refl)). specialize (Hd p0 (or_introl eq_refl)). rewrite ED', HD in *. apply Qle_antisym; assumption.
    + apply level_in in Hs. destruct Hs as (k & p & Hp & ->). exists p. split; [eapply nth_error_In, Hp|]. cbn [s_dur] in HD. rewrite ED', HD, (ZA _ _ St). ring.
Qed.
(** With the ALAP strategy such a schedule is rejected when it has several parts: the first part, added without reference, then refers to the second by default, and that refers to the first. *)
Theorem C40_alap_refuted : forall duration parts, (2 <= List.length parts)%nat -> determine_level ALAP 1 (level_of duration (inner_schedule parts)) = Err TypeError.
Proof.
  intros duration parts L. destruct parts as [|p0 [|p1 parts]]; [cbn in L; lia|cbn in L; lia|]. pose proof (level_nth duration (p0 :: p1 :: parts)) as Nth.
  assert (Single : forall s, In s (level_of duration (inner_schedule (p0 :: p1 :: parts))) -> List.length (s_tcs s) = 1%nat) by (intros s Hs; apply level_in in Hs; destruct Hs as (? & ? & _ & ->); reflexivity).
  apply C03_circular_rejected.
  - apply level_keys.
  - intros s Hs E. apply Single in Hs. rewrite E in Hs. discriminate.
  - intros _. exact Single.
  - intros a b (k & j & s & c & Hk & <- & Hc & Hr). pose proof (Single s (nth_error_In _ _ Hk)) as L1. destruct j as [|j]; [|assert (nth_error (s_tcs s) (S j) = None) by (apply nth_error_None; lia); congruence].
    rewrite Nth in Hk. destruct (nth_error (p0 :: p1 :: parts) k) as [p|]; [|discriminate]. injection Hk as <-. cbn [s_tcs] in Hc. unfold tcs_at in Hc. injection Hc as <-. unfold the_ref in Hr. destruct k as [|k]; cbn [Nat.eqb tc_ref tc_first tc_start] in Hr.
    + rewrite Nth in Hr. cbn [nth_error option_map s_name] in Hr. injection Hr as <-. exact (level_name duration (p0 :: p1 :: parts) 1 p1 eq_refl).
    + injection Hr as <-. exact (level_name duration (p0 :: p1 :: parts) 0 p0 eq_refl).
  - exists (slot 0). apply t_trans with (slot 1); apply t_step.
    + exists 1%nat, 0%nat. eexists _, _. split; [rewrite Nth; reflexivity|]. split; [reflexivity|]. split; reflexivity.
    + exists 0%nat, 0%nat. eexists _, _. split; [rewrite Nth; reflexivity|]. split; [reflexivity|]. split; [reflexivity|]. unfold the_ref. cbn [tc_ref tcs_at]. rewrite Nth. reflexivity.
Qed.
(** The delay of the next operation after a multiplexed gate is the shortest (most negative) of its parts, if any has one. *)
Theorem C40_delay : forall parts, match delay_of_sched (inner_schedule parts) with
  | None => forall p, In p parts -> delay_of_sched p = None
  | Some d => (exists p, In p parts /\ delay_of_sched p = Some d) /\ (forall p x, In p parts -> delay_of_sched p = Some x -> d <= x)
  end.
Proof.
  intros parts. cbn [inner_schedule delay_of_sched]. set (ds := flat_map _ parts).
  assert (Hds : forall d, In d ds <-> exists p, In p parts /\ delay_of_sched p = Some d).
  { intros d. unfold ds. rewrite in_flat_map. split; intros (p & Hp & Hd); exists p; (split; [exact Hp|]).
    - destruct (delay_of_sched p) as [x|]; [destruct Hd as [->|[]]; reflexivity|destruct Hd].
    - rewrite Hd. left. reflexivity. }
  destruct ds as [|d ds]; cbn [qmin_list].
  - intros p Hp. destruct (delay_of_sched p) as [d|] eqn:E; [|reflexivity]. destruct (proj2 (Hds d)). eauto.
  - assert (M : forall l m, let r := fold_left (fun a b => if Qlt_bool b a then b else a) l m in (r = m \/ In r l) /\ r <= m /\ forall x, In x l -> r <= x).
    { induction l as [|x l IH]; intros m; cbn [fold_left]; [split; [auto|split; [apply Qle_refl|intros x []]]|]. destruct (IH (if Qlt_bool x m then x else m)) as (I1 & I2 & I3). cbv zeta. assert (Hx : (if Qlt_bool x m then x else m) <= m /\ (if Qlt_bool x m then x else m) <= x).
      { unfold Qlt_bool. destruct (Qle_bool m x) eqn:Eb; cbn [negb]; [apply Qle_bool_iff in Eb; split; [apply Qle_refl|exact Eb]|]. assert (~ m <= x) by (intros H; apply Qle_bool_iff in H; congruence). split; [lra|apply Qle_refl]. }
      split; [destruct I1 as [->|I1]; [destruct (Qlt_bool x m); [right; left; reflexivity|left; reflexivity]|right; right; exact I1]|]. split; [lra|]. intros y [<-|Hy]; [lra|apply I3, Hy]. }
    destruct (M ds d) as (M1 & M2 & M3). split; [apply Hds; destruct M1 as [->|M1]; [left; reflexivity|right; exact M1]|]. intros p x Hp Hx. assert (Hin : In x (d :: ds)) by (apply Hds; eauto). destruct Hin as [<-|Hin]; [exact M2|apply M3, Hin].
Qed.
(** When the operation after [o] starts, counted from the start of [o], which lasts [d] (TimingSpec.Implied: the default reference is the end of the previous operation, shifted by its next_operation_delay). *)
Definition next_start (d : Q) (o : gop) : Q := d + match delay_of_sched o with Some x => x | None => 0 end.
(** Partial: if all parts of a multiplexed gate have the same delay, the next operation starts when the last of them, compiled alone, would let it start. *)
Theorem C40_mux_next_partial : forall duration parts delta, parts <> [] -> (forall p, In p parts -> 0 <= duration (without_delay p) /\ delay_of_sched p = Some delta) ->
  exists out d, determine_level ASAP 1 (level_of duration (inner_schedule parts)) = Ok (out, d) /\
    (forall p, In p parts -> next_start (duration (without_delay p)) p <= next_start d (inner_schedule parts)) /\
    (exists p, In p parts /\ next_start (duration (without_delay p)) p == next_start d (inner_schedule parts)).
Proof.
  intros duration parts delta Hne H. destruct (C40_simultaneous duration parts Hne (fun p Hp => proj1 (H p Hp))) as (out & d & E & _ & _ & D1 & p & Hp & D2). exists out, d. split; [exact E|].
  assert (Hi : delay_of_sched (inner_schedule parts) = Some delta).
  { pose proof (C40_delay parts) as HD. destruct (delay_of_sched (inner_schedule parts)) as [x|]; [|specialize (HD p Hp); rewrite (proj2 (H p Hp)) in HD; discriminate]. destruct HD as [(q & Hq & Eq) _]. rewrite (proj2 (H q Hq)) in Eq. congruence. }
  unfold next_start. rewrite Hi. split.
  - intros q Hq. rewrite (proj2 (H q Hq)). specialize (D1 q Hq). lra.
  - exists p. split; [exact Hp|]. rewrite (proj2 (H p Hp)), D2. reflexivity.
Qed.
(** Otherwise the next operation can start too early: the longest duration and the most negative delay can belong to different parts. Here two measurements of 1000 and 600 with delays -100 and -500: alone they let the next operation start at 900 and 100, together at 500. *)
Theorem C40_mux_next_refuted : exists duration parts out d, determine_level ASAP 1 (level_of duration (inner_schedule parts)) = Ok (out, d) /\ (forall p, In p parts -> 0 <= duration (without_delay p)) /\
  exists p, In p parts /\ next_start d (inner_schedule parts) < next_start (duration (without_delay p)) p.
Proof.
  set (a := GSched [] (Some (-100)) new_res 1 [] []). set (b := GSched [] (Some (-500)) new_res 2 [] []).
  exists (fun o => match o with GSched _ _ _ 1 _ _ => 1000 | _ => 600 end), [a; b]. eexists _, _. split; [vm_compute; reflexivity|]. split; [intros p [<-|[<-|[]]]; vm_compute; discriminate|]. exists a. split; [left; reflexivity|]. vm_compute. reflexivity.
Qed.
