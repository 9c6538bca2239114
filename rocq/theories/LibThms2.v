(** C44: more library experiment schedules. *)
From Verif Require Import Base TimingModel TimingSpec LibModel LibSpec LibProps LibEngine LibProps2.
Open Scope Q_scope.
Open Scope string_scope.
Open Scope list_scope.

Definition b_echo (u : nat -> string) (q : string) (base i : nat) (tau : Q) : list entry :=
  [ ("Reset " ++ dec i, mk_tc None None 0, ResetGate [q]); (u (base + 1)%nat, mk_tc None None 0, X90Gate q); (u (base + 2)%nat, mk_tc None (Some PtStart) (tau / 2), XGate q);
    (u (base + 3)%nat, mk_tc None (Some PtStart) (tau / 2), X90Gate q); ("Measurement " ++ dec i, mk_tc None None 0, MeasureGate [q] None None) ]%string.

(** Echo: the pi pulse starts tau/2 after the first pi/2 pulse, the second pi/2 pulse tau/2 after the pi pulse *)
Theorem C44_echo : forall u gdur gdelay times q reps,
  Uuids u -> as_array times <> [] -> OnlyMeasureDelays gdelay ->
  exists s tl, echo_sched u times q reps = Ok s /\ l_reps s = reps /\ Timeline gdur gdelay s tl /\ List.length tl = (5 * List.length (as_array times))%nat /\
    forall i tau, nth_error (as_array times) i = Some tau ->
    exists n1 n2 n3 t_reset t_first t_pi t_second t_meas,
      Segment tl (5 * i) [ ("Reset " ++ dec i, ResetGate [q], t_reset); (n1, X90Gate q, t_first); (n2, XGate q, t_pi); (n3, X90Gate q, t_second);
                           ("Measurement " ++ dec i, MeasureGate [q] None None, t_meas) ]%string /\
      AfterPrevious gdur gdelay tl (5 * i) /\ t_first == t_reset + gdur (ResetGate [q]) /\ t_pi == t_first + tau / 2 /\ t_second == t_pi + tau / 2 /\
      t_meas == t_second + gdur (X90Gate q).

Proof. intros u gdur gdelay times q reps hu hne hd. unfold echo_sched. set (xs := as_array times) in *.
  set (b := b_echo u q). lib_run u gdur gdelay hu (b_echo u q) hne T h1 h2 h3.
  exists (ext (new reps) (blocks b 0 0 xs)), (tl_of (blocks b 0 0 xs) T). split; [exact h1|]. repeat (split; [reflexivity|]). split; [exact h2|].
  split; [rewrite tl_len; now apply blocks_len|]. intros i tau hi.
  destruct (block_at b xs i tau 5 T (fun _ _ _ => eq_refl) hi) as (hs & _). do 3 eexists; exists (T (5 * i + 0)%nat), (T (5 * i + 1)%nat), (T (5 * i + 2)%nat), (T (5 * i + 3)%nat), (T (5 * i + 4)%nat).
  split; [seg_ok hs|]. split; [lib_first b 5%nat hi h3 hd|]. split; [lib_prev b 5%nat hi h3 hd 0%nat|]. split; [lib_prev b 5%nat hi h3 hd 1%nat|]. split; [lib_prev b 5%nat hi h3 hd 2%nat|]. lib_prev b 5%nat hi h3 hd 3%nat. Qed.


Definition b_rabi (q port clock : string) (base i : nat) (ad : Q * Q) : list entry :=
  [ ("Reset " ++ dec i, mk_tc None None 0, ResetGate [q]); ("Rabi_pulse " ++ dec i, mk_tc None None 0, Drag (snd ad) (fst ad) 0 port clock 0);
    ("Measurement " ++ dec i, mk_tc None None 0, MeasureGate [q] None None) ]%string.
Lemma rabi_run u gdur gdelay xs q port clock f reps : Uuids u -> xs <> [] -> OnlyMeasureDelays gdelay -> let s0 := {| l_entries := []; l_res := l_res (new reps) ++ [(clock, f)]; l_reps := reps |} in
  exists s tl, for_enum xs s0 (fun s i ad => let '(amp, duration) := ad in
    do x <- add u s (Some ("Reset " ++ dec i)) (ResetGate [q]) None None 0;
    do x <- add u (fst x) (Some ("Rabi_pulse " ++ dec i)) (Drag duration amp 0 port clock 0) None None 0;
    do x <- add u (fst x) (Some ("Measurement " ++ dec i)) (MeasureGate [q] None None) None None 0;
    Ok (fst x))%string = Ok s /\ l_reps s = reps /\ l_res s = l_res (new reps) ++ [(clock, f)] /\ Timeline gdur gdelay s tl /\ List.length tl = (3 * List.length xs)%nat /\
    forall i ad, nth_error xs i = Some ad ->
    exists t_reset t_pulse t_meas,
      Segment tl (3 * i) [ ("Reset " ++ dec i, ResetGate [q], t_reset); ("Rabi_pulse " ++ dec i, Drag (snd ad) (fst ad) 0 port clock 0, t_pulse);
                           ("Measurement " ++ dec i, MeasureGate [q] None None, t_meas) ]%string /\
      AfterPrevious gdur gdelay tl (3 * i) /\ t_pulse == t_reset + gdur (ResetGate [q]) /\ t_meas == t_pulse + snd ad.

Proof. intros hu hne hd s0.
  set (b := b_rabi q port clock). 
  match goal with |- context [for_enum ?xs ?s0 ?body] => destruct (run_blocks u gdur gdelay b body LabA xs s0 hu eq_refl) as (T & h1 & h2 & h3);
   [ destruct xs; [easy|discriminate] | intros s i (am, du) hin h; build_block h | exact labA_uuid | exact labA_inj
   | intros base i x; nodup_label hu | intros base i x n; unfold b; in_label | intros base i x; back_label | intros base i x e; cbn; intuition (subst; reflexivity) | ] end.
  exists (ext s0 (blocks b 0 0 xs)), (tl_of (blocks b 0 0 xs) T). split; [exact h1|]. repeat (split; [reflexivity|]). split; [exact h2|].
  split; [rewrite tl_len; now apply blocks_len|]. intros i ad hi.
  destruct (block_at b xs i ad 3 T (fun _ _ _ => eq_refl) hi) as (hs & _). exists (T (3 * i + 0)%nat), (T (3 * i + 1)%nat), (T (3 * i + 2)%nat).
  split; [seg_ok hs|]. split; [lib_first b 3%nat hi h3 hd|]. split; [lib_prev b 3%nat hi h3 hd 0%nat|]. lib_prev b 3%nat hi h3 hd 1%nat. Qed.


(** Rabi: one of the two arguments may be a number (or an array with one element), otherwise both have the same length *)
Theorem C44_rabi : forall u gdur gdelay amp dur f q port clock reps,
  Uuids u -> OnlyMeasureDelays gdelay ->
  let amps := as_array amp in let durs := as_array dur in
  amps <> [] -> durs <> [] ->
  let p := match port with Some p => p | None => (q ++ ":mw")%string end in
  let c := match clock with Some c => c | None => (q ++ ".01")%string end in
  ~ In c ["cl0.baseband"; "digital"] ->
  let n := if Nat.eqb (List.length amps) 1 then List.length durs else List.length amps in
  (List.length amps = 1%nat \/ List.length durs = 1%nat \/ List.length amps = List.length durs) ->
  exists s tl, rabi_sched u amp dur f q port clock reps = Ok s /\ l_reps s = reps /\ In (c, f) (l_res s) /\ Timeline gdur gdelay s tl /\ List.length tl = (3 * n)%nat /\
    forall i, (i < n)%nat ->
    let a := if Nat.eqb (List.length amps) 1 then nth 0 amps 0 else nth i amps 0 in
    let d := if Nat.eqb (List.length durs) 1 then nth 0 durs 0 else nth i durs 0 in
    exists t_reset t_pulse t_meas,
      Segment tl (3 * i) [ ("Reset " ++ dec i, ResetGate [q], t_reset); ("Rabi_pulse " ++ dec i, Drag d a 0 p c 0, t_pulse); ("Measurement " ++ dec i, MeasureGate [q] None None, t_meas) ]%string /\
      AfterPrevious gdur gdelay tl (3 * i) /\ t_pulse == t_reset + gdur (ResetGate [q]) /\ t_meas == t_pulse + d.
Proof. intros u gdur gdelay amp dur f q port clock reps hu hd amps durs ha hdn p c hc n hlen. unfold rabi_sched. fold amps durs p c.
  assert (G : exists as' ds', (if Nat.eqb (List.length amps) 1 then Ok (repeat (List.hd 0 amps) (List.length durs), durs)
            else if Nat.eqb (List.length durs) 1 then Ok (amps, repeat (List.hd 0 durs) (List.length amps))
            else if negb (Nat.eqb (List.length durs) (List.length amps)) then Err ValueError
            else Ok (amps, durs)) = Ok (as', ds') /\ List.length (combine as' ds') = n /\ combine as' ds' <> [] /\
            forall i, (i < n)%nat -> nth_error (combine as' ds') i = Some (if Nat.eqb (List.length amps) 1 then nth 0 amps 0 else nth i amps 0, if Nat.eqb (List.length durs) 1 then nth 0 durs 0 else nth i durs 0)).
  { assert (C : forall (x y : list Q) i, (i < List.length x)%nat -> List.length x = List.length y -> nth_error (combine x y) i = Some (nth i x 0, nth i y 0)).
    { induction x as [|a x IH]; intros [|b' y] [|i] h1 h2; cbn in *; try lia; auto. apply IH; lia. }
    assert (R : forall (a : Q) k i, (i < k)%nat -> nth i (repeat a k) 0 = a).
    { intros a k i h. apply (repeat_spec k a (nth i (repeat a k) 0)). apply nth_In. now rewrite repeat_length. }
    subst n. destruct (Nat.eqb_spec (List.length amps) 1) as [e|e].
    - exists (repeat (List.hd 0 amps) (List.length durs)), durs. split; auto. rewrite combine_length, repeat_length, Nat.min_id. split; auto. split.
      + destruct durs; [easy|discriminate].
      + intros i hi. rewrite C; rewrite ?repeat_length; auto. rewrite R by auto. f_equal. f_equal.
        * destruct amps; reflexivity.
        * destruct (Nat.eqb_spec (List.length durs) 1); auto. f_equal; lia.
    - destruct (Nat.eqb_spec (List.length durs) 1) as [e'|e'].
      + exists amps, (repeat (List.hd 0 durs) (List.length amps)). split; auto. rewrite combine_length, repeat_length, Nat.min_id. split; auto. split.
        * destruct amps; [easy|discriminate].
        * intros i hi. rewrite C; rewrite ?repeat_length; auto. rewrite R by auto. do 2 f_equal. destruct durs; reflexivity.
      + assert (E : List.length durs = List.length amps) by lia. exists amps, durs. rewrite E, Nat.eqb_refl. cbn [negb]. split; auto. rewrite combine_length, E, Nat.min_id. split; auto. split.
        * destruct amps, durs; try easy; discriminate.
        * intros i hi. apply C; auto. }
  destruct G as (as' & ds' & hG & hl & hne & hnth). rewrite hG. cbn [bind]. rewrite add_clock_ok by exact hc. cbn [bind].
  destruct (rabi_run u gdur gdelay (combine as' ds') q p c f reps hu hne hd) as (s & tl & h1 & h2 & h3 & h4 & h5 & h6).
  exists s, tl. split; [exact h1|]. split; auto. split; [rewrite h3; apply in_or_app; right; left; auto|]. split; auto. split; [now rewrite h5, hl|].
  intros i hi. exact (h6 i _ (hnth i hi)). Qed.
(** ... and everything else is rejected *)
Theorem C44_rabi_shapes : forall u amp dur f q port clock reps, let amps := as_array amp in let durs := as_array dur in
  List.length amps <> 1%nat -> List.length durs <> 1%nat -> List.length amps <> List.length durs -> rabi_sched u amp dur f q port clock reps = Err ValueError.
Proof. intros u amp dur f q port clock reps amps durs h1 h2 h3. unfold rabi_sched. fold amps durs. apply Nat.eqb_neq in h1, h2. rewrite h1, h2.
  destruct (Nat.eqb_spec (List.length durs) (List.length amps)); [congruence|reflexivity]. Qed.
