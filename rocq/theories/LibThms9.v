(** C44: CPMG and the long time trace. *)
From Coq Require Import Lqa.
From Verif Require Import Base TimingModel TimingSpec LibModel LibSpec LibProps LibEngine LibProps2 LibThms4 LibThms5 LibLoop.
Open Scope Q_scope.
Open Scope string_scope.
Open Scope list_scope.

Section Cpmg.
Context (u : nat -> string) (v : nat -> nat -> string) (n : Z) (q variant : string) (det : Q).
Definition cpmg_idle (tau : Q) : Q := tau / (2 * inject_Z n).
Definition cpmg_reps : Z := if String.eqb variant "XY" then (n / 2)%Z else n.
Definition cpmg_inner (i : nat) (tau : Q) : list entry :=
  let h := cpmg_idle tau in
  if String.eqb variant "XY" then
    [ (v i 0, mk_tc None None 0, Idle h); ("pi_x " ++ dec i, mk_tc None None 0, XGate q); (v i 2, mk_tc None (Some PtStart) 0, Idle (2 * h));
      ("pi_y " ++ dec i, mk_tc None None 0, YGate q); (v i 4, mk_tc None (Some PtStart) 0, Idle h) ]%string
  else [ (v i 0, mk_tc None None 0, Idle h); ("pi " ++ dec i, mk_tc None None 0, if String.eqb variant "X" then XGate q else YGate q); (v i 2, mk_tc None (Some PtStart) 0, Idle h) ]%string.
Definition b_cpmg (base i : nat) (tau : Q) : list entry :=
  [ ("Reset " ++ dec i, mk_tc None None 0, ResetGate [q]); (u (base + 1)%nat, mk_tc None None 0, X90Gate q);
    ("loop " ++ dec i, mk_tc None (Some PtStart) (4 / 1000000000), Loop (cpmg_inner i tau) cpmg_reps);
    (u (base + 3)%nat, mk_tc None None 0, RxyGate 90 (360 * det * tau) q); ("Measurement " ++ dec i, mk_tc None None 0, MeasureGate [q] None None) ]%string.
Lemma inner_nodup i tau : Uuids (v i) -> NoDup (names (cpmg_inner i tau)).
Proof. intros hv. unfold cpmg_inner. destruct (String.eqb variant "XY"); cbv zeta; nodup_label hv. Qed.
Lemma inner_back i tau : BackAll [] (cpmg_inner i tau).
Proof. unfold cpmg_inner. destruct (String.eqb variant "XY"); cbv zeta; back_label. Qed.
Lemma inner_leaf i tau e : In e (cpmg_inner i tau) -> leaf (e_op e) = true.
Proof. unfold cpmg_inner. destruct (String.eqb variant "XY"); cbv zeta; [cbn; intuition (subst; reflexivity)|]. destruct (String.eqb variant "X"); cbn; intuition (subst; reflexivity). Qed.
Lemma inner_ne i tau : cpmg_inner i tau <> [].
Proof. unfold cpmg_inner. destruct (String.eqb variant "XY"); discriminate. Qed.
End Cpmg.

(** the time line of one iteration: the pi pulses start in the middle of the waiting times *)
Definition CpmgBody (gdur : lop -> Q) (gdelay : lop -> option Q) (q variant : string) (h : Q) (i : nat) (body : list entry) : Prop :=
  exists n1 n2 t0 t1 t2, t0 == 0 /\ t1 == h /\ t2 == h /\
  if String.eqb variant "XY" then
    exists n3 t3 t4, t3 == 3 * h /\ t4 == 3 * h /\
    Timeline gdur gdelay {| l_entries := body; l_res := []; l_reps := 1 |}
      [ (n1, Idle h, t0); ("pi_x " ++ dec i, XGate q, t1); (n2, Idle (2 * h), t2); ("pi_y " ++ dec i, YGate q, t3); (n3, Idle h, t4) ]%string
  else Timeline gdur gdelay {| l_entries := body; l_res := []; l_reps := 1 |}
      [ (n1, Idle h, t0); ("pi " ++ dec i, if String.eqb variant "X" then XGate q else YGate q, t1); (n2, Idle h, t2) ]%string.

Lemma even_of_pow n : power_of_two n = true -> (2 <= n)%Z -> (n = 2 * (n / 2))%Z.
Proof. intros h h2. unfold power_of_two in h. apply andb_true_iff in h as (_ & h). apply Z.eqb_eq in h.
  assert (hl : (1 <= Z.log2 n)%Z) by (change 1%Z with (Z.log2 2); apply Z.log2_le_mono; lia).
  replace (Z.log2 n) with (Z.succ (Z.log2 n - 1)) in h by lia. rewrite Z.pow_succ_r in h by lia. set (k := (2 ^ (Z.log2 n - 1))%Z) in h. clearbody k. rewrite <- h. rewrite (Z.mul_comm 2 k), Z.div_mul by lia. lia. Qed.

Lemma cpmg_body_time gdur gdelay v n q variant i tau : Uuids (v i) -> (0 < n)%Z -> (variant = "XY"%string -> n = 2 * (n / 2))%Z -> 0 <= tau -> OnlyMeasureDelays gdelay ->
  0 <= gdur (XGate q) <= tau / (2 * inject_Z n) -> 0 <= gdur (YGate q) <= tau / (2 * inject_Z n) ->
  let body := cpmg_inner v n q variant i tau in let o := Loop body (cpmg_reps n variant) in
  CpmgBody gdur gdelay q variant (tau / (2 * inject_Z n)) i body /\ OD gdur gdelay o (edur gdur gdelay o) /\ edur gdur gdelay o == tau.
Proof. intros hv hn hev htau hd hx hy body o.
  assert (hN : 0 < inject_Z n) by (change 0 with (inject_Z 0); rewrite <- Zlt_Qlt; exact hn).
  destruct (loop_dur gdur gdelay body (cpmg_reps n variant) (inner_ne _ _ _ _ _ _) (inner_nodup v n q variant i tau hv) (inner_back _ _ _ _ _ _) (inner_leaf (v i) v n q variant i tau)) as (T & D & h1 & h2 & h3 & h4 & h5 & h6 & h7).
  set (h := tau / (2 * inject_Z n)) in *. fold o in h3, h4.
  assert (hh : 2 * inject_Z n * h == tau) by (unfold h; field; lra).
  assert (hh0 : 0 <= h) by lra.
  unfold CpmgBody, body, o, cpmg_reps, cpmg_inner in *. destruct (String.eqb_spec variant "XY") as [->|ne].
  - cbv zeta in *. fold h in h1, h2, h3, h4, h6, h7 |- *. unfold cpmg_idle in *. fold h in h1, h2, h3, h4, h6, h7 |- *.
    pose proof (rel_prev _ _ _ _ 0 _ _ h2 eq_refl eq_refl eq_refl) as r1. pose proof (rel_prev _ _ _ _ 1 _ _ h2 eq_refl eq_refl eq_refl) as r2.
    pose proof (rel_prev _ _ _ _ 2 _ _ h2 eq_refl eq_refl eq_refl) as r3. pose proof (rel_prev _ _ _ _ 3 _ _ h2 eq_refl eq_refl eq_refl) as r4.
    cbn [e_tc e_op fst snd mk_tc tc_pt tc_rel ldur to_op odelay op_delay] in r1, r2, r3, r4. unfold odelay in *. cbn [to_op op_delay] in *.
    rewrite (no_delay _ _ hd) in r2 by exact I. rewrite (no_delay _ _ hd) in r4 by exact I.
    assert (T 0%nat == 0). { apply (rel_zero3 _ _ _ _ _ h2). intros [|[|[|[|[|k]]]]] hk; cbn [List.length] in hk; [| | | | |lia]; lra. }
    pose proof (h6 0%nat _ eq_refl) as e0. pose proof (h6 1%nat _ eq_refl) as e1. pose proof (h6 2%nat _ eq_refl) as e2. pose proof (h6 3%nat _ eq_refl) as e3. pose proof (h6 4%nat _ eq_refl) as e4.
    cbn [e_op snd ldur to_op] in e0, e1, e2, e3, e4.
    assert (hD : D == 4 * h).
    { destruct h7 as [h7|(k & e & hk & h7)]; [lra|]. destruct k as [|[|[|[|[|k]]]]]; cbn in hk; try (injection hk as <-; cbn [e_op snd ldur to_op] in h7; lra). destruct k; discriminate hk. }
    split; [|split; [exact h3|]].
    + exists (v i 0%nat), (v i 2%nat), (T 0%nat), (T 1%nat), (T 2%nat). repeat (split; [lra|]). exists (v i 4%nat), (T 3%nat), (T 4%nat). repeat (split; [lra|]). exact h1.
    + rewrite h4, hD. rewrite <- hh. rewrite (hev eq_refl) at 2. rewrite inject_Z_mult. change (inject_Z 2) with 2. ring.
  - cbv zeta in *. unfold cpmg_idle in *. fold h in h1, h2, h3, h4, h6, h7 |- *.
    set (g := if String.eqb variant "X" then XGate q else YGate q) in *.
    assert (hg : 0 <= ldur gdur g <= h) by (unfold g; destruct (String.eqb variant "X"); cbn [ldur to_op]; auto).
    assert (hgd : odelay gdur gdelay g = None) by (unfold g; destruct (String.eqb variant "X"); unfold odelay; cbn [to_op op_delay]; now apply no_delay).
    pose proof (rel_prev _ _ _ _ 0 _ _ h2 eq_refl eq_refl eq_refl) as r1. pose proof (rel_prev _ _ _ _ 1 _ _ h2 eq_refl eq_refl eq_refl) as r2.
    cbn [e_tc e_op fst snd mk_tc tc_pt tc_rel] in r1, r2. rewrite hgd in r2. unfold odelay in r1. cbn [ldur to_op op_delay] in r1.
    assert (T 0%nat == 0). { apply (rel_zero3 _ _ _ _ _ h2). intros [|[|[|k]]] hk; cbn [List.length] in hk; [| | |lia]; lra. }
    pose proof (h6 0%nat _ eq_refl) as e0. pose proof (h6 1%nat _ eq_refl) as e1. pose proof (h6 2%nat _ eq_refl) as e2. cbn [e_op snd] in e0, e1, e2. cbn [ldur to_op] in e0, e2.
    assert (hD : D == 2 * h).
    { destruct h7 as [h7|(k & e & hk & h7)]; [lra|]. destruct k as [|[|[|k]]]; cbn in hk; [| | |destruct k; discriminate hk]; injection hk as <-; cbn [e_op snd] in h7; [cbn [ldur to_op] in h7; lra|lra|cbn [ldur to_op] in h7; lra]. }
    split; [|split; [exact h3|]].
    + exists (v i 0%nat), (v i 2%nat), (T 0%nat), (T 1%nat), (T 2%nat). repeat (split; [lra|]). exact h1.
    + rewrite h4, hD, <- hh. ring. Qed.

(** CPMG: between the pi/2 pulses a loop plays n_gates pi pulses (X, Y, or X and Y in turn) with equal waiting times that include the
    pulses; if the pi pulses fit into the waiting times the second pi/2 pulse starts tau and 4 ns after the first *)
Theorem C44_cpmg : forall u v gdur gdelay n times q variant det reps,
  Uuids u -> (forall i, Uuids (v i)) -> as_array times <> [] -> OnlyMeasureDelays gdelay ->
  In variant ["X"; "Y"; "XY"]%string -> power_of_two n = true -> (variant = "XY"%string -> (2 <= n)%Z) ->
  (forall tau, In tau (as_array times) -> 0 <= gdur (XGate q) <= tau / (2 * inject_Z n) /\ 0 <= gdur (YGate q) <= tau / (2 * inject_Z n)) ->
  exists s tl, cpmg_sched u v n times q variant det reps = Ok s /\ l_reps s = reps /\ Timeline gdur gdelay s tl /\ List.length tl = (5 * List.length (as_array times))%nat /\
    forall i tau, nth_error (as_array times) i = Some tau ->
    exists n1 n2 body t_reset t_first t_loop t_second t_meas,
      Segment tl (5 * i) [ ("Reset " ++ dec i, ResetGate [q], t_reset); (n1, X90Gate q, t_first); ("loop " ++ dec i, Loop body (if String.eqb variant "XY" then n / 2 else n)%Z, t_loop);
                           (n2, RxyGate 90 (360 * det * tau) q, t_second); ("Measurement " ++ dec i, MeasureGate [q] None None, t_meas) ]%string /\
      CpmgBody gdur gdelay q variant (tau / (2 * inject_Z n)) i body /\
      t_first == t_reset + gdur (ResetGate [q]) /\ t_loop == t_first + 4 / 1000000000 /\ t_second == t_first + tau + 4 / 1000000000 /\ t_meas == t_second + gdur (RxyGate 90 (360 * det * tau) q).
Proof. intros u v gdur gdelay n times q variant det reps hu hv hne hd hvar hpow hxy hfit. unfold cpmg_sched.
  assert (hk : known variant ["X"; "Y"; "XY"]%string = true) by now apply known_true. rewrite hk, hpow. cbn [negb]. set (xs := as_array times) in *.
  assert (hn : (0 < n)%Z). { unfold power_of_two in hpow. apply andb_true_iff in hpow as (h & _). now apply Z.ltb_lt in h. }
  assert (hN : 0 < inject_Z n) by (change 0 with (inject_Z 0); rewrite <- Zlt_Qlt; exact hn).
  assert (hev : (variant = "XY"%string -> n = 2 * (n / 2))%Z) by (intros e; apply even_of_pow; auto).
  assert (hbt : forall i tau, In tau xs -> let body := cpmg_inner v n q variant i tau in let o := Loop body (cpmg_reps n variant) in
    CpmgBody gdur gdelay q variant (tau / (2 * inject_Z n)) i body /\ OD gdur gdelay o (edur gdur gdelay o) /\ edur gdur gdelay o == tau).
  { intros i tau hin. destruct (hfit tau hin) as (f1 & f2). apply cpmg_body_time; auto. assert (E : 2 * inject_Z n * (tau / (2 * inject_Z n)) == tau) by (field; lra). rewrite <- E. apply Qmult_le_0_compat; lra. }
  set (b := b_cpmg u v n q variant det).
  match goal with |- context [for_enum ?xs ?s0 ?body] => destruct (run_blocks_df u gdur gdelay (edur gdur gdelay) b body LabA xs s0 hu eq_refl) as (T & h1 & h2 & h3) end.
  - destruct xs; [easy|discriminate].
  - intros s i tau hin h. unfold b, b_cpmg in h |- *.
    pose proof (ext_nil s) as E. rewrite <- E at 1. clear E. do 2 add1 h.
    assert (hI : (if negb (String.eqb variant "XY") then
         do y <- LibModel.add (v i) (new 1) None (Idle (tau / (2 * inject_Z n))) None None 0;
         let echo_gate := if String.eqb variant "X" then XGate q else YGate q in
         do y <- LibModel.add (v i) (fst y) (Some ("pi " ++ dec i)%string) echo_gate None None 0;
         do y <- LibModel.add (v i) (fst y) None (Idle (tau / (2 * inject_Z n))) None (Some PtStart) 0;
         Ok (fst y, n)
       else if (n <? 2)%Z then Err ValueError
       else
         do y <- LibModel.add (v i) (new 1) None (Idle (tau / (2 * inject_Z n))) None None 0;
         do y <- LibModel.add (v i) (fst y) (Some ("pi_x " ++ dec i)%string) (XGate q) None None 0;
         do y <- LibModel.add (v i) (fst y) None (Idle (2 * (tau / (2 * inject_Z n)))) None (Some PtStart) 0;
         do y <- LibModel.add (v i) (fst y) (Some ("pi_y " ++ dec i)%string) (YGate q) None None 0;
         do y <- LibModel.add (v i) (fst y) None (Idle (tau / (2 * inject_Z n))) None (Some PtStart) 0;
         Ok (fst y, n / 2)%Z) = Ok (ext (new 1) (cpmg_inner v n q variant i tau), cpmg_reps n variant)).
    { pose proof (inner_nodup v n q variant i tau (hv i)) as hnd. unfold cpmg_inner, cpmg_reps, cpmg_idle in *. cbv zeta in hnd |- *. destruct (String.eqb_spec variant "XY") as [e|e]; cbn [negb].
      - destruct (Z.ltb_spec n 2); [specialize (hxy e); lia|]. pose proof (ext_nil (new 1)) as E. rewrite <- E at 1. clear E. 
        assert (hnd' : NoDup (names (l_entries (new 1) ++ [(v i 0%nat, mk_tc None None 0, Idle (tau / (2 * inject_Z n))); ("pi_x " ++ dec i, mk_tc None None 0, XGate q); (v i 2%nat, mk_tc None (Some PtStart) 0, Idle (2 * (tau / (2 * inject_Z n))));
           ("pi_y " ++ dec i, mk_tc None None 0, YGate q); (v i 4%nat, mk_tc None (Some PtStart) 0, Idle (tau / (2 * inject_Z n)))]%string))) by exact hnd.
        repeat add1 hnd'. reflexivity.
      - pose proof (ext_nil (new 1)) as E. rewrite <- E at 1. clear E. 
        assert (hnd' : NoDup (names (l_entries (new 1) ++ [(v i 0%nat, mk_tc None None 0, Idle (tau / (2 * inject_Z n))); ("pi " ++ dec i, mk_tc None None 0, if String.eqb variant "X" then XGate q else YGate q); (v i 2%nat, mk_tc None (Some PtStart) 0, Idle (tau / (2 * inject_Z n)))]%string))) by exact hnd.
        repeat add1 hnd'. reflexivity. }
    cbv zeta in hI |- *. rewrite hI. cbn [bind]. change (l_entries (ext (new 1) (cpmg_inner v n q variant i tau))) with (cpmg_inner v n q variant i tau). repeat add1 h. reflexivity.
  - exact labA_uuid.
  - exact labA_inj.
  - intros base i x. unfold b, b_cpmg. nodup_label hu.
  - intros base i x m. unfold b, b_cpmg. cbn [names map e_name fst In List.length]. intros hin. repeat (destruct hin as [<-|hin]; [first [ left; apply labA_intro; reflexivity | right; eexists; split; [|reflexivity]; lia ]|]); destruct hin.
  - intros base i x. unfold b. back_label.
  - intros base i tau e hin he. unfold b, b_cpmg in he. cbn [In] in he. destruct he as [<-|[<-|[<-|[<-|[<-|[]]]]]]; cbn [e_op snd]; try now apply edur_leaf. destruct (hbt i tau hin) as (_ & ho & _). exact ho.
  - exists (ext (new reps) (blocks b 0 0 xs)), (tl_of (blocks b 0 0 xs) T). split; [exact h1|]. split; [reflexivity|]. split; [exact h2|]. split; [rewrite tl_len; now apply blocks_len|].
    intros i tau hi. assert (hin : In tau xs) by (eapply nth_error_In; eauto). destruct (hbt i tau hin) as (hb & _ & he).
    destruct (block_at b xs i tau 5 T (fun _ _ _ => eq_refl) hi) as (hs & g).
    exists (u (5 * i + 1)%nat), (u (5 * i + 3)%nat), (cpmg_inner v n q variant i tau), (T (5 * i)%nat), (T (S (5 * i))), (T (S (S (5 * i)))), (T (S (S (S (5 * i))))), (T (S (S (S (S (5 * i)))))).
    split; [exact hs|]. split; [exact hb|].
    pose proof (g 0%nat _ eq_refl) as g0. pose proof (g 1%nat _ eq_refl) as g1. pose proof (g 2%nat _ eq_refl) as g2. pose proof (g 3%nat _ eq_refl) as g3. pose proof (g 4%nat _ eq_refl) as g4. set (m := (5 * i)%nat) in *. clearbody m.
    rewrite Nat.add_0_r in g0. replace (m + 1)%nat with (S m) in g1 by lia. replace (m + 2)%nat with (S (S m)) in g2 by lia. replace (m + 3)%nat with (S (S (S m))) in g3 by lia. replace (m + 4)%nat with (S (S (S (S m)))) in g4 by lia.
    pose proof (rel_prev_df _ _ _ _ _ _ _ _ h3 g1 g0 eq_refl) as r1. pose proof (rel_prev_df _ _ _ _ _ _ _ _ h3 g2 g1 eq_refl) as r2. pose proof (rel_prev_df _ _ _ _ _ _ _ _ h3 g3 g2 eq_refl) as r3. pose proof (rel_prev_df _ _ _ _ _ _ _ _ h3 g4 g3 eq_refl) as r4.
    cbn [e_tc e_op fst snd mk_tc tc_pt tc_rel] in r1, r2, r3, r4. unfold odelay in *. cbn [to_op op_delay] in *. rewrite (no_delay _ _ hd) in r1 by exact I. rewrite (no_delay _ _ hd) in r2 by exact I. rewrite (no_delay _ _ hd) in r4 by exact I.
    rewrite (proj2 (edur_leaf gdur gdelay (ResetGate [q]) eq_refl)) in r1. rewrite (proj2 (edur_leaf gdur gdelay (RxyGate 90 (360 * det * tau) q) eq_refl)) in r4. cbn [ldur to_op] in r1, r4. cbv zeta in he. rewrite he in r3.
    clear - r1 r2 r3 r4. repeat split; lra. Qed.

(** arguments that are refused *)
Theorem C44_cpmg_errors : forall u v n times q variant det reps,
  (~ In variant ["X"; "Y"; "XY"]%string \/ power_of_two n = false \/ (variant = "XY"%string /\ (n < 2)%Z /\ as_array times <> [])) -> cpmg_sched u v n times q variant det reps = Err ValueError.
Proof. intros u v n times q variant det reps h. unfold cpmg_sched. destruct (known variant _) eqn:E1; cbn [negb]; [|reflexivity].
  assert (hin : In variant ["X"; "Y"; "XY"]%string). { unfold known in E1. apply existsb_exists in E1 as (x & hx & e). apply String.eqb_eq in e. now subst. }
  destruct h as [h|h]; [contradiction|]. destruct (power_of_two n); cbn [negb]; [|reflexivity]. destruct h as [h|(hv & hn & ht)]; [discriminate|]. subst variant.
  unfold for_enum. destruct (as_array times) as [|a r]; [easy|]. cbn [List.length seq combine foldM fst snd].
  rewrite add_ok by (cbn; tauto). cbn [bind fst name_of]. unfold add at 1. match goal with |- context [known (u ?k) ?l] => destruct (known (u k) l) end; [reflexivity|]. cbn [bind fst]. rewrite String.eqb_refl. cbn [negb]. destruct (Z.ltb_spec n 2); [reflexivity|lia]. Qed.
Theorem C44_power_of_two : forall n, power_of_two n = true <-> exists k, (0 <= k)%Z /\ (n = 2 ^ k)%Z.
Proof. intros n. unfold power_of_two. rewrite andb_true_iff, Z.ltb_lt, Z.eqb_eq. split.
  - intros (h1 & h2). exists (Z.log2 n). split; [apply Z.log2_nonneg|auto].
  - intros (k & hk & ->). split; [now apply Z.pow_pos_nonneg|]. now rewrite Z.log2_pow2. Qed.

(** Long time trace: the voltage is set, after acquisition_delay [num_points] integrations follow each other, and 4 ns after the
    last the voltage is reset; each integration takes integration_time plus pulse_delay *)
Theorem C44_long_time_trace : forall u w gdur gdelay re im f adelay int port clock np pdelay idx reps,
  Uuids u -> ~ In clock ["cl0.baseband"; "digital"] -> 0 <= int + pdelay ->
  exists s n1 n2 n3 n4 n5 t_on t_loop t_off t_end, long_time_trace u w re im f adelay int port clock np pdelay idx reps = Ok s /\ l_reps s = reps /\ l_res s = l_res (new reps) ++ [(clock, f)] /\
    Timeline gdur gdelay s [ (n1, Offset re im port clock, t_on); (n2, Loop [(n5, mk_tc None None 0, SSB int port clock 0 (Some idx) BinAppend pdelay)] np, t_loop); (n3, Offset 0 0 port clock, t_off); (n4, Idle (4 / 1000000000), t_end) ] /\
    t_loop == t_on + adelay /\ t_off == t_loop + inject_Z np * (int + pdelay) + 4 / 1000000000 /\ t_end == t_off.
Proof. intros u w gdur gdelay re im f adelay int port clock np pdelay idx reps hu hc hint. unfold long_time_trace. rewrite add_clock_ok by exact hc. cbn [bind l_entries l_res l_reps].
  set (L := Loop [(w 0%nat, mk_tc None None 0, SSB int port clock 0 (Some idx) BinAppend pdelay)] np).
  set (es := [ (u 0%nat, mk_tc None None 0, Offset re im port clock); (u 1%nat, mk_tc None (Some PtStart) adelay, L); (u 2%nat, mk_tc None None (4 / 1000000000), Offset 0 0 port clock); (u 3%nat, mk_tc None None 0, Idle (4 / 1000000000)) ]).
  set (s := {| l_entries := es; l_res := l_res (new reps) ++ [(clock, f)]; l_reps := reps |}).
  assert (hnd : NoDup (names es)) by (unfold es; nodup_label hu).
  destruct (loop_dur gdur gdelay [(w 0%nat, mk_tc None None 0, SSB int port clock 0 (Some idx) BinAppend pdelay)] np) as (T1 & D & _ & hR1 & hO & hE & h5 & h6 & h7).
  { discriminate. } { repeat constructor; cbn; tauto. } { cbn; repeat split; discriminate. } { cbn; intuition (subst; reflexivity). }
  fold L in hO, hE.
  assert (hD : D == int + pdelay).
  { assert (T1 0%nat == 0). { apply (rel_zero3 _ _ _ _ _ hR1). intros [|k] hk; [apply Qle_refl|cbn in hk; lia]. }
    pose proof (h6 0%nat _ eq_refl) as e0. cbn [e_op snd ldur to_op] in e0. destruct h7 as [h7|(k & e & hk & h7)]; [lra|]. destruct k as [|k]; [|destruct k; discriminate hk]. cbn in hk. injection hk as <-. cbn [e_op snd ldur to_op] in h7. lra. }
  destruct (engine gdur gdelay (edur gdur gdelay) s) as (T & hT & hR).
  - discriminate.
  - exact hnd.
  - apply backall_backward. unfold s, es. cbn [l_entries]. cbn; repeat split; discriminate.
  - unfold s, es. cbn [l_entries In]. intros e [<-|[<-|[<-|[<-|[]]]]]; cbn [e_op snd]; try now apply edur_leaf. exact hO.
  - exists s, (u 0%nat), (u 1%nat), (u 2%nat), (u 3%nat), (w 0%nat), (T 0%nat), (T 1%nat), (T 2%nat), (T 3%nat). split.
    { match goal with |- context [add u ?s0 _ _ _ _ _] => set (s00 := s0) end.
      assert (hnd' : NoDup (names (l_entries s00 ++ es))) by exact hnd. unfold es in hnd'.
      pose proof (ext_nil s00) as E. rewrite <- E at 1. clear E. add1 hnd'.
      rewrite (add_ok w (new 1)) by (cbn; tauto). cbn [bind fst name_of]. change (l_entries (ext (new 1) _)) with [(w (List.length (l_entries (new 1))), mk_tc None None 0, SSB int port clock 0 (Some idx) BinAppend pdelay)]. change (List.length (l_entries (new 1))) with 0%nat. fold L.
      repeat add1 hnd'. reflexivity. }
    split; [reflexivity|]. split; [reflexivity|]. split; [exact hT|].
    pose proof (rel_prev_df _ _ _ es _ 0 _ _ hR eq_refl eq_refl eq_refl) as r1. pose proof (rel_prev_df _ _ _ es _ 1 _ _ hR eq_refl eq_refl eq_refl) as r2. pose proof (rel_prev_df _ _ _ es _ 2 _ _ hR eq_refl eq_refl eq_refl) as r3.
    cbn [e_tc e_op fst snd mk_tc tc_pt tc_rel] in r1, r2, r3. rewrite hE, hD in r2. unfold odelay, L in *. cbn [to_op op_delay] in *. 
    rewrite (proj2 (edur_leaf gdur gdelay (Offset 0 0 port clock) eq_refl)) in r3. cbn [ldur to_op] in r3.
    clear - r1 r2 r3. repeat split; lra. Qed.
