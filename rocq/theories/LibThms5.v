(** C44: readout calibration, multiplexed staircase, dark ESR with a frequency sweep. *)
From Verif Require Import Base TimingModel TimingSpec LibModel LibSpec LibProps LibEngine LibProps2 LibThms4.
From Verif Require ClockProps.
Open Scope Q_scope.
Open Scope string_scope.
Open Scope list_scope.

(** any list of entries *)
Lemma run_entries gdur gdelay s : l_entries s <> [] -> NoDup (names (l_entries s)) -> BackAll [] (l_entries s) -> (forall e, In e (l_entries s) -> leaf (e_op e) = true) ->
  exists T, Timeline gdur gdelay s (tl_of (l_entries s) T) /\ Rel gdur gdelay (ldur gdur) (l_entries s) T.
Proof. intros h1 h2 h3 h4. apply engine; auto. now apply backall_backward. intros e h. apply od_ldur; auto. Qed.
Lemma block_at' {A} (blk : nat -> nat -> A -> list entry) hd xs i x T : nth_error xs i = Some x ->
  let es := hd ++ blocks blk (List.length hd) 0 xs in let n := (List.length hd + List.length (blocks blk (List.length hd) 0 (firstn i xs)))%nat in
  Segment (tl_of es T) n (map (fun ke : nat * entry => (e_name (snd ke), e_op (snd ke), T (fst ke))) (combine (seq n (List.length (blk n i x))) (blk n i x))) /\
  (forall j e, nth_error (blk n i x) j = Some e -> nth_error es (n + j) = Some e).
Proof. intros hx es n. destruct (blocks_split blk xs (List.length hd) 0 i x hx) as (pre & post & h1 & h2 & h3). cbn [Nat.add] in h1.
  assert (hn : n = (List.length hd + List.length pre)%nat) by (unfold n; now rewrite h2). rewrite <- hn in h1.
  assert (he : es = (hd ++ pre) ++ blk n i x ++ post) by (unfold es; rewrite h1; now rewrite <- app_assoc).
  assert (hl : List.length (hd ++ pre) = n) by (rewrite app_length; lia). split.
  - pose proof (timeline_segment es _ _ post T he) as G. rewrite hl in G. exact G.
  - intros j e h. rewrite he, nth_error_app2 by lia. replace (n + j - List.length (hd ++ pre))%nat with j by lia. rewrite nth_error_app1; auto. apply nth_error_Some. congruence. Qed.
Lemma after_previous' gdur gdelay es T n nm o : OnlyMeasureDelays gdelay -> Rel gdur gdelay (ldur gdur) es T -> nth_error es n = Some (nm, mk_tc None None 0, o) -> AfterPrevious gdur gdelay (tl_of es T) n.
Proof. intros hd hR h m name o1 t name' o' t' hm h1 h2. rewrite tl_nth in h1, h2. rewrite h in h2. injection h2 as <- <- <-. destruct (nth_error es m) as [e|] eqn:E; [|discriminate]. injection h1 as <- <- <-.
  subst n. rewrite (rel_prev _ _ _ _ _ _ _ hR h E eq_refl). cbn [e_tc fst snd mk_tc tc_pt tc_rel]. rewrite ldur_duration.
  unfold odelay, delay. destruct (e_op e) eqn:Eo; cbn [to_op op_delay]; rewrite ?(no_delay _ _ hd) by exact I; try ring. Qed.

Definition b_cal (u : nat -> string) (q prot : string) (base i : nat) (st : Z) : list entry :=
  [("Reset " ++ dec i, mk_tc None None 0, ResetGate [q])]%string ++ (if (st =? 1)%Z then [(u (base + 1)%nat, mk_tc None None 0, RxyGate 180 0 q)] else []) ++
  [("Measurement " ++ dec i, mk_tc None None 0, MeasureGate [q] (Some prot) (Some BinAppend))]%string.
Lemma b_cal_len u q prot base i st : List.length (b_cal u q prot base i st) = (2 + if (st =? 1)%Z then 1 else 0)%nat.
Proof. unfold b_cal. destruct (st =? 1)%Z; reflexivity. Qed.
Lemma cal_len u q prot sts : forall base i, List.length (blocks (b_cal u q prot) base i sts) = (2 * List.length sts + List.length (filter (Z.eqb 1) sts))%nat.
Proof. induction sts as [|st sts IH]; intros base i; cbn [blocks filter List.length]; auto. rewrite app_length, IH, b_cal_len. rewrite (Z.eqb_sym 1 st). destruct (st =? 1)%Z; cbn [List.length]; lia. Qed.
Lemma cal_names u q prot : Uuids u -> (forall base i st, NoDup (names (b_cal u q prot base i st))) /\
  (forall base i st n, In n (names (b_cal u q prot base i st)) -> in_block u LabA base i (List.length (b_cal u q prot base i st)) n).
Proof. intros hu. split; intros base i st; unfold b_cal; destruct (st =? 1)%Z; cbn [app].
  - nodup_label hu.
  - nodup_label hu.
  - intros n. cbn [names map e_name fst In List.length]. intros hin. repeat (destruct hin as [<-|hin]; [first [ left; apply labA_intro; reflexivity | right; eexists; split; [|reflexivity]; lia ]|]); destruct hin.
  - intros n. cbn [names map e_name fst In List.length]. intros hin. repeat (destruct hin as [<-|hin]; [first [ left; apply labA_intro; reflexivity | right; eexists; split; [|reflexivity]; lia ]|]); destruct hin. Qed.
Definition cal_body u q prot (s : lsched) (i : nat) (prep_state : Z) : result lsched :=
    do x <- add u s (Some ("Reset " ++ dec i)%string) (ResetGate [q]) None None 0;
    do s <- (if (prep_state =? 0)%Z then Ok (fst x)
             else if (prep_state =? 1)%Z then do x <- add u (fst x) None (RxyGate 180 0 q) None None 0; Ok (fst x)
             else if (prep_state =? 2)%Z then Err NotImplementedErr
             else Err ValueError);
    do x <- add u s (Some ("Measurement " ++ dec i)%string) (MeasureGate [q] (Some prot) (Some BinAppend)) None None 0;
    Ok (fst x).
Lemma cal_body_ok u q prot s i st : st = 0%Z \/ st = 1%Z -> NoDup (names (l_entries s ++ b_cal u q prot (List.length (l_entries s)) i st)) ->
  cal_body u q prot s i st = Ok (ext s (b_cal u q prot (List.length (l_entries s)) i st)).
Proof. intros [->| ->] h; unfold cal_body, b_cal in *; cbn [Z.eqb app Pos.eqb] in *.
  - pose proof (ext_nil s) as E. rewrite <- E at 1. clear E. repeat add1 h. reflexivity.
  - pose proof (ext_nil s) as E. rewrite <- E at 1. clear E. repeat add1 h. reflexivity. Qed.

(** Readout calibration: the measurement of the i-th shot follows the preparation of the i-th state: nothing after the reset for the
    ground state, a pi pulse for the first excited state; data are appended, with the chosen protocol *)
Theorem C44_readout_calibration : forall u gdur gdelay q states reps prot,
  Uuids u -> states <> [] -> OnlyMeasureDelays gdelay -> (forall st, In st states -> st = 0%Z \/ st = 1%Z) ->
  exists s tl, readout_calibration_sched u q states reps prot = Ok s /\ l_reps s = reps /\ Timeline gdur gdelay s tl /\
    List.length tl = (2 * List.length states + List.length (filter (Z.eqb 1) states))%nat /\
    forall i st, nth_error states i = Some st ->
    let n := (2 * i + List.length (filter (Z.eqb 1) (firstn i states)))%nat in
    AfterPrevious gdur gdelay tl n /\
    (st = 0%Z -> exists t_reset t_meas,
      Segment tl n [ ("Reset " ++ dec i, ResetGate [q], t_reset); ("Measurement " ++ dec i, MeasureGate [q] (Some prot) (Some BinAppend), t_meas) ]%string /\
      t_meas == t_reset + gdur (ResetGate [q])) /\
    (st = 1%Z -> exists name t_reset t_pi t_meas,
      Segment tl n [ ("Reset " ++ dec i, ResetGate [q], t_reset); (name, RxyGate 180 0 q, t_pi); ("Measurement " ++ dec i, MeasureGate [q] (Some prot) (Some BinAppend), t_meas) ]%string /\
      t_pi == t_reset + gdur (ResetGate [q]) /\ t_meas == t_pi + gdur (RxyGate 180 0 q)).
Proof. intros u gdur gdelay q states reps prot hu hne hd hst. change (readout_calibration_sched u q states reps prot) with (for_enum states (new reps) (cal_body u q prot)).
  destruct (cal_names u q prot hu) as (hn1 & hn2).
  destruct (run_blocks u gdur gdelay (b_cal u q prot) (cal_body u q prot) LabA states (new reps) hu eq_refl) as (T & h1 & h2 & h3).
  - destruct states; [easy|discriminate].
  - intros s i st hin h. apply cal_body_ok; auto.
  - exact labA_uuid.
  - exact labA_inj.
  - exact hn1.
  - exact hn2.
  - intros base i st. unfold b_cal. destruct (st =? 1)%Z; cbn [app]; back_label.
  - intros base i st e. unfold b_cal. destruct (st =? 1)%Z; cbn; intuition (subst; reflexivity).
  - set (b := b_cal u q prot). exists (ext (new reps) (blocks b 0 0 states)), (tl_of (blocks b 0 0 states) T). split; [exact h1|]. split; [reflexivity|]. split; [exact h2|].
    split; [rewrite tl_len; apply cal_len|]. intros i st hi n. destruct (block_at' b [] states i st T hi) as (hs & hg). cbn [List.length Nat.add app] in hs, hg.
    unfold b in hs, hg. rewrite cal_len in hs, hg. fold b in hs, hg.
    assert (hfi : List.length (firstn i states) = i) by (rewrite firstn_length; assert (i < List.length states)%nat by (apply nth_error_Some; congruence); lia).
    rewrite hfi in hs, hg. change (2 * i + List.length (filter (Z.eqb 1) (firstn i states)))%nat with n in hs, hg. clearbody n.
    split; [|split].
    + apply (after_previous' gdur gdelay _ T n ("Reset " ++ dec i)%string (ResetGate [q]) hd h3). rewrite <- (Nat.add_0_r n). apply hg. unfold b_cal. destruct (st =? 1)%Z; reflexivity.
    + intros ->. exists (T n), (T (S n)). split; [exact hs|]. pose proof (hg 0%nat _ eq_refl) as g0. pose proof (hg 1%nat _ eq_refl) as g1. rewrite Nat.add_0_r in g0. rewrite Nat.add_1_r in g1.
      rewrite (rel_prev _ _ _ _ _ _ _ h3 g1 g0 eq_refl). rel_ok hd.
    + intros ->. exists (u (n + 1)%nat), (T n), (T (S n)), (T (S (S n))). split; [exact hs|]. pose proof (hg 0%nat _ eq_refl) as g0. pose proof (hg 1%nat _ eq_refl) as g1. pose proof (hg 2%nat _ eq_refl) as g2.
      rewrite Nat.add_0_r in g0. rewrite Nat.add_1_r in g1. replace (n + 2)%nat with (S (S n)) in g2 by lia. split.
      * rewrite (rel_prev _ _ _ _ _ _ _ h3 g1 g0 eq_refl). rel_ok hd.
      * rewrite (rel_prev _ _ _ _ _ _ _ h3 g2 g1 eq_refl). rel_ok hd. Qed.

(** the first state that is neither 0 nor 1 decides: NotImplementedError for 2, ValueError for anything else *)
Theorem C44_readout_calibration_errors : forall u q before st after reps prot,
  Uuids u -> (forall x, In x before -> x = 0%Z \/ x = 1%Z) -> st <> 0%Z -> st <> 1%Z ->
  readout_calibration_sched u q (before ++ st :: after) reps prot = Err (if (st =? 2)%Z then NotImplementedErr else ValueError).
Proof. intros u q before st after reps prot hu hb h0 h1. destruct (cal_names u q prot hu) as (hn1 & hn2).
  change (readout_calibration_sched u q (before ++ st :: after) reps prot) with (for_enum (before ++ st :: after) (new reps) (cal_body u q prot)).
  assert (hnd : forall xs, NoDup (names (blocks (b_cal u q prot) 0 0 xs))) by (intros; apply (blocks_nodup u LabA); auto; [exact labA_uuid|exact labA_inj]).
  pose proof (for_enum_blocks (b_cal u q prot) (cal_body u q prot) before (new reps)) as G. cbn [new l_entries app List.length] in G.
  specialize (G ltac:(intros s i x hin h; apply cal_body_ok; auto) (hnd _)).
  unfold for_enum in *. rewrite app_length, seq_app.
  assert (Hc : forall (a : list nat) (b : list nat) (c d : list Z), List.length a = List.length c -> combine (a ++ b) (c ++ d) = combine a c ++ combine b d).
  { induction a; destruct c; intros; cbn in *; try discriminate; auto. f_equal. apply IHa. lia. }
  rewrite Hc by now rewrite seq_length. rewrite ClockProps.foldM_app. change {| l_entries := []; l_res := [("cl0.baseband", 0); ("digital", 0)]; l_reps := reps |} with (new reps) in G.
  etransitivity; [exact (f_equal (fun m => bind m _) G)|]. cbn [bind Nat.add List.length seq combine foldM fst snd]. unfold cal_body at 1.
  rewrite add_ok.
  - cbn [bind fst]. apply Z.eqb_neq in h0, h1. rewrite h0, h1. destruct (st =? 2)%Z; reflexivity.
  - cbn [name_of ext new l_entries app]. specialize (hnd (before ++ [0%Z])). assert (E : forall xs base i, blocks (b_cal u q prot) base i (xs ++ [0%Z]) = blocks (b_cal u q prot) base i xs ++ b_cal u q prot (base + List.length (blocks (b_cal u q prot) base i xs)) (i + List.length xs) 0%Z).
    { induction xs as [|x xs IH]; intros base i; cbn [app blocks List.length].
      - now rewrite app_nil_r, !Nat.add_0_r.
      - rewrite IH, app_length, <- app_assoc. do 2 f_equal. f_equal; lia. }
    rewrite E in hnd. unfold names in hnd. rewrite map_app in hnd. cbn [b_cal app Z.eqb map e_name fst] in hnd. apply nodup_app_mid in hnd. exact hnd. Qed.
