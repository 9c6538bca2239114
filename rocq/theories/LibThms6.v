(** C44: multiplexed staircase. *)
From Coq Require Import Lqa.
From Verif Require Import Base TimingModel TimingSpec LibModel LibSpec LibProps LibEngine LibProps2 LibThms4 LibThms5.
Open Scope Q_scope.
Open Scope string_scope.
Open Scope list_scope.

Section Mux.
Context (u : nat -> string) (dur delay int : Q) (port c0 c1 : string).
Definition m_ref (base : nat) : nat := if Nat.eqb base 1 then O else (base - 2)%nat.
Definition m_blk (base i : nat) (a : Q * Q) : list entry :=
  [ (u base, mk_tc (Some (u (m_ref base))) (Some PtEnd) 0, Square dur (fst a) port c0);
    (u (base + 1)%nat, mk_tc (Some (u base)) (Some PtStart) delay, SSB int port c0 0 None BinAverage 0);
    (u (base + 2)%nat, mk_tc (Some (u (m_ref base))) (Some PtEnd) 0, Square dur (snd a) port c1);
    (u (base + 3)%nat, mk_tc (Some (u (base + 2)%nat)) (Some PtStart) delay, SSB int port c1 1 None BinAverage 0) ].
Definition m_body (x : lsched * string) (_ : nat) (a : Q * Q) : result (lsched * string) :=
    let '(s, ref_pulse) := x in
    do y <- add_staircase_step u dur int port s ref_pulse (fst a) c0 0 delay;
    add_staircase_step u dur int port (fst y) ref_pulse (snd a) c1 1 delay.
Lemma m_names xs : forall base i, names (blocks m_blk base i xs) = map u (seq base (4 * List.length xs)).
Proof. induction xs as [|x xs IH]; intros base i; [reflexivity|]. cbn [blocks List.length]. change (List.length (m_blk base i x)) with 4%nat. unfold names. rewrite map_app. change (map e_name (blocks m_blk (base + 4) (S i) xs)) with (names (blocks m_blk (base + 4) (S i) xs)).
  rewrite IH. replace (4 * S (List.length xs))%nat with (4 + 4 * List.length xs)%nat by lia. rewrite seq_app, map_app. cbn [m_blk map e_name fst seq]. rewrite !Nat.add_succ_r, Nat.add_0_r. reflexivity. Qed.
Lemma nodup_u l : Uuids u -> NoDup l -> NoDup (map u l).
Proof. intros (hu & _). induction 1; cbn; constructor; auto. rewrite in_map_iff. intros (y & e & hy). apply hu in e. now subst. Qed.
Lemma m_run : Uuids u -> forall xs s i, names (l_entries s) = map u (seq 0 (List.length (l_entries s))) -> (1 <= List.length (l_entries s))%nat ->
  exists ref, foldM (fun st ix => m_body st (fst ix) (snd ix)) (combine (seq i (List.length xs)) xs) (s, u (m_ref (List.length (l_entries s)))) = Ok (ext s (blocks m_blk (List.length (l_entries s)) i xs), ref).
Proof. intros hu. induction xs as [|x xs IH]; intros s i hn hl; cbn [List.length seq combine foldM fst snd blocks].
  - rewrite ext_nil. eauto.
  - set (L := List.length (l_entries s)) in *.
    assert (hE : m_body (s, u (m_ref L)) i x = Ok (ext s (m_blk L i x), u (L + 2)%nat)).
    { assert (hnd : NoDup (names (l_entries s ++ m_blk L i x))).
      { pose proof (m_names [x] L i) as E. cbn [blocks List.length] in E. rewrite app_nil_r in E. unfold names in *. rewrite map_app, hn, E.
        rewrite <- map_app. change L with (0 + L)%nat at 2. rewrite <- seq_app. apply nodup_u; auto. apply seq_NoDup. }
      unfold m_body, add_staircase_step. pose proof (ext_nil s) as E. rewrite <- E at 1. clear E. unfold m_blk in hnd.
      replace (u L) with (u (L + 0)%nat) in hnd by (f_equal; lia).
      repeat add1 hnd. fold L. unfold m_blk. rewrite Nat.add_0_r. reflexivity. }
    rewrite hE. cbn [bind]. change (List.length (m_blk L i x)) with 4%nat.
    specialize (IH (ext s (m_blk L i x)) (S i)). cbn [ext l_entries] in IH. rewrite app_length in IH. fold L in IH. change (List.length (m_blk L i x)) with 4%nat in IH.
    assert (hr : m_ref (L + 4) = (L + 2)%nat) by (unfold m_ref; destruct (Nat.eqb_spec (L + 4) 1); lia). rewrite hr in IH.
    destruct IH as (ref & IH).
    + pose proof (m_names [x] L i) as E. cbn [blocks List.length] in E. rewrite app_nil_r in E. unfold names in *. rewrite map_app, hn, E, <- map_app. rewrite seq_app. reflexivity.
    + lia.
    + exists ref. rewrite <- ext_app. exact IH. Qed.
Lemma m_back xs : forall pre i, names pre = map u (seq 0 (List.length pre)) -> (1 <= List.length pre)%nat -> BackAll pre (blocks m_blk (List.length pre) i xs).
Proof. induction xs as [|x xs IH]; intros pre i hn hl; cbn [blocks]; [exact I|]. apply backall_app. set (L := List.length pre) in *. split.
  - assert (hin : In (u (m_ref L)) (names pre)).
    { rewrite hn. apply in_map, in_seq. unfold m_ref. destruct (Nat.eqb_spec L 1); lia. }
    unfold m_blk. cbn [BackAll]. unfold Back1. cbn [e_tc fst snd mk_tc tc_pt tc_ptnew tc_ref]. unfold names in *. rewrite !map_app. cbn [map e_name fst]. rewrite !in_app_iff. cbn [In].
    repeat split; try discriminate; auto 10.
  - change (List.length (m_blk L i x)) with 4%nat. specialize (IH (pre ++ m_blk L i x) (S i)). rewrite app_length in IH. apply IH; [|fold L; cbn; lia].
    pose proof (m_names [x] L i) as E. cbn [blocks List.length] in E. rewrite app_nil_r in E. unfold names in *. rewrite map_app, hn, E, <- map_app, seq_app. reflexivity. Qed.
End Mux.

Lemma nth_combine_rev (l : list Q) i a : nth_error l i = Some a -> nth_error (combine l (rev l)) i = Some (a, nth (List.length l - 1 - i) l 0).
Proof. intros h. assert (hi : (i < List.length l)%nat) by (apply nth_error_Some; congruence).
  assert (G : forall (x y : list Q) k p q, nth_error x k = Some p -> nth_error y k = Some q -> nth_error (combine x y) k = Some (p, q)).
  { induction x as [|c x IH]; intros [|d y] [|k] p q; cbn; intros; try discriminate; try congruence. eauto. }
  apply G; auto. rewrite (nth_error_nth' (rev l) 0) by now rewrite rev_length. rewrite rev_nth by auto. do 2 f_equal. lia. Qed.

(** Multiplexed staircase: after the initial wait, the i-th step plays the i-th amplitude on the first clock and the i-th amplitude from
    the end on the second clock, at the same moment, i pulse durations after the wait; each has its own acquisition channel *)
Theorem C44_multiplexing_staircase : forall u gdur gdelay amps dur delay int port c0 c1 f0 f1 init reps,
  Uuids u -> (0 < reps)%Z -> ~ In c0 ["cl0.baseband"; "digital"] -> ~ In c1 ["cl0.baseband"; "digital"; c0] ->
  exists s tl n0 t0, multiplexing_staircase_sched u amps dur delay int port c0 c1 f0 f1 init reps = Ok s /\
    l_reps s = reps /\ l_res s = l_res (new reps) ++ [(c0, f0); (c1, f1)] /\ Timeline gdur gdelay s tl /\ List.length tl = (1 + 4 * List.length (as_array amps))%nat /\
    Segment tl 0 [(n0, Idle init, t0)] /\
    forall i a, nth_error (as_array amps) i = Some a ->
    let b := nth (List.length (as_array amps) - 1 - i) (as_array amps) 0 in
    exists n1 n2 n3 n4 t1 t2 t3 t4,
      Segment tl (1 + 4 * i) [ (n1, Square dur a port c0, t1); (n2, SSB int port c0 0 None BinAverage 0, t2); (n3, Square dur b port c1, t3); (n4, SSB int port c1 1 None BinAverage 0, t4) ] /\
      t1 == t0 + init + inject_Z (Z.of_nat i) * dur /\ t3 == t1 /\ t2 == t1 + delay /\ t4 == t3 + delay.
Proof. intros u gdur gdelay amps dur delay int port c0 c1 f0 f1 init reps hu hreps hc0 hc1. unfold multiplexing_staircase_sched. rewrite add_clock_ok by exact hc0. cbn [bind].
  rewrite add_clock_ok by exact hc1. cbn [bind l_entries l_res l_reps]. set (xs := as_array amps).
  match goal with |- context [add u ?s _ _ _ _ _] => set (s0 := s) end. rewrite add_ok by (cbn; tauto). cbn [bind name_of].
  set (s1 := ext s0 [(u (List.length (l_entries s0)), mk_tc None None 0, Idle init)]). set (es := blocks (m_blk u dur delay int port c0 c1) 1 0 (combine xs (rev xs))).
  destruct (m_run u dur delay int port c0 c1 hu (combine xs (rev xs)) s1 0 eq_refl (le_n _)) as (ref & hrun). fold es in hrun.
  change (m_ref (List.length (l_entries s1))) with 0%nat in hrun.
  assert (hrun2 : (do x <- for_enum (combine xs (rev xs)) (s1, u (List.length (l_entries s0))) (m_body u dur delay int port c0 c1); set_reps (fst x) reps) = Ok (ext s1 es)).
  { unfold for_enum. change (List.length (l_entries s0)) with 0%nat. etransitivity; [exact (f_equal (fun m => bind m _) hrun)|]. cbn [bind fst]. unfold set_reps. destruct (Z.leb_spec reps 0); [lia|]. reflexivity. }
  assert (hs : l_entries (ext s1 es) = (u 0%nat, mk_tc None None 0, Idle init) :: es) by reflexivity.
  assert (hnames : names (l_entries (ext s1 es)) = map u (seq 0 (1 + 4 * List.length (combine xs (rev xs))))).
  { rewrite hs. unfold names. rewrite seq_app, map_app. cbn [map e_name fst seq app Nat.add]. f_equal. apply (m_names u dur delay int port c0 c1). }
  destruct (run_entries gdur gdelay (ext s1 es)) as (T & hT & hR).
  - discriminate.
  - rewrite hnames. apply nodup_u; auto. apply seq_NoDup.
  - rewrite hs. cbn [BackAll app]. split; [repeat split; discriminate|]. apply (m_back u dur delay int port c0 c1 _ [(u 0%nat, mk_tc None None 0, Idle init)]); [reflexivity|cbn; lia].
  - rewrite hs. intros e [<-|h]; [reflexivity|]. unfold es in h. clear - h. revert h. generalize (combine xs (rev xs)). intros l h. assert (G : forall l a b e, In e (blocks (m_blk u dur delay int port c0 c1) a b l) -> leaf (e_op e) = true); [|now apply (G l 1%nat 0%nat)]. clear. induction l as [|x l IH]; intros a b e h; cbn [blocks] in h; [easy|]. apply in_app_or in h as [h|h]; [cbn in h; intuition (subst; reflexivity)|eauto].
  - rewrite hs in hT, hR. set (es' := (u 0%nat, mk_tc None None 0, Idle init) :: es) in *.
    assert (hcl : List.length (combine xs (rev xs)) = List.length xs) by (rewrite combine_length, rev_length; lia).
    exists (ext s1 es), (tl_of es' T), (u 0%nat), (T 0%nat). split; [exact hrun2|]. split; [reflexivity|]. split; [reflexivity|]. split; [exact hT|].
    assert (hbl : forall l base i, List.length (blocks (m_blk u dur delay int port c0 c1) base i l) = (4 * List.length l)%nat) by (intros; now apply blocks_len).
    split; [rewrite tl_len; cbn [es' List.length]; unfold es; rewrite hbl, hcl; lia|].
    split; [exists [], (map (fun ke : nat * entry => (e_name (snd ke), e_op (snd ke), T (fst ke))) (combine (seq 1 (List.length es)) es)); split; reflexivity|].
    assert (hat : forall i a, nth_error (combine xs (rev xs)) i = Some a ->
      Segment (tl_of es' T) (1 + 4 * i) (map (fun ke : nat * entry => (e_name (snd ke), e_op (snd ke), T (fst ke))) (combine (seq (1 + 4 * i) 4) (m_blk u dur delay int port c0 c1 (1 + 4 * i) i a))) /\
      (forall j e, nth_error (m_blk u dur delay int port c0 c1 (1 + 4 * i) i a) j = Some e -> nth_error es' (1 + 4 * i + j) = Some e)).
    { intros i a h. pose proof (block_at' (m_blk u dur delay int port c0 c1) [(u 0%nat, mk_tc None None 0, Idle init)] _ i a T h) as G. cbn zeta in G. rewrite hbl in G.
      rewrite firstn_length in G. assert (i < List.length (combine xs (rev xs)))%nat by (apply nth_error_Some; congruence). rewrite Nat.min_l in G by lia. exact G. }
    (* the two pulses of a step start together; each step starts one pulse duration after the one before *)
    assert (hp : forall i a, nth_error (combine xs (rev xs)) i = Some a -> T (1 + 4 * i)%nat == T 0%nat + init + inject_Z (Z.of_nat i) * dur /\ T (1 + 4 * i + 2)%nat == T (1 + 4 * i)%nat).
    { induction i as [|i IH]; intros a h; destruct (hat _ _ h) as (_ & g).
      - pose proof (g 0%nat _ eq_refl) as g0. pose proof (g 2%nat _ eq_refl) as g2. cbn [Nat.mul Nat.add] in g0, g2 |- *.
        assert (e0 : T 1%nat == T 0%nat + init) by (rewrite (rel_ref _ _ _ _ 1 _ 0 _ hR g0 eq_refl (Nat.neq_succ_0 _) eq_refl); cbn; ring).
        assert (e2 : T 3%nat == T 0%nat + init) by (rewrite (rel_ref _ _ _ _ 3 _ 0 _ hR g2 eq_refl (Nat.neq_succ_0 _) eq_refl); cbn; ring).
        change (inject_Z (Z.of_nat 0)) with 0. split; lra.
      - assert (hi : exists a', nth_error (combine xs (rev xs)) i = Some a').
        { destruct (nth_error (combine xs (rev xs)) i) eqn:E; eauto. apply nth_error_None in E. assert (S i < List.length (combine xs (rev xs)))%nat by (apply nth_error_Some; congruence). lia. }
        destruct hi as (a' & hi). destruct (IH _ hi) as (i1 & i2). destruct (hat _ _ hi) as (_ & g'). pose proof (g' 2%nat _ eq_refl) as gp.
        pose proof (g 0%nat _ eq_refl) as g0. pose proof (g 2%nat _ eq_refl) as g2. rewrite Nat.add_0_r in g0.
        assert (hm : m_ref (1 + 4 * S i) = (1 + 4 * i + 2)%nat) by (unfold m_ref; destruct (Nat.eqb_spec (1 + 4 * S i) 1); lia).
        assert (n0 : (1 + 4 * S i <> 0)%nat) by lia. assert (n2 : (1 + 4 * S i + 2 <> 0)%nat) by lia.
        assert (e0 : T (1 + 4 * S i)%nat == T (1 + 4 * i + 2)%nat + dur).
        { rewrite (rel_ref _ _ _ _ _ _ _ _ hR g0 gp n0) by (cbn [e_tc fst snd mk_tc tc_ref e_name]; now rewrite hm). cbn; ring. }
        assert (e2 : T (1 + 4 * S i + 2)%nat == T (1 + 4 * i + 2)%nat + dur).
        { rewrite (rel_ref _ _ _ _ _ _ _ _ hR g2 gp n2) by (cbn [e_tc fst snd mk_tc tc_ref e_name]; now rewrite hm). cbn; ring. }
        rewrite Nat2Z.inj_succ. unfold Z.succ. rewrite inject_Z_plus. change (inject_Z 1) with 1. split; [rewrite e0, i2, i1; ring|]. rewrite e2, e0. reflexivity. }
    intros i a hi. pose proof (nth_combine_rev _ _ _ hi) as hc. destruct (hat _ _ hc) as (hs1 & g). destruct (hp _ _ hc) as (e1 & e3).
    do 4 eexists. exists (T (1 + 4 * i)%nat), (T (1 + 4 * i + 1)%nat), (T (1 + 4 * i + 2)%nat), (T (1 + 4 * i + 3)%nat).
    split. { rewrite !Nat.add_succ_r, Nat.add_0_r. exact hs1. }
    split; [exact e1|]. split; [exact e3|].
    pose proof (g 0%nat _ eq_refl) as g0. pose proof (g 1%nat _ eq_refl) as g1. pose proof (g 2%nat _ eq_refl) as g2. pose proof (g 3%nat _ eq_refl) as g3. rewrite Nat.add_0_r in g0.
    split.
    + assert (n1 : (1 + 4 * i + 1 <> 0)%nat) by lia. rewrite (rel_ref _ _ _ _ _ _ _ _ hR g1 g0 n1 eq_refl). cbn. ring.
    + assert (n3 : (1 + 4 * i + 3 <> 0)%nat) by lia. rewrite (rel_ref _ _ _ _ _ _ _ _ hR g3 g2 n3 eq_refl). cbn. ring. Qed.

(** repetitions must be positive (the other functions of the library do not check) *)
Theorem C44_multiplexing_repetitions : forall u amps dur delay int port c0 c1 f0 f1 init reps,
  (reps <= 0)%Z -> forall s, multiplexing_staircase_sched u amps dur delay int port c0 c1 f0 f1 init reps <> Ok s.
Proof. intros u amps dur delay int port c0 c1 f0 f1 init reps h s E. unfold multiplexing_staircase_sched in E.
  repeat match type of E with bind ?m _ = _ => destruct m; cbn [bind] in E; [|discriminate] end. cbv zeta in E.
  repeat match type of E with bind ?m _ = _ => destruct m; cbn [bind] in E; [|discriminate] end. unfold set_reps in E. destruct (Z.leb_spec reps 0); [discriminate|lia]. Qed.
