(** C12, C13, continued: the timing of compensated schedules and the theorems. *)
From Verif Require Import Base QSort TimingModel TimingSpec TimingProps TableModel TableProps PulseCompModel PulseCompProps.
From Coq Require Import List Relations.
Open Scope string_scope.
Open Scope list_scope.
Open Scope Q_scope.

Notation item := (string * list tconstr * option Q * sop)%type.
Lemma sop_nested (P : sop -> Prop) : (forall ps qs d, P (PLeaf ps qs d)) -> (forall n b, P b -> P (PLoop n b)) -> (forall u b, P b -> P (PCond u b)) ->
  (forall d dl n items, Forall (fun x => P (snd x)) items -> P (PSched d dl n items)) -> (forall b m g, P b -> P (PComp b m g)) -> forall o, P o.
Proof.
  intros H1 H2 H3 H4 H5. fix IH 1. intros [ps qs d|n b|u b|d dl n items|b m g]; [apply H1|apply H2, IH|apply H3, IH| |apply H5, IH]. apply H4. induction items as [|x l IHl]; constructor; [apply IH|exact IHl].
Qed.

(** ** What the user writes *)
(** Schedules that have not been timed yet (no abs_time, no duration), with unique schedulable keys, non-negative times, durations, repetitions and buffers, non-negative delays after compensated operations, acquisitions marked as such, positive time grids and maximum amplitudes, and each port once in max_compensation_amp. *)
Fixpoint written (o : sop) : Prop :=
  match o with
  | PLeaf ps qs _ => Forall (fun i => is_acq i = false) ps /\ Forall (fun i => is_acq i = true) qs /\ Forall (fun i => 0 <= t0 i /\ 0 <= dur i) (ps ++ qs)
  | PLoop n b => written b /\ (0 <= n)%Z
  | PCond u b => written b /\ 0 <= u
  | PSched d _ n items => d = None /\ (0 <= n)%Z /\ NoDup (map (fun i : item => fst (fst (fst i))) items) /\
      (fix all (l : list item) : Prop := match l with [] => True | (_, _, a, x) :: r => a = None /\ written x /\ all r end) items
  | PComp b m g => written b /\ (forall x, delay_of b = Some x -> 0 <= x) /\ 0 < g /\ NoDup (map fst m) /\ Forall (fun x => 0 < snd x) m
  end.
Lemma written_items d dl n items : written (PSched d dl n items) <-> d = None /\ (0 <= n)%Z /\ NoDup (map (fun i : item => fst (fst (fst i))) items) /\ Forall (fun i : item => snd (fst i) = None /\ written (snd i)) items.
Proof.
  cbn [written]. assert (E : (fix all (l : list item) : Prop := match l with [] => True | (_, _, a, x) :: r => a = None /\ written x /\ all r end) items <-> Forall (fun i : item => snd (fst i) = None /\ written (snd i)) items); [|tauto].
  induction items as [|[[[k t] a] x] l IH]; [split; auto|]. rewrite IH. split; [intros (H1 & H2 & H3); constructor; auto|intros H; inversion H as [|? ? [? ?] ?]; auto].
Qed.

(** list views of the passes *)
Fixpoint timing_items (st : strategy) (l : list item) : result (list item) :=
  match l with
  | [] => Ok []
  | (n, t, a, x) :: r =>
      do x' <- match x with PSched (Some _) _ _ _ => Ok x | PSched None _ _ _ | PLoop _ _ | PCond _ _ => timing st x | _ => if valid x then Ok x else Err RuntimeError end;
      do r' <- timing_items st r; Ok ((n, t, a, x') :: r')
  end.
Lemma timing_sched st d dl reps items : timing st (PSched d dl reps items) = do items' <- timing_items st items; do ss <- mapM item_sch items'; do out <- determine_level st reps ss; Ok (PSched (Some (snd out)) dl reps (write_all items' (fst out))).
Proof.
  cbn [timing]. match goal with |- bind (?f items) ?g = bind (timing_items st items) ?g => assert (E : f items = timing_items st items); [|rewrite E; reflexivity] end.
  induction items as [|[[[k t] a] x] l IH]; [reflexivity|]. cbn [timing_items]. rewrite <- IH. reflexivity.
Qed.
Fixpoint process_items (l : list item) : result (list item) :=
  match l with [] => Ok [] | (k, t, a, x) :: r => do x' <- process x; do r' <- process_items r; Ok ((k, t, a, x') :: r') end.
Lemma process_sched d dl n items : process (PSched d dl n items) = do items' <- process_items items; Ok (PSched d dl n items').
Proof.
  cbn [process]. match goal with |- bind (?f items) ?g = bind _ ?g => assert (E : f items = process_items items); [|rewrite E; reflexivity] end.
  induction items as [|[[[k t] a] x] l IH]; [reflexivity|]. cbn [process_items]. rewrite <- IH. reflexivity.
Qed.
(** [timing] is TimingModel.determine with the contents carried along *)
Fixpoint erase (o : sop) : TimingModel.op :=
  match o with
  | PLeaf ps qs d => OLeaf (valid o) (leaf_duration (ps ++ qs)) d
  | PLoop n b => OLoop n (erase b)
  | PCond u b => OCond u (erase b)
  | PSched d dl n items => OSched d dl n (map (fun '(k, t, a, x) => Item k t a (erase x)) items)
  | PComp _ _ _ => OLeaf false 0 None
  end.
Definition res_map {A B} (f : A -> B) (r : result A) : result B := match r with Ok a => Ok (f a) | Err e => Err e end.
Lemma erase_dur o : op_dur (erase o) = match duration (table o) with Ok d => Some d | Err _ => None end.
Proof. induction o as [ps qs d|n b IH|u b IH|d dl0 n items IH|b m g IH] using sop_nested; cbn; try reflexivity; [rewrite IH; destruct (duration (table b)); reflexivity|rewrite IH; destruct (duration (table b)); reflexivity|destruct d; reflexivity]. Qed.
Lemma erase_write : forall l ss, map (fun '(k, t, a, x) => Item k t a (erase x)) (write_all l ss) = TimingModel.write_all (map (fun '(k, t, a, x) => Item k t a (erase x)) l) ss.
Proof. induction l as [|[[[k t] a] x] l IH]; intros [|s ss]; cbn; try reflexivity. rewrite IH. reflexivity. Qed.
Lemma erase_item_sch l : mapM TimingModel.item_sch (map (fun '(k, t, a, x) => Item k t a (erase x)) l) = mapM item_sch l.
Proof.
  induction l as [|[[[k t] a] x] l IH]; [reflexivity|]. cbn [map mapM]. rewrite IH. f_equal. unfold TimingModel.item_sch, item_sch. cbn [it_op it_name it_tcs it_abs]. rewrite erase_dur. destruct (duration (table x)); [|reflexivity]. do 2 f_equal. destruct x; reflexivity.
Qed.
Theorem timing_erase : forall st o, res_map erase (timing st o) = determine st (erase o).
Proof.
  intros st. induction o as [ps qs d|n b IH|u b IH|d dl0 n items IH|b m g IH] using sop_nested; try reflexivity.
  - cbn [timing erase determine]. rewrite <- IH. destruct (timing st b); reflexivity.
  - cbn [timing erase determine]. rewrite <- IH. destruct (timing st b); reflexivity.
  - rewrite timing_sched. cbn [erase determine].
    match goal with |- _ = bind (?f (map ?g items)) _ => assert (E : f (map g items) = res_map (map g) (timing_items st items)) end.
    { induction IH as [|[[[k t] a] x] l Hx Hl IHl]; [reflexivity|]. cbn [map timing_items]. rewrite IHl. cbn [snd] in Hx.
      destruct x as [ps qs dl|n' b'|u' b'|[dd|] dl' n' items'|b' m' g']; cbn [erase].
      - destruct (valid (PLeaf ps qs dl)) eqn:Ev; [|reflexivity]. cbn [bind]. destruct (timing_items st l); cbn [bind res_map map erase]; rewrite ?Ev; reflexivity.
      - cbn [erase] in Hx. rewrite <- Hx. destruct (timing st (PLoop n' b')); [|reflexivity]. cbn [bind res_map]. destruct (timing_items st l); reflexivity.
      - cbn [erase] in Hx. rewrite <- Hx. destruct (timing st (PCond u' b')); [|reflexivity]. cbn [bind res_map]. destruct (timing_items st l); reflexivity.
      - cbn [bind]. destruct (timing_items st l); reflexivity.
      - cbn [erase] in Hx. rewrite <- Hx. destruct (timing st (PSched None dl' n' items')); [|reflexivity]. cbn [bind res_map]. destruct (timing_items st l); reflexivity.
      - reflexivity. }
    rewrite E. destruct (timing_items st items) as [items'|]; [|reflexivity]. cbn [bind res_map]. rewrite erase_item_sch. destruct (mapM item_sch items') as [ss|]; [|reflexivity]. cbn [bind]. destruct (determine_level st n ss) as [[l D]|]; [|reflexivity]. cbn [bind res_map erase fst snd]. rewrite erase_write. reflexivity.
Qed.

(** ** Consequences of success *)
Lemma timing_items_spec st : forall l l', Forall (fun i : item => snd (fst i) = None /\ written (snd i)) l -> timing_items st l = Ok l' -> Forall2 (fun i i' : item => fst i = fst i' /\ timing st (snd i) = Ok (snd i')) l l'.
Proof.
  induction l as [|[[[k t] a] x] l IH]; intros l' H E; cbn [timing_items] in E; [injection E as <-; constructor|]. inversion H as [|? ? [Ha Hw] Hl]; subst. cbn [fst snd] in *.
  match type of E with bind ?e _ = _ => destruct e as [x'|] eqn:Ex; [|discriminate] end. cbn [bind] in E. destruct (timing_items st l) as [r'|] eqn:Er; [|discriminate]. cbn [bind] in E. injection E as <-. constructor; [|apply IH; auto]. cbn [fst snd]. split; [reflexivity|].
  destruct x as [ps qs dl|n' b'|u' b'|[dd|] dl' n' items'|b' m' g']; try exact Ex.
  - destruct (valid _); [|discriminate]. injection Ex as <-. reflexivity.
  - apply written_items in Hw. destruct Hw as [[=] _].
  - discriminate.
Qed.
Lemma item_sch_spec : forall l ss, mapM item_sch l = Ok ss -> Forall2 (fun (i : item) s => s_name s = fst (fst (fst i)) /\ s_tcs s = snd (fst (fst i)) /\ s_abs s = snd (fst i) /\ s_delay s = delay_of (snd i) /\ duration (table (snd i)) = Ok (s_dur s)) l ss.
Proof.
  induction l as [|[[[k t] a] x] l IH]; intros ss E; cbn [mapM] in E; [injection E as <-; constructor|]. unfold item_sch at 1 in E. destruct (duration (table x)) as [d|] eqn:Ed; [|discriminate]. cbn [bind] in E. destruct (mapM item_sch l) as [ss'|]; [|discriminate]. cbn [bind] in E. injection E as <-. constructor; [|apply IH; reflexivity]. cbn. auto.
Qed.
Lemma duration_nonneg : forall reps l, (0 <= reps)%Z -> 0 <= schedule_duration reps l.
Proof.
  intros reps l Hr. unfold schedule_duration. assert (G : forall l a, 0 <= a -> 0 <= fold_left (fun acc s => let t := abs_of s + s_dur s in if Qlt_bool acc t then t else acc) l a).
  { induction l0 as [|s l0 IH]; intros a Ha; [exact Ha|]. cbn [fold_left]. apply IH. destruct (Qlt_bool a _) eqn:E; [apply Qlt_bool_iff in E; lra|exact Ha]. }
  assert (0 <= inject_Z reps) by (change 0 with (inject_Z 0); rewrite <- Zle_Qle; exact Hr). apply Qmult_le_0_compat; [apply G, Qle_refl|assumption].
Qed.
Lemma level_duration st reps l out d : determine_level st reps l = Ok (out, d) -> d = schedule_duration reps out.
Proof.
  unfold determine_level. destruct l; [discriminate|]. destruct (make_explicit st _) as [l1|]; [|discriminate]. cbn [bind]. destruct (negb _); [discriminate|]. destruct (topo_sort l1); [|discriminate]. destruct (resolve _ _ _); [|discriminate]. cbn [bind]. intros [= <- <-]. reflexivity.
Qed.
Lemma leaf_duration_nonneg l : Forall (fun i => 0 <= t0 i /\ 0 <= dur i) l -> 0 <= leaf_duration l.
Proof. intros H. destruct l as [|x l]; [unfold leaf_duration; cbn; lra|]. pose proof (leaf_duration_ge (x :: l) x (or_introl eq_refl)). inversion H as [|? ? [? ?] ?]; subst. lra. Qed.
Lemma write_all_in l ss i : In i (write_all l ss) -> exists j, In j l /\ snd i = snd j.
Proof. revert ss. induction l as [|[[[k t] a] x] l IH]; intros [|s ss] H; try destruct H. - subst i. exists (k, t, a, x). split; [left; reflexivity|reflexivity]. - destruct (IH _ H) as (j & Hj & E). exists j. split; [right; exact Hj|exact E]. Qed.
Lemma Forall2_in_r {A B} (R : A -> B -> Prop) l l' y : Forall2 R l l' -> In y l' -> exists x, In x l /\ R x y.
Proof. induction 1 as [|a b l l' H H' IH]; intros Hi; [destruct Hi|]. destruct Hi as [<-|Hi]; [exists a; split; [left; reflexivity|exact H]|]. destruct (IH Hi) as (x & Hx & Hr). exists x. split; [right; exact Hx|exact Hr]. Qed.
Lemma timing_regular : forall st o o', written o -> timing st o = Ok o' -> regular (table o') /\ forall d, duration (table o') = Ok d -> 0 <= d.
Proof.
  intros st. induction o as [ps qs d|n b IH|u b IH|d dl0 n items IH|b m g IH] using sop_nested; intros o' W E.
  - cbn [timing] in E. injection E as <-. destruct W as (W1 & W2 & W3). cbn [table regular duration]. split; [auto|]. intros d' [= <-]. apply leaf_duration_nonneg, W3.
  - cbn [timing] in E. destruct W as [W Hn]. destruct (timing st b) as [b'|]; [|discriminate]. cbn [bind] in E. injection E as <-. destruct (IH _ W eq_refl) as [R D]. cbn [table regular duration]. split; [auto|]. intros d' Hd. destruct (duration (table b')) as [db|]; [|discriminate]. cbn [bind] in Hd. injection Hd as <-. specialize (D db eq_refl). assert (0 <= inject_Z n) by (change 0 with (inject_Z 0); rewrite <- Zle_Qle; exact Hn). nra.
  - cbn [timing] in E. destruct W as [W Hu]. destruct (timing st b) as [b'|]; [|discriminate]. cbn [bind] in E. injection E as <-. destruct (IH _ W eq_refl) as [R D]. cbn [table regular duration]. split; [auto|]. intros d' Hd. destruct (duration (table b')) as [db|]; [|discriminate]. cbn [bind] in Hd. injection Hd as <-. specialize (D db eq_refl). lra.
  - apply written_items in W. destruct W as (-> & Hn & _ & W). rewrite timing_sched in E. destruct (timing_items st items) as [items'|] eqn:Et; [|discriminate]. cbn [bind] in E. destruct (mapM item_sch items') as [ss|]; [|discriminate]. cbn [bind] in E. destruct (determine_level st n ss) as [[out D]|] eqn:El; [|discriminate]. cbn [bind fst snd] in E. injection E as <-.
    cbn [table]. split.
    + apply regular_sub. apply Forall_forall. intros i Hi. apply in_map_iff in Hi. destruct Hi as ([[[k t] a] x] & <- & Hi). cbn [snd]. destruct (write_all_in _ _ _ Hi) as (j & Hj & Ex). cbn [snd] in Ex. subst x. destruct (Forall2_in_r _ _ _ _ (timing_items_spec _ _ _ W Et) Hj) as (i0 & Hi0 & _ & Et0). apply (proj1 (Forall_forall _ _) IH _ Hi0 _ (proj2 (proj1 (Forall_forall _ _) W _ Hi0)) Et0).
    + intros d' [= <-]. rewrite (level_duration _ _ _ _ _ El). apply duration_nonneg, Hn.
  - cbn [timing] in E. injection E as <-. cbn. split; [auto|]. intros d' [= <-]. unfold leaf_duration. cbn. lra.
Qed.
(** an operation whose sums can be computed without timing it contains no schedule at all *)
Lemma untimed_sum : forall st o o' t ports c m, written o -> timing st o = Ok o' -> sum_end (table o) t ports c = Ok m -> o' = o.
Proof.
  intros st. induction o as [ps qs d|n b IH|u b IH|d dl0 n items IH|b m g IH] using sop_nested; intros o' t ports c m' W E Es.
  - injection E as <-. reflexivity.
  - cbn [timing table sum_end] in *. destruct (timing st b) as [b'|]; [|discriminate]. cbn [bind] in E. injection E as <-. destruct (sum_end (table b) t ports c) eqn:Eb; [|discriminate]. f_equal. eapply IH; [apply W|reflexivity|exact Eb].
  - cbn [timing table sum_end] in *. destruct (timing st b) as [b'|]; [|discriminate]. cbn [bind] in E. injection E as <-. f_equal. eapply IH; [apply W|reflexivity|exact Es].
  - exfalso. apply written_items in W. destruct W as (-> & Hn & _ & W). cbn [table] in Es. rewrite sum_end_sub in Es. destruct items as [|[[[k t'] a] x] l].
    + rewrite timing_sched in E. cbn in E. discriminate.
    + inversion W as [|? ? [Ha _] _]; subst. cbn in Ha. subst a. cbn in Es. discriminate.
  - injection E as <-. reflexivity.
Qed.

(** ** The compensation pulses *)
Lemma foldM_keeps {A B} (P : B -> Prop) (f : B -> A -> result B) : (forall b a b', P b -> f b a = Ok b' -> P b') -> forall l b b', foldM f l b = Ok b' -> P b -> P b'.
Proof. intros H. induction l as [|x l IH]; intros b b' E Hb; cbn [foldM] in E; [injection E as <-; exact Hb|]. destruct (f b x) as [b1|] eqn:E1; [|discriminate]. cbn [bind] in E. eapply IH; [exact E|]. eapply H; eassumption. Qed.
Lemma sum_end_nodup : forall o t ports c m, sum_end o t ports c = Ok m -> NoDup (map fst m).
Proof.
  induction o as [ps qs|b n t1 IH|b t1 u IH|items n d IH] using op_nested; intros t ports c m E.
  - cbn [sum_end] in E. destruct (_ && _); [discriminate|]. apply (foldM_keeps (fun m => NoDup (map fst m)) _) in E; [exact E| |constructor]. clear. intros m x m' N E.
    destruct (port (what x)) as [p|]; [|injection E as <-; exact N]. destruct (_ && _); [|injection E as <-; exact N]. destruct c; [discriminate|]. destruct (area_pulse x) as [s|]; [|discriminate]. cbn [bind] in E. injection E as <-. apply NoDup_merge; [exact N|]. repeat constructor. intros [].
  - cbn [sum_end] in E. destruct (sum_end b t ports c) as [m0|] eqn:E0; [|discriminate]. cbn [bind] in E. destruct (n =? 0)%Z; [discriminate|]. apply IH in E0. replace (map fst m) with (map fst m0); [exact E0|]. clear - E. revert m E. induction m0 as [|[p [s e]] l IHl]; intros m E; cbn [mapM] in E; [injection E as <-; reflexivity|]. destruct (duration b); [|discriminate]. cbn [bind] in E. destruct (mapM _ l) as [l'|]; [|discriminate]. cbn [bind] in E. injection E as <-. cbn. f_equal. apply IHl. reflexivity.
  - eapply IH, E.
  - rewrite sum_end_sub in E. assert (G : forall l m0 m, Forall (fun i => forall t ports c m, sum_end (snd i) t ports c = Ok m -> NoDup (map fst m)) l -> NoDup (map fst m0) -> sum_end_items t ports c l m0 = Ok m -> NoDup (map fst m)).
    { clear. induction l as [|[[a h] x] l IHl]; intros m0 m F N E; cbn [sum_end_items] in E; [injection E as <-; exact N|]. destruct a as [v|]; [|discriminate]. destruct (sum_end x (t + v) ports c) as [new|] eqn:Ex; [|discriminate]. cbn [bind] in E. inversion F as [|? ? Fx Fl]; subst. eapply IHl; [exact Fl| |exact E]. apply NoDup_merge; [exact N|]. eapply Fx. exact Ex. }
    eapply G; [exact IH| |exact E]; constructor.
Qed.
Lemma ceiling_pos x : 0 < x -> (1 <= Qceiling x)%Z.
Proof. intros H. pose proof (Qle_ceiling x). assert (0 < inject_Z (Qceiling x)) by lra. change 0 with (inject_Z 0) in H1. rewrite <- Zlt_Qlt in H1. lia. Qed.
(** one compensation pulse: amplitude within the limit, duration the smallest possible multiple of the grid, and it cancels the sum *)
Lemma pulse_for_spec max grid p s e l : 0 < grid -> Forall (fun x => 0 < snd x) max -> pulse_for max grid (p, (s, e)) = Ok l ->
  (l = [] /\ (s == 0 \/ lookup max p = None)) \/
  exists M q k, l = [(p, q)] /\ lookup max p = Some M /\ ~ s == 0 /\ 0 < M /\ start q = e /\ (1 <= k)%Z /\ p_duration q = inject_Z k * grid /\ Qabs (p_amp q) <= M /\ inject_Z (k - 1) * grid * M < Qabs s /\ p_amp q * p_duration q == - s.
Proof.
  intros Hg HM E. unfold pulse_for in E. destruct (lookup max p) as [M|] eqn:El; [|injection E as <-; left; auto]. assert (HMp : 0 < M) by (apply lookup_in in El; apply (proj1 (Forall_forall _ _) HM _ El)).
  destruct (Qeq_bool s 0) eqn:Es; [injection E as <-; left; split; [reflexivity|left; apply Qeq_bool_iff, Es]|]. destruct (Qeq_bool grid 0 || Qeq_bool M 0); [discriminate|]. set (k := Qceiling (Qabs s / grid / M)) in *. destruct (Qeq_bool (inject_Z k * grid) 0) eqn:Ed; [discriminate|]. injection E as <-. right.
  assert (Hs : ~ s == 0) by (intros H; apply Qeq_bool_iff in H; congruence). assert (Ha : 0 < Qabs s). { destruct (Qlt_le_dec 0 (Qabs s)) as [L|L]; [exact L|]. exfalso. apply Hs. pose proof (Qabs_nonneg s). pose proof (Qle_Qabs s). pose proof (Qle_Qabs (- s)) as H2. rewrite Qabs_opp in H2. lra. }
  assert (Hx : Qabs s / grid / M * (grid * M) == Qabs s) by (field; lra). assert (Hgm : 0 < grid * M) by nra. assert (Hpos : 0 < Qabs s / grid / M) by (destruct (Qlt_le_dec 0 (Qabs s / grid / M)) as [L|L]; [exact L|nra]).
  pose proof (ceiling_pos _ Hpos) as Hk. fold k in Hk. pose proof (Qle_ceiling (Qabs s / grid / M)) as Hc. pose proof (Qceiling_lt (Qabs s / grid / M)) as Hc'. fold k in Hc, Hc'.
  assert (Hk1 : 1 <= inject_Z k) by (change 1 with (inject_Z 1); rewrite <- Zle_Qle; exact Hk). assert (Hd : 0 < inject_Z k * grid) by nra.
  exists M, {| start := e; p_duration := inject_Z k * grid; p_amp := - s / (inject_Z k * grid) |}, k. cbn [start p_duration p_amp]. repeat apply conj; try reflexivity; try assumption.
  - assert (He : Qabs (- s / (inject_Z k * grid)) * (inject_Z k * grid) == Qabs s). { rewrite <- (Qabs_pos (inject_Z k * grid)) at 2 by lra. rewrite <- Qabs_Qmult. setoid_replace (- s / (inject_Z k * grid) * (inject_Z k * grid)) with (- s) by (field; split; lra). apply Qabs_opp. }
    assert (Hle : Qabs s <= inject_Z k * grid * M) by nra. destruct (Qlt_le_dec M (Qabs (- s / (inject_Z k * grid)))) as [L|L]; [|exact L]. nra.
  - nra.
  - field. split; lra.
Qed.
