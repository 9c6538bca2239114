(** The scope acquisition that is stored; the data of a cluster; what cannot be retrieved. *)
From Verif Require Import Base AcqChanModel NumericModel JsonModel PathModel QbModel RetModel RetSpec RetProps RetOwn RetWhole RetMerge RetParts RetThms RetAccept.
Local Open Scope string_scope.
Local Open Scope list_scope.
Local Open Scope nat_scope.

(** ** The scope acquisition chosen when the module was prepared is the one stored *)
Definition is_trace (c : chandata) : bool := match c_proto c with Trace => true | _ => false end.
Definition trace_flags (g : RetModel.manager) : channels_data := map (fun '(ch, c) => (ch, is_trace c)) (g_data g).
Definition trace_mapping (g : RetModel.manager) : hw_mapping := map (fun '(s, chans) => (s, map (fun '(ch, hm) => (ch, match hm with Whole k => Some (Z.of_nat k) | Bins _ => None end)) chans)) (g_mapping g).
Definition of_program (k : kind) (g : RetModel.manager) (sc : option (nat * Z)) : Prop := g_scope g = option_map (fun '(i, z) => (i, Z.to_nat z)) sc /\ forall s, g_seq g s = seq_index k s.
Lemma inner_scope k ch : forall (hwm : hw_mapping) acc acc',
  foldM (fun acc '(sname, chans) => match seq_index k sname with None => Err KeyError | Some i => foldM (fun (acc : option (nat * Z)) '(hch, idx) => if String.eqb ch hch then match idx with None => Err AssertionErr | Some n => match acc with Some (j, _) => if Nat.eqb i j then Ok (Some (i, n)) else Err ValueError | None => Ok (Some (i, n)) end end else Ok acc) chans acc end) hwm acc = Ok acc' ->
  (acc' = acc /\ forall s chans x, In (s, chans) hwm -> ~ In (ch, x) chans) \/ (exists s chans n i, In (s, chans) hwm /\ In (ch, Some n) chans /\ seq_index k s = Some i /\ acc' = Some (i, n)).
Proof. intros hwm. induction hwm as [|[s chans] hwm IH]; cbn [foldM]; intros acc acc' H; [injection H as <-; left; split; [auto|intros ? ? ? []]|].
  inv H. destruct (seq_index k s) as [i|] eqn:S; [|discriminate E].
  assert (G : (a = acc /\ forall x, ~ In (ch, x) chans) \/ exists n, In (ch, Some n) chans /\ a = Some (i, n)).
  { clear - E. revert acc E. induction chans as [|[hch idx] chans IH]; cbn [foldM]; intros acc E; [injection E as <-; left; split; [auto|intros x []]|]. inv E. destruct (String.eqb_spec ch hch) as [<-|ne].
    - assert (Q : exists n, idx = Some n /\ a0 = Some (i, n)). { destruct idx as [n|]; [|discriminate]. destruct acc as [[j z]|]; [destruct (Nat.eqb i j); [|discriminate]|]; injection E0 as <-; eauto. } destruct Q as (n & -> & ->). apply IH in E. destruct E as [[-> _]|(n' & h1 & ->)]; right; [exists n; cbn; auto|exists n'; cbn; auto].
    - injection E0 as <-. apply IH in E. destruct E as [[-> h]|(n' & h1 & ->)]; [left; split; [auto|]; intros x [q|q]; [injection q as -> _; easy|eapply h; eauto]|right; exists n'; cbn; auto]. }
  apply IH in H. destruct H as [[-> h]|(s' & chans' & n & i' & h1 & h2 & h3 & ->)]; [|right; exists s', chans', n, i'; cbn; auto].
  destruct G as [[-> g]|(n & g & ->)].
  - left. split; [auto|]. intros s' chans' x [q|q]; [injection q as <- <-; apply g|eapply h; eauto].
  - right. exists s, chans, n, i. cbn. auto. Qed.
Theorem C55_scope_stored : forall kd g sc s ch hm c,
  scope_seq kd (trace_flags g) (trace_mapping g) = Ok sc -> of_program kd g sc -> g_kind g = QRM_manager -> Dicts g -> Reads g s ch hm -> ProtoOf g ch c -> c_proto c = Trace ->
  (forall s' ch' hm' c', Reads g s' ch' hm' -> ProtoOf g ch' c' -> c_proto c' = Trace -> s' = s /\ ch' = ch) ->
  exists k i, hm = Whole k /\ g_seq g s = Some i /\ stored g = Some (i, dec_Z (Z.of_nat k)).
Proof. intros kd g sc s ch hm c H [O1 O2] K D R P T U. unfold scope_seq in H.
  set (step := fun (acc : option (nat * Z)) '(ch, is_trace) => if negb (is_trace : bool) then Ok acc else _) in H.
  assert (ST : forall acc ch' fl acc', step acc (ch', fl) = Ok acc' -> (acc' = acc /\ (fl = true -> forall s1 ch1 x, In (s1, ch1) (trace_mapping g) -> ~ In (ch', x) ch1)) \/ (fl = true /\ exists s1 chans n i, In (s1, chans) (trace_mapping g) /\ In (ch', Some n) chans /\ seq_index kd s1 = Some i /\ acc' = Some (i, n))).
  { intros acc ch' fl acc' E. unfold step in E. destruct fl; cbn [negb] in E; [|injection E as <-; left; split; [auto|discriminate]]. apply inner_scope in E. destruct E as [[-> h]|h]; [left; split; [auto|intros _; apply h]|right; auto]. }
  assert (IM : forall s1 chans ch' n, In (s1, chans) (trace_mapping g) -> In (ch', Some n) chans -> exists k, n = Z.of_nat k /\ Reads g s1 ch' (Whole k)).
  { intros s1 chans ch' n h1 h2. unfold trace_mapping in h1. apply in_map_iff in h1. destruct h1 as ([s2 c2] & e & h1). injection e as -> <-. apply in_map_iff in h2. destruct h2 as ([c3 m3] & e & h2). injection e as -> e. destruct m3 as [k|]; [|discriminate]. injection e as <-. exists k. split; [auto|]. exists c2. auto. }
  assert (INV : forall l, (forall x, In x l -> In x (g_data g)) -> forall acc sc, foldM step (map (fun '(ch, c) => (ch, is_trace c)) l) acc = Ok sc -> (acc = None \/ exists i k, acc = Some (i, Z.of_nat k) /\ Reads g s ch (Whole k) /\ seq_index kd s = Some i) -> (acc <> None \/ In (ch, c) l) -> exists i k, sc = Some (i, Z.of_nat k) /\ Reads g s ch (Whole k) /\ seq_index kd s = Some i).
  { clear sc H O1. induction l as [|[ch' c'] l IH]; cbn [map foldM]; intros hin acc sc H A B; [injection H as <-; destruct B as [B|[]]; destruct A as [->|A]; [easy|auto]|].
    inv H. apply ST in E. eapply IH; [intros x hx; apply hin; now right|exact H| |].
    - destruct E as [[-> _]|(fl & s1 & chans & n & i & h1 & h2 & h3 & ->)]; [auto|]. right. destruct (IM _ _ _ _ h1 h2) as (k & -> & R1). unfold is_trace in fl. assert (tr : c_proto c' = Trace) by (destruct (c_proto c'); try discriminate; auto). destruct (U _ _ _ _ R1 (hin (ch', c') (or_introl eq_refl)) tr) as [-> ->]. exists i, k. auto.
    - destruct E as [[-> h]|(fl & s1 & chans & n & i & h1 & h2 & h3 & ->)]; [|left; discriminate]. destruct B as [B|[B|B]]; [auto| |auto]. injection B as -> ->. exfalso. unfold is_trace in h. rewrite T in h. destruct R as (chans & r1 & r2).
      apply (h eq_refl s (map (fun '(ch, hm) => (ch, match hm with Whole k => Some (Z.of_nat k) | Bins _ => None end)) chans) (match hm with Whole k => Some (Z.of_nat k) | Bins _ => None end)); [unfold trace_mapping; apply in_map_iff; exists (s, chans); auto|apply in_map_iff; exists (ch, hm); auto]. }
  destruct (INV (g_data g) (fun x h => h) None sc H (or_introl eq_refl) (or_intror P)) as (i & k & -> & R1 & SI). exists k, i.
  assert (hm = Whole k) as ->. { destruct R as (c1 & r1 & r2), R1 as (c2 & q1 & q2). assert (c2 = c1) as -> by (pose proof (some_get _ _ _ (di_seq _ D) r1); pose proof (some_get _ _ _ (di_seq _ D) q1); congruence). pose proof (some_get _ _ _ (di_chan _ D _ _ r1) r2). pose proof (some_get _ _ _ (di_chan _ D _ _ r1) q2). congruence. }
  split; [auto|]. split; [now rewrite O2|]. unfold stored. rewrite K, O1. cbn. now rewrite Nat2Z.id. Qed.

(** ** Clusters: nothing of a module is lost or changed *)
Definition module := (RetModel.manager * nat * hardware)%type.
(** a channel that several modules acquire has the same kind of data and different indices on each of them *)
Definition ModulesApart (ms : list module) : Prop :=
  forall i j g n hw g' n' hw' s s' ch hm hm', i <> j -> nth_error ms i = Some (g, n, hw) -> nth_error ms j = Some (g', n', hw') -> Reads g s ch hm -> Reads g' s' ch hm' ->
  exists c, ProtoOf g ch c /\ ProtoOf g' ch c /\ binned c /\ forall l l', hm = Bins l -> hm' = Bins l' -> forall a, In a (map fst l) -> ~ In a (map fst l').
Lemma cluster_parts ms : forall ds0 ds, foldM (fun ds '(g, n, hw) => do new <- retrieve g n hw; merge_dataset ds new) ms ds0 = Ok ds ->
  exists news, Forall2 (fun '(g, n, hw) new => retrieve g n hw = Ok new) ms news /\ foldM merge_channel (List.concat news) ds0 = Ok ds.
Proof. induction ms as [|[[g n] hw] ms IH]; cbn [foldM]; intros ds0 ds H; [injection H as <-; exists []; split; [constructor|reflexivity]|]. inv H. inv E. apply IH in H. destruct H as (news & h1 & h2). exists (a0 :: news). split; [constructor; auto|]. cbn [List.concat]. unfold merge_dataset in E. clear - E h2. revert ds0 E. induction a0 as [|x l IH]; cbn; intros ds0 E; [injection E as ->; auto|]. inv E. rewrite E0. cbn. auto. Qed.
Lemma concat_nth {A} (ls : list (list A)) i x : nth_error (List.concat ls) i = Some x -> exists p q l, nth_error ls p = Some l /\ nth_error l q = Some x /\ i = List.length (List.concat (firstn p ls)) + q.
Proof. revert i. induction ls as [|l ls IH]; cbn [List.concat]; intros i h; [now destruct i|]. destruct (le_lt_dec (List.length l) i) as [ge|lt].
  - rewrite nth_error_app2 in h by auto. destruct (IH _ h) as (p & q & l' & h1 & h2 & h3). exists (S p), q, l'. cbn. rewrite app_length. repeat split; auto. lia.
  - rewrite nth_error_app1 in h by auto. exists 0, i, l. cbn. auto. Qed.
Theorem C55_cluster : forall ms ds, retrieve_cluster ms = Ok (Some ds) -> (forall g n hw, In (g, n, hw) ms -> Dicts g /\ Apart g) -> ModulesApart ms ->
  (forall g n hw, In (g, n, hw) ms -> exists new, retrieve g n hw = Ok new /\ forall ch d, In (ch, d) new -> exists e, In (ch, e) ds /\ forall r a t v, Value d r a t v -> Value e r a t v) /\
  (forall ch e a, In (ch, e) ds -> In a (d_index e) -> exists g n hw new d, In (g, n, hw) ms /\ retrieve g n hw = Ok new /\ In (ch, d) new /\ In a (d_index d)) /\
  (forall ch, In ch (map fst ds) <-> exists g n hw s hm, In (g, n, hw) ms /\ Reads g s ch hm) /\ NoDup (map fst ds).
Proof. intros ms ds H DA MA. unfold retrieve_cluster in H. inv H. assert (a = ds) as -> by (destruct a; [discriminate|congruence]). clear H. destruct (cluster_parts _ _ _ E) as (news & F & M).
  assert (NEW : forall p new, nth_error news p = Some new -> exists g n hw, nth_error ms p = Some (g, n, hw) /\ retrieve g n hw = Ok new /\ Dicts g /\ Apart g).
  { intros p new h. destruct (f2_nth_r _ _ _ F _ _ h) as ([[g n] hw] & h1 & h2). exists g, n, hw. destruct (DA g n hw) as [h3 h4]; [eapply nth_error_In; eauto|]. auto. }
  assert (GOT : forall g n hw new ch d, retrieve g n hw = Ok new -> Dicts g -> Apart g -> In (ch, d) new -> Wf d /\ exists s hm, Reads g s ch hm).
  { intros g n hw new ch d h D A i. destruct (retrieved _ _ _ _ h D A) as (parts & _ & _ & _ & _ & ME). split; [eapply (me_wf _ _ ME); eauto|]. destruct (C55_channels _ _ _ _ h D A) as (_ & ks & _). apply ks. apply in_map_iff. exists (ch, d). auto. }
  assert (C : Compatible (List.concat news)).
  { intros i j ch d e ne h1 h2. destruct (concat_nth _ _ _ h1) as (p & q & new & a1 & a2 & a3). destruct (concat_nth _ _ _ h2) as (p' & q' & new' & b1 & b2 & b3). destruct (NEW _ _ a1) as (g & n & hw & m1 & m2 & D & A). destruct (NEW _ _ b1) as (g' & n' & hw' & m1' & m2' & D' & A').
    assert (np : p <> p').
    { intros <-. assert (new' = new) as -> by congruence. destruct (C55_channels _ _ _ _ m2 D A) as (nd & _ & _). assert (q = q'); [|lia]. rewrite NoDup_nth_error in nd. apply nd; [rewrite map_length; apply nth_error_Some; congruence|]. rewrite !nth_error_map, a2, b2. reflexivity. }
    assert (i1 := nth_error_In _ _ a2). assert (i2 := nth_error_In _ _ b2).
    destruct (GOT _ _ _ _ _ _ m2 D A i1) as [w (s & hm & R)]. destruct (GOT _ _ _ _ _ _ m2' D' A' i2) as [w' (s' & hm' & R')].
    destruct (MA _ _ _ _ _ _ _ _ _ _ _ _ _ np m1 m1' R R') as (c & P & P' & B & _).
    assert (SH : forall g n hw new d, retrieve g n hw = Ok new -> Dicts g -> Apart g -> ProtoOf g ch c -> In (ch, d) new -> (d_reps d = None <-> repeated c = false) /\ d_trace d = None).
    { intros g0 n0 hw0 new0 d0 h D0 A0 P0 ii. destruct (GOT _ _ _ _ _ _ h D0 A0 ii) as [_ (s0 & hm0 & R0)]. destruct (got _ _ _ _ _ _ _ _ h D0 A0 R0 P0) as (i0 & dur0 & d1 & e1 & G). destruct (C55_channels _ _ _ _ h D0 A0) as (nd & _ & _). assert (e1 = d0) as -> by (pose proof (some_get _ _ _ nd ii); pose proof (some_get _ _ _ nd (go_in _ _ _ _ _ _ _ _ _ _ _ G)); congruence).
      split; [rewrite (got_shape _ _ _ _ _ _ _ _ _ _ _ _ h D0 A0 G P0); destruct (repeated c); split; congruence|eapply within_trace; eauto; apply (binned_shape c B)]. }
    destruct (SH _ _ _ _ _ m2 D A P i1) as [x1 x2]. destruct (SH _ _ _ _ _ m2' D' A' P' i2) as [y1 y2]. split; [split; [tauto|rewrite x2, y2; tauto]|].
    intros a ha hb. destruct (C55_channels _ _ _ _ m2 D A) as (_ & _ & ix). destruct (C55_channels _ _ _ _ m2' D' A') as (_ & _ & ix'). apply (ix _ _ _ _ i1 P B) in ha. apply (ix' _ _ _ _ i2 P' B) in hb. destruct ha as (s1 & l1 & r1 & ha), hb as (s2 & l2 & r2 & hb). destruct (MA _ _ _ _ _ _ _ _ _ _ _ _ _ np m1 m1' r1 r2) as (_ & _ & _ & _ & dj). exact (dj _ _ eq_refl eq_refl _ ha hb). }
  assert (W : forall ch d, In (ch, d) (List.concat news) -> Wf d). { intros ch d h. apply in_concat in h. destruct h as (new & h1 & h2). apply In_nth_error in h1. destruct h1 as [p h1]. destruct (NEW _ _ h1) as (g & n & hw & _ & m2 & D & A). apply (GOT _ _ _ _ _ _ m2 D A h2). }
  assert (ME := merge_parts _ _ C W M). split; [|split; [|split; [|apply ME]]].
  - intros g n hw h. apply In_nth_error in h. destruct h as [p h]. destruct (f2_nth _ _ _ F _ _ h) as (new & h1 & h2). exists new. split; [auto|]. intros ch d hd. destruct (me_in _ _ ME ch d) as (e & e1 & e2); [apply in_concat; exists new; split; [eapply nth_error_In; eauto|auto]|]. exists e. split; [auto|]. intros r a t v V. eapply within_value; [|eapply (me_wf _ _ ME); eauto|exact e2|exact V]. apply (W ch). apply in_concat. exists new. split; [eapply nth_error_In; eauto|auto].
  - intros ch e a h1 h2. destruct (me_from _ _ ME _ _ _ h1 h2) as (d & h3 & h4). apply in_concat in h3. destruct h3 as (new & h5 & h6). apply In_nth_error in h5. destruct h5 as [p h5]. destruct (NEW _ _ h5) as (g & n & hw & m1 & m2 & _). exists g, n, hw, new, d. split; [eapply nth_error_In; eauto|auto].
  - intros ch. rewrite (me_keys _ _ ME). split.
    + intros h. apply in_map_iff in h. destruct h as ([ch' d] & e & h). cbn [fst] in e. subst ch'. apply in_concat in h. destruct h as (new & h1 & h2). apply In_nth_error in h1. destruct h1 as [p h1]. destruct (NEW _ _ h1) as (g & n & hw & m1 & m2 & D & A). destruct (GOT _ _ _ _ _ _ m2 D A h2) as [_ (s & hm & R)]. exists g, n, hw, s, hm. split; [eapply nth_error_In; eauto|auto].
    + intros (g & n & hw & s & hm & i & R). destruct (DA _ _ _ i) as [D A]. apply In_nth_error in i. destruct i as [p i]. destruct (f2_nth _ _ _ F _ _ i) as (new & h1 & h2). destruct (C55_channels _ _ _ _ h2 D A) as (_ & ks & _). assert (K : In ch (map fst new)) by (apply ks; eauto). apply in_map_iff in K. destruct K as ([ch' d] & e & K). cbn [fst] in e. subst ch'. apply in_map_iff. exists (ch, d). split; [auto|]. apply in_concat. exists new. split; [eapply nth_error_In; eauto|auto]. Qed.

(** ** A distribution with coordinates of the user is only retrieved if there is a single count *)
Theorem C55_distribution_coords : forall g n hw ds s ch hm c coords e, retrieve g n hw = Ok ds -> Dicts g -> Apart g -> Reads g s ch hm -> ProtoOf g ch c -> c_proto c = TriggerCount -> c_mode c = DISTRIBUTION -> c_coords c = CoordDict coords -> coords <> [] -> In (ch, e) ds -> List.length (d_index e) = 1.
Proof. intros g n hw ds s ch hm c coords e H D A R P T M CC NE I. destruct (got _ _ _ _ _ _ _ _ H D A R P) as (i & dur & d & e' & G). pose proof (go_fun _ _ _ _ _ _ _ _ _ _ _ G) as F.
  assert (F' : distribution_data ch c hm (acquisitions hw (stored g) i) = Ok d). { unfold acquisition_function in F. rewrite T in F. unfold trigger_data in F. rewrite M in F. destruct (g_kind g); auto. }
  apply distribution_own in F'. destruct F' as (k & x & co & -> & bx & cc & w & rp & tr & ix & one & V). assert (e' = d) as -> by (eapply got_once; eauto; eapply alone; eauto). assert (e = d) as -> by (destruct (C55_channels _ _ _ _ H D A) as (nd & _ & _); pose proof (some_get _ _ _ nd I); pose proof (some_get _ _ _ nd (go_in _ _ _ _ _ _ _ _ _ _ _ G)); congruence).
  rewrite ix, seq_length. destruct one as [->|one]; [congruence|auto]. Qed.
(** Windows of time tags acquired with two sequencers cannot be retrieved *)
Lemma coords_len c reps hm h ev d coords : timetag_trace c reps hm h ev = Ok d -> c_coords c = CoordList coords -> exists l, hm = Bins l /\ List.length coords = List.length l /\ forall a, In a (map fst l) -> a < List.length coords.
Proof. unfold timetag_trace. intros H CC. destruct hm as [|l]; [discriminate|]. rewrite CC in H. exists l. split; [auto|]. destruct l as [|[a0 b0] l]; [discriminate|]. inv H. inv H. destruct a1; [discriminate|]. inv H. destruct (Nat.eqb_spec (List.length coords) (List.length ((a0, b0) :: l))); [|discriminate]. inv H. apply coords_binned_ok in E2. destruct E2 as (h1 & _). auto. Qed.
Theorem C55_timetag_split : forall g n hw ds s s' ch l l' c, retrieve g n hw = Ok ds -> Dicts g -> Apart g -> Reads g s ch (Bins l) -> Reads g s' ch (Bins l') -> s <> s' -> ProtoOf g ch c -> c_proto c = TimetagTrace -> False.
Proof. intros g n hw ds s s' ch l l' c H D A R R' ns P T. destruct (got _ _ _ _ _ _ _ _ H D A R P) as (i & dur & d & e & G). destruct (got _ _ _ _ _ _ _ _ H D A R' P) as (i' & dur' & d' & e' & G').
  pose proof (go_fun _ _ _ _ _ _ _ _ _ _ _ G) as F. pose proof (go_fun _ _ _ _ _ _ _ _ _ _ _ G') as F'. unfold acquisition_function in F, F'. rewrite T in F, F'. destruct (g_kind g); [discriminate|].
  destruct (timetag_own _ _ _ _ _ _ F ltac:(intros l0 e0; injection e0 as <-; eapply (di_bins _ D); eauto)) as (l1 & b1 & y1 & coords & tr1 & e1 & hb & _ & CC & _). destruct (coords_len _ _ _ _ _ _ _ F CC) as (l2 & e2 & len & lt). injection e2 as <-. destruct (coords_len _ _ _ _ _ _ _ F' CC) as (l3 & e3 & len' & lt'). injection e3 as <-.
  destruct (A _ _ _ _ _ R R' ns) as (_ & m & m' & q1 & q2 & dj). injection q1 as <-. injection q2 as <-. injection e1 as <-.
  assert (nd := di_bins _ D _ _ _ R). assert (nd' := di_bins _ D _ _ _ R'). assert (NN : NoDup (map fst l ++ map fst l')) by (apply nodup_app'; auto).
  assert (IN : incl (map fst l ++ map fst l') (List.seq 0 (List.length coords))) by (intros x hx; apply in_seq; apply in_app_iff in hx; destruct hx as [hx|hx]; [apply lt in hx|apply lt' in hx]; lia).
  pose proof (NoDup_incl_length NN IN) as LE. rewrite app_length, !map_length, seq_length in LE. destruct l; [discriminate hb|]. cbn in *. lia. Qed.
