(** The retrieved dataset is the merge of the arrays of all channels. *)
From Coq Require Import FinFun.
From Verif Require Import Base AcqChanModel NumericModel JsonModel PathModel QbModel RetModel RetSpec RetProps RetOwn RetWhole RetMerge.
Local Open Scope string_scope.
Local Open Scope list_scope.
Local Open Scope nat_scope.

(** ** Items: sequencer, channel, mapping *)
Definition items (g : manager) : list (string * string * hwmap) := flat_map (fun e => map (fun x => (fst e, fst x, snd x)) (snd e)) (g_mapping g).
Lemma items_in g s ch hm : In (s, ch, hm) (items g) <-> Reads g s ch hm.
Proof. unfold items, Reads. rewrite in_flat_map. split.
  - intros ([s' chans] & h1 & h2). apply in_map_iff in h2. destruct h2 as ([c m] & e & h2). cbn in e. injection e as -> -> ->. eauto.
  - intros (chans & h1 & h2). exists (s, chans). split; [auto|]. apply in_map_iff. exists (ch, hm). auto. Qed.
Lemma nodup_flat {A B} (f : A -> list B) (key : A -> string) (kb : B -> string) l : NoDup (map key l) -> (forall x, In x l -> NoDup (f x)) -> (forall x y, In x l -> In y (f x) -> kb y = key x) -> NoDup (flat_map f l).
Proof. induction l as [|x l IH]; cbn; intros nd h1 h2; [constructor|]. inversion nd as [|? ? n nd']; subst. apply nodup_app'; [auto|apply IH; auto|]. intros y hy hy'. apply in_flat_map in hy'. destruct hy' as (x' & i1 & i2). apply n. apply in_map_iff. exists x'. split; [|auto]. rewrite <- (h2 x' y), <- (h2 x y); auto. Qed.
Lemma items_nodup g : Dicts g -> NoDup (map (fun e => (fst (fst e), snd (fst e))) (items g)).
Proof. intros D. unfold items. assert (e : forall l, map (fun e => (fst (fst e), snd (fst e))) (flat_map (fun e : string * list (string * hwmap) => map (fun x => (fst e, fst x, snd x)) (snd e)) l) = flat_map (fun e => map (fun c => (fst e, c)) (map fst (snd e))) l).
  { induction l as [|x l IH]; [auto|]. cbn [flat_map]. rewrite map_app, IH. f_equal. rewrite !map_map. reflexivity. }
  rewrite e. apply (nodup_flat _ fst fst); [apply D| |].
  - intros [s chans] h. cbn. apply Injective_map_NoDup; [intros x y q; now injection q|]. eapply (di_chan _ D); eauto.
  - intros [s chans] y h hy. apply in_map_iff in hy. destruct hy as (c & <- & _). reflexivity. Qed.

(** what one item gives *)
Definition Part (g : manager) (hw : hardware) (st : option (nat * string)) (it : string * string * hwmap) (p : string * darray) : Prop :=
  let '(s, ch, hm) := it in fst p = ch /\ exists i, g_seq g s = Some i /\ retrieve_channel g hw s i (acquisitions hw st i) ch hm = Ok (snd p).
Lemma seq_parts g hw st s i chans : g_seq g s = Some i -> forall ds ds', foldM (fun ds '(ch, hm) => do d <- retrieve_channel g hw s i (acquisitions hw st i) ch hm; merge_channel ds (ch, d)) chans ds = Ok ds' ->
  exists parts, Forall2 (Part g hw st) (map (fun x => (s, fst x, snd x)) chans) parts /\ foldM merge_channel parts ds = Ok ds'.
Proof. intros hs. induction chans as [|[ch hm] chans IH]; cbn [foldM map]; intros ds ds' H; [injection H as <-; exists []; split; [constructor|reflexivity]|].
  inv H. inv E. destruct (IH _ _ H) as (parts & h1 & h2). exists ((ch, a0) :: parts). split; [constructor; [split; [auto|exists i; auto]|auto]|]. cbn [foldM]. rewrite E. exact h2. Qed.
Lemma retrieve_parts g hw st l : forall ds ds', foldM (retrieve_seq g hw st) l ds = Ok ds' ->
  exists parts, Forall2 (Part g hw st) (flat_map (fun e => map (fun x => (fst e, fst x, snd x)) (snd e)) l) parts /\ foldM merge_channel parts ds = Ok ds'.
Proof. induction l as [|[s chans] l IH]; cbn [foldM flat_map]; intros ds ds' H; [injection H as <-; exists []; split; [constructor|reflexivity]|].
  inv H. unfold retrieve_seq in E. destruct (g_seq g s) as [i|] eqn:S; [|discriminate]. destruct (seq_parts _ _ _ _ _ _ S _ _ E) as (p1 & h1 & h2). destruct (IH _ _ H) as (p2 & h3 & h4). exists (p1 ++ p2). split; [now apply Forall2_app|].
  clear - h2 h4. revert ds h2. induction p1 as [|x p1 IH]; cbn; intros ds h2; [injection h2 as ->; auto|]. inv h2. rewrite E. cbn. auto. Qed.
Lemma parts_retrieve g hw st l : forall ds ds' parts, Forall2 (Part g hw st) (flat_map (fun e => map (fun x => (fst e, fst x, snd x)) (snd e)) l) parts -> foldM merge_channel parts ds = Ok ds' -> (forall s chans, In (s, chans) l -> g_seq g s <> None) -> foldM (retrieve_seq g hw st) l ds = Ok ds'.
Proof. induction l as [|[s chans] l IH]; cbn [foldM flat_map]; intros ds ds' parts F H Q; [inversion F; subst; auto|].
  apply Forall2_app_inv_l in F. destruct F as (p1 & p2 & f1 & f2 & ->). apply foldM_app_ok in H. destruct H as (m & h1 & h2). assert (E : retrieve_seq g hw st ds (s, chans) = Ok m); [|rewrite E; cbn; eapply IH; eauto; intros; eapply Q; right; eauto].
  unfold retrieve_seq. destruct (g_seq g s) as [i|] eqn:S; [|exfalso; eapply Q; [left; reflexivity|auto]]. clear - f1 h1 S. cbn [fst snd] in f1. revert ds p1 f1 h1. induction chans as [|[ch hm] chans IH]; cbn [map foldM]; intros ds p1 f1 h1; inversion f1 as [|? y ? l' x1 x2]; subst; [auto|].
  cbn [foldM] in h1. inv h1. destruct y as [c d]. unfold Part in x1. cbn [fst snd] in x1. destruct x1 as (-> & i' & si & x1). assert (i' = i) as -> by congruence. cbn [fst snd] in x1. rewrite x1. cbn [bind]. rewrite E. cbn [bind]. eauto. Qed.

(** ** Every array is well formed; its shape follows from the channel *)
Definition repeated (c : chandata) : bool := match c_proto c with TimetagTrace => true | _ => is_binned_append (c_proto c) (c_mode c) end.
Definition traced (c : chandata) : bool := match c_proto c with TimetagTrace | Trace => true | _ => false end.
Record Kind (c : chandata) (reps : nat) (hm : hwmap) (d : darray) : Prop := {
  ki_wf : Wf d; ki_reps : d_reps d = if repeated c then Some reps else None; ki_trace : d_trace d = None <-> traced c = false;
  ki_index : forall l, hm = Bins l -> c_proto c <> Trace -> d_index d = map fst l }.
Lemma function_kind g ch c dur s i hm h hw d : acquisition_function g ch c dur s i hm h hw = Ok d -> (forall l, hm = Bins l -> NoDup (map fst l)) -> Kind c (g_reps g) hm d.
Proof. intros H nd.
  assert (BIN : forall f, traced c = false -> binned_data f c (g_reps g) hm = Ok d -> Kind c (g_reps g) hm d).
  { intros f tr B. apply binned_own in B; [|auto]. destruct B as (l & coords & -> & cc & bi & O). constructor.
    - apply O.
    - unfold repeated. unfold traced in tr. rewrite (ow_reps _ _ _ _ _ _ O). destruct (c_proto c); try discriminate; reflexivity.
    - rewrite (ow_trace _ _ _ _ _ _ O). tauto.
    - intros l' e _. injection e as <-. apply O. }
  assert (TRG : forall mul, c_proto c = TriggerCount \/ c_proto c = DualThresholdedTriggerCount -> trigger_data mul ch c (g_reps g) hm h = Ok d -> Kind c (g_reps g) hm d).
  { intros mul pr T. unfold trigger_data in T. assert (tr : traced c = false) by (unfold traced; now destruct pr as [-> | ->]). destruct (c_mode c) eqn:M; try discriminate T; try (eapply BIN; eauto; fail).
    apply distribution_own in T. destruct T as (k & a & coords & -> & _ & _ & w & r & t & _). constructor; [auto| | |intros; discriminate]; [rewrite r; unfold repeated; destruct pr as [-> | ->]; rewrite M; reflexivity|rewrite t; tauto]. }
  unfold acquisition_function in H. unfold traced in *. destruct (g_kind g) eqn:K, (c_proto c) eqn:P; try discriminate H; try (eapply BIN; [reflexivity|exact H]); try (eapply TRG; [auto|exact H]); try (destruct dur; [|discriminate H]; eapply BIN; [reflexivity|exact H]).
  - apply scope_own in H. destruct H as (n & k & a & coords & _ & _ & -> & _ & _ & w & ix & r & t & _). constructor; [auto|rewrite r; unfold repeated; rewrite P; now destruct (c_mode c)|unfold traced; rewrite P, t; split; discriminate|intros; discriminate].
  - apply digital_own in H. destruct H as (z & n & coords & _ & _ & cc & w & ix & r & t & _). constructor; [auto|rewrite r; unfold repeated; rewrite P; now destruct (c_mode c)|unfold traced; rewrite P, t; split; discriminate|]. intros l _ n'. now rewrite P in n'.
  - apply timetag_own in H; [|auto]. destruct H as (l & b0 & a & coords & traces & -> & _ & _ & _ & _ & w & ix & r & (n & t & _) & _). constructor; [auto|rewrite r; unfold repeated; now rewrite P|unfold traced; rewrite P, t; split; discriminate|]. intros l' e _. now injection e as <-. Qed.

Lemma channel_kind g hw s i h ch hm d : retrieve_channel g hw s i h ch hm = Ok d -> Dicts g -> Reads g s ch hm ->
  exists c dur, ProtoOf g ch c /\ In (s, dur) (g_durations g) /\ indices_exist h hm = Ok tt /\ acquisition_function g ch c dur s i hm h hw = Ok d /\ Kind c (g_reps g) hm d.
Proof. unfold retrieve_channel. intros H D R. inv H. inv H. inv H. apply item_ok, get_some in E. apply item_ok, get_some in E1. exists a, a1. split; [exact E|]. split; [exact E1|]. split; [now destruct a0|]. split; [auto|]. eapply function_kind; eauto. intros l ->. eapply (di_bins _ D); eauto. Qed.
Lemma proto_of_unique g ch c c' : Dicts g -> ProtoOf g ch c -> ProtoOf g ch c' -> c = c'.
Proof. intros D h h'. apply (some_get _ _ _ (di_data _ D)) in h. apply (some_get _ _ _ (di_data _ D)) in h'. congruence. Qed.
Lemma parts_in g hw st parts : Forall2 (Part g hw st) (items g) parts -> Dicts g -> forall j ch d, nth_error parts j = Some (ch, d) ->
  exists s hm i c dur, nth_error (items g) j = Some (s, ch, hm) /\ Reads g s ch hm /\ g_seq g s = Some i /\ ProtoOf g ch c /\ In (s, dur) (g_durations g) /\ indices_exist (acquisitions hw st i) hm = Ok tt /\ acquisition_function g ch c dur s i hm (acquisitions hw st i) hw = Ok d /\ Kind c (g_reps g) hm d.
Proof. intros F D j ch d h. destruct (f2_nth_r _ _ _ F _ _ h) as ([[s ch'] hm] & h1 & h2). cbn in h2. destruct h2 as (<- & i & h2 & h3). exists s, hm, i. assert (R : Reads g s ch hm) by (apply items_in; eapply nth_error_In; eauto).
  destruct (channel_kind _ _ _ _ _ _ _ _ h3 D R) as (c & dur & a1 & a2 & a3 & a4 & a5). exists c, dur. repeat (split; [assumption|]). assumption. Qed.
Lemma parts_compatible g hw st parts : Forall2 (Part g hw st) (items g) parts -> Dicts g -> Apart g -> Compatible parts.
Proof. intros F D A i j ch d e n h1 h2. destruct (parts_in _ _ _ _ F D _ _ _ h1) as (s & hm & x & c & du & q1 & q2 & _ & q3 & _ & _ & _ & K). destruct (parts_in _ _ _ _ F D _ _ _ h2) as (s' & hm' & x' & c' & du' & p1 & p2 & _ & p3 & _ & _ & _ & K').
  assert (c' = c) as -> by (eapply proto_of_unique; eauto). assert (ns : s <> s').
  { intros <-. apply n. pose proof (items_nodup _ D) as nd. rewrite NoDup_nth_error in nd. apply nd; [rewrite map_length; apply nth_error_Some; congruence|]. rewrite !nth_error_map, q1, p1. reflexivity. }
  destruct (A _ _ _ _ _ q2 p2 ns) as (nt & l & l' & -> & -> & dj). split.
  - split; [rewrite (ki_reps _ _ _ _ K), (ki_reps _ _ _ _ K'); tauto|rewrite (ki_trace _ _ _ _ K), (ki_trace _ _ _ _ K'); tauto].
  - intros a. rewrite (ki_index _ _ _ _ K _ eq_refl (nt c q3)), (ki_index _ _ _ _ K' _ eq_refl (nt c q3)). apply dj. Qed.

(** ** The result *)
Lemma stored_ok g n st : store_scope g n = Ok st -> st = stored g.
Proof. unfold store_scope, stored. destruct (g_kind g), (g_scope g) as [[i k]|]; try (destruct (Nat.ltb i n)); intros h; try discriminate; now injection h as <-. Qed.
Lemma retrieved g n hw ds : retrieve g n hw = Ok ds -> Dicts g -> Apart g ->
  exists parts, Forall2 (Part g hw (stored g)) (items g) parts /\ Compatible parts /\ (forall ch d, In (ch, d) parts -> Wf d) /\ foldM merge_channel parts [] = Ok ds /\ Merged parts ds.
Proof. unfold retrieve. intros H D A. inv H. inv H. apply stored_ok in E. subst a. destruct (retrieve_parts _ _ _ _ _ _ H) as (parts & h1 & h2). exists parts. fold (items g) in h1. split; [auto|]. assert (C := parts_compatible _ _ _ _ h1 D A). split; [auto|].
  assert (W : forall ch d, In (ch, d) parts -> Wf d) by (intros ch d h; apply In_nth_error in h; destruct h as [j h]; destruct (parts_in _ _ _ _ h1 D _ _ _ h) as (?&?&?&?&?&?&?&?&?&?&?&?&K); apply K).
  split; [auto|]. split; [auto|]. now apply merge_parts. Qed.
(** the array of one channel and its place in the dataset *)
Record Got (g : manager) (hw : hardware) (ds : dataset) (s ch : string) (hm : hwmap) (i : nat) (c : chandata) (dur : option Z) (d e : darray) : Prop := {
  go_seq : g_seq g s = Some i; go_dur : In (s, dur) (g_durations g); go_exist : indices_exist (acquisitions hw (stored g) i) hm = Ok tt;
  go_fun : acquisition_function g ch c dur s i hm (acquisitions hw (stored g) i) hw = Ok d; go_kind : Kind c (g_reps g) hm d;
  go_in : In (ch, e) ds; go_within : Within d e; go_wf : Wf e }.
Lemma got g n hw ds s ch hm c : retrieve g n hw = Ok ds -> Dicts g -> Apart g -> Reads g s ch hm -> ProtoOf g ch c -> exists i dur d e, Got g hw ds s ch hm i c dur d e.
Proof. intros H D A R P. destruct (retrieved _ _ _ _ H D A) as (parts & F & C & W & M & ME). assert (R' := R). apply items_in, In_nth_error in R'. destruct R' as [j hj]. destruct (f2_nth _ _ _ F _ _ hj) as ([ch' d] & p1 & p2). cbn [Part fst snd] in p2. destruct p2 as (-> & i & hs & hr).
  destruct (channel_kind _ _ _ _ _ _ _ _ hr D R) as (c' & dur & a1 & a2 & a3 & a4 & a5). assert (c' = c) as -> by (eapply proto_of_unique; eauto). destruct (me_in _ _ ME ch d) as (e & e1 & e2); [eapply nth_error_In; eauto|]. exists i, dur, d, e. constructor; auto. eapply (me_wf _ _ ME); eauto. Qed.
Lemma got_shape g n hw ds s ch hm i c dur d e : retrieve g n hw = Ok ds -> Dicts g -> Apart g -> Got g hw ds s ch hm i c dur d e -> ProtoOf g ch c -> d_reps e = if repeated c then Some (g_reps g) else None.
Proof. intros H D A G P. destruct (retrieved _ _ _ _ H D A) as (parts & F & C & W & M & ME). destruct (me_size _ _ ME _ _ (go_in _ _ _ _ _ _ _ _ _ _ _ G)) as [(d1 & k1 & k2) _].
  apply In_nth_error in k1. destruct k1 as [j k1]. destruct (parts_in _ _ _ _ F D _ _ _ k1) as (s1 & hm1 & i1 & c1 & dur1 & _ & _ & _ & p1 & _ & _ & _ & K). assert (c1 = c) as -> by (eapply proto_of_unique; eauto).
  pose proof (ki_reps _ _ _ _ K) as r1. pose proof (ki_reps _ _ _ _ (go_kind _ _ _ _ _ _ _ _ _ _ _ G)) as r2. pose proof (go_within _ _ _ _ _ _ _ _ _ _ _ G) as w. pose proof (wi_reps _ _ w) as w1. pose proof (wi_alike _ _ w) as [w2 _]. unfold n_reps in *. rewrite r1 in k2. rewrite r2 in w1, w2. destruct (repeated c), (d_reps e) as [r|]; try (f_equal; lia); try (exfalso; destruct w2 as [w2 w2']; try (specialize (w2 eq_refl)); try (specialize (w2' eq_refl)); discriminate); reflexivity. Qed.
(** a channel read once is not changed *)
Lemma got_once g n hw ds s ch hm c i dur d e : retrieve g n hw = Ok ds -> Dicts g -> Apart g -> Reads g s ch hm -> ProtoOf g ch c -> Got g hw ds s ch hm i c dur d e -> (forall s' hm', Reads g s' ch hm' -> s' = s) -> e = d.
Proof. intros H D A R P G U. destruct (retrieved _ _ _ _ H D A) as (parts & F & C & W & M & ME).
  assert (IX : forall j j' d1 d2, nth_error parts j = Some (ch, d1) -> nth_error parts j' = Some (ch, d2) -> j = j').
  { intros j j' d1 d2 h1 h2. destruct (parts_in _ _ _ _ F D _ _ _ h1) as (s1 & hm1 & _ & _ & _ & q1 & q2 & _). destruct (parts_in _ _ _ _ F D _ _ _ h2) as (s2 & hm2 & _ & _ & _ & p1 & p2 & _). apply U in q2. apply U in p2. subst. pose proof (items_nodup _ D) as nd. rewrite NoDup_nth_error in nd. apply nd; [rewrite map_length; apply nth_error_Some; congruence|]. rewrite !nth_error_map, q1, p1. reflexivity. }
  assert (R' := R). apply items_in, In_nth_error in R'. destruct R' as [j hj]. destruct (f2_nth _ _ _ F _ _ hj) as ([ch' d'] & p1 & p2). cbn [Part fst snd] in p2. destruct p2 as (-> & i' & hs & hr). assert (i' = i) as -> by (rewrite (go_seq _ _ _ _ _ _ _ _ _ _ _ G) in hs; congruence).
  destruct (channel_kind _ _ _ _ _ _ _ _ hr D R) as (c' & dur' & a1 & a2 & a3 & a4 & a5). assert (c' = c) as -> by (eapply proto_of_unique; eauto). assert (dur' = dur) as -> by (apply (some_get _ _ _ (di_durations _ D)) in a2; pose proof (some_get _ _ _ (di_durations _ D) (go_dur _ _ _ _ _ _ _ _ _ _ _ G)); congruence).
  pose proof (go_fun _ _ _ _ _ _ _ _ _ _ _ G) as gf. assert (d' = d) as -> by congruence.
  assert (I : In (ch, d) ds).
  { apply (me_once _ _ ME); [eapply nth_error_In; eauto| |].
    - intros d2 h. apply In_nth_error in h. destruct h as [j2 h]. assert (j2 = j) as -> by (eapply IX; eauto). congruence.
    - apply Nat.nlt_ge. intros lt. clear - IX lt. revert IX lt. induction parts as [|[k x] parts IH]; cbn; intros IX lt; [lia|]. destruct (String.eqb_spec ch k) as [<-|nk]; cbn in lt.
      + destruct (filter (fun x => String.eqb ch (fst x)) parts) as [|[k y] r] eqn:E; [cbn in lt; lia|]. assert (Y : In (k, y) (filter (fun x => String.eqb ch (fst x)) parts)) by (rewrite E; cbn; auto). apply filter_In in Y. destruct Y as [Y ek]. cbn [fst] in ek. apply String.eqb_eq in ek. subst k. apply In_nth_error in Y. destruct Y as [j Y]. specialize (IX 0 (S j) x y eq_refl Y). discriminate.
      + apply IH; [|auto]. intros j j' d1 d2 h1 h2. specialize (IX (S j) (S j') d1 d2 h1 h2). lia. }
  apply (some_get _ _ _ (me_nodup _ _ ME)) in I. pose proof (some_get _ _ _ (me_nodup _ _ ME) (go_in _ _ _ _ _ _ _ _ _ _ _ G)). congruence. Qed.
