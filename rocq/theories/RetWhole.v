(** The arrays of traces and distributions. *)
From Verif Require Import Base AcqChanModel NumericModel JsonModel PathModel QbModel RetModel RetSpec RetProps RetOwn.
Local Open Scope string_scope.
Local Open Scope list_scope.
Local Open Scope nat_scope.

Lemma nonbinned_ok coords n cs : coords_nonbinned coords n = Ok cs -> (coords = [] \/ n = 1) /\ (forall k l, In (k, l) cs <-> exists v, In (k, v) coords /\ l = [CUser v]) /\ (forall k l, In (k, l) cs -> List.length l = n).
Proof. assert (F : forall k l, In (k, l) (map (fun '(k, v) => (k, [CUser v])) coords) <-> exists v, In (k, v) coords /\ l = [CUser v]).
  { intros k l. rewrite in_map_iff. split; [intros ([k' v] & e & h); injection e as -> <-; eauto|intros (v & h & ->); exists (k, v); auto]. }
  intros H. assert (X : cs = map (fun '(k, v) => (k, [CUser v])) coords /\ (coords = [] \/ n = 1)).
  { unfold coords_nonbinned in H. destruct coords as [|x r]; [injection H as <-; auto|]. destruct (Nat.eqb_spec n 1) as [->|]; [|discriminate]. assert (H' := f_equal (fun r => match r with Ok l => l | Err _ => [] end) H). cbv beta iota in H'. auto. }
  destruct X as [-> o]. split; [auto|]. split; [exact F|]. intros k l h. apply F in h. destruct h as (v & h & ->). destruct o as [->| ->]; [destruct h|reflexivity]. Qed.

(** ** Traces *)
Lemma single_wf' n cells cs : List.length cells = n -> (forall k l, In (k, l) cs -> List.length l = 1) -> Wf {| d_reps := None; d_index := [0]; d_trace := Some n; d_vals := [[cells]]; d_coord := cs |}.
Proof. intros h1 h2. constructor; cbn.
  - repeat constructor. intros [].
  - reflexivity.
  - intros row [<-|[]]. reflexivity.
  - intros row cell [<-|[]] [<-|[]]. exact h1.
  - exact h2. Qed.
Definition paths (inputs : option (list Z)) : nat * nat := match inputs with Some [2; 3]%Z => (2, 3) | _ => (0, 1) end.
Lemma paths_def {A} (f : nat -> A) inputs : match inputs with Some [2; 3]%Z => (f 2, f 3) | _ => (f 0, f 1) end = (f (fst (paths inputs)), f (snd (paths inputs))).
Proof. unfold paths. destruct inputs as [[|[|x|] [|[|y|] [|z l]]]|]; try reflexivity; repeat (match goal with |- context [match ?p with xH => _ | _ => _ end] => destruct p end; try reflexivity). Qed.
Lemma firstn_nth {A} n (l : list A) t : t < n -> nth_error (firstn n l) t = nth_error l t.
Proof. revert l t. induction n as [|n IH]; intros l t h; [lia|]. destruct l as [|x l]; [now destruct t|]. destruct t; cbn; [auto|]. apply IH. lia. Qed.
Lemma combine_nth' {A B} (l : list A) : forall (l' : list B) t, List.length l = List.length l' -> nth_error (combine l l') t = match nth_error l t, nth_error l' t with Some x, Some y => Some (x, y) | _, _ => None end.
Proof. induction l as [|x l IH]; intros [|y l'] t h; try discriminate; destruct t; cbn; auto. Qed.
Lemma scope_own c dur inputs dummy hm h d : scope_data c dur inputs dummy hm h = Ok d ->
  exists n k a coords, dur = Some (Z.of_nat n) /\ (Z.of_nat n <= 16384)%Z /\ hm = Whole k /\ c_coords c = CoordDict coords /\ RetModel.get (acq_name k) h = Some a /\
    Wf d /\ d_index d = [0] /\ d_reps d = None /\ d_trace d = Some n /\ (forall k l, In (k, l) (d_coord d) <-> exists v, In (k, v) coords /\ l = [CUser v]) /\
    ((dummy = false \/ exists x, nth_error (scope_path a (fst (paths inputs))) 0 = Some x) -> forall t, t < n -> exists x y, nth_error (scope_path a (fst (paths inputs))) t = Some x /\ nth_error (scope_path a (snd (paths inputs))) t = Some y /\ Value d 0 0 t (Some (x, y))).
Proof. unfold scope_data. intros H. destruct dur as [z|]; [|discriminate]. destruct (Z.ltb_spec z 0); [discriminate|]. destruct (Z.ltb_spec 16384 z); [discriminate|]. cbn [orb] in H. destruct hm as [k|]; [|discriminate]. destruct (c_coords c) as [|coords] eqn:C; [discriminate|]. inv H. apply item_ok in E.
  rewrite (paths_def (scope_path a) inputs) in H. set (p := scope_path a (fst (paths inputs))) in *. set (q := scope_path a (snd (paths inputs))) in *. exists (Z.to_nat z), k, a, coords. set (n := Z.to_nat z) in *. split; [unfold n; rewrite Z2Nat.id by auto; reflexivity|]. split; [lia|]. do 3 (split; [auto|]).
  inv H. rename a0 into cells. destruct (Nat.eqb_spec (List.length cells) n) as [ln|]; [|discriminate]. inv H. injection H as <-. apply nonbinned_ok in E1. destruct E1 as (_ & e1 & e2). split; [now apply single_wf'|]. cbn. do 3 (split; [auto|]). split; [auto|].
  intros D t ht. assert (X : exists x, nth_error p 0 = Some x \/ dummy = false) by (destruct D as [->|[x D]]; [exists 0%Q; auto|exists x; auto]). clear D.
  assert (N0 : n <> 0) by lia.
  assert (R : Nat.eqb (List.length (firstn n p)) (List.length (firstn n q)) = true /\ cells = map (fun '(x, y) => Some (x, y)) (combine (firstn n p) (firstn n q))).
  { destruct (firstn n p) as [|x1 p1] eqn:F1; destruct (firstn n q) as [|y1 q1] eqn:F2.
    - exfalso. destruct dummy.
      + destruct X as [x [X|X]]; [|discriminate]. destruct n; [lia|]. destruct p; [discriminate|discriminate].
      + injection E0 as <-. cbn in ln. lia.
    - destruct (Nat.eqb (List.length (@nil Q)) (List.length (y1 :: q1))); [injection E0 as <-; auto|discriminate].
    - destruct (Nat.eqb (List.length (x1 :: p1)) (List.length (@nil Q))); [injection E0 as <-; auto|discriminate].
    - destruct (Nat.eqb (List.length (x1 :: p1)) (List.length (y1 :: q1))); [injection E0 as <-; auto|discriminate]. }
  destruct R as [R ->]. apply Nat.eqb_eq in R. rewrite map_length, combine_length, <- R, Nat.min_id in ln. 
  assert (G1 : nth_error (firstn n p) t <> None) by (apply nth_error_Some; lia). assert (G2 : nth_error (firstn n q) t <> None) by (apply nth_error_Some; lia).
  destruct (nth_error (firstn n p) t) as [x|] eqn:F1; [|easy]. destruct (nth_error (firstn n q) t) as [y|] eqn:F2; [|easy]. exists x, y. rewrite firstn_nth in F1, F2 by auto. split; [auto|]. split; [auto|].
  eexists 0, _, _. cbn. split; [auto|]. split; [auto|]. split; [auto|]. rewrite nth_error_map, combine_nth' by auto. rewrite !firstn_nth by auto. now rewrite F1, F2. Qed.
Lemma digital_own c dur samples d : digital_trace c dur samples = Ok d ->
  exists z n coords, dur = Some z /\ n = Z.to_nat z /\ c_coords c = CoordDict coords /\ Wf d /\ d_index d = [0] /\ d_reps d = None /\ d_trace d = Some n /\ (forall k l, In (k, l) (d_coord d) <-> exists v, In (k, v) coords /\ l = [CUser v]) /\
    forall t, t < n -> exists x, nth_error samples t = Some x /\ Value d 0 0 t (Some (x, 0%Q)).
Proof. unfold digital_trace. intros H. destruct (c_coords c) as [|coords]; [discriminate|]. destruct dur as [z|]; [|discriminate]. destruct (Nat.eqb_spec (List.length (firstn (Z.to_nat z) samples)) (Z.to_nat z)) as [ln|]; [|discriminate]. inv H. injection H as <-.
  exists z, (Z.to_nat z), coords. do 3 (split; [auto|]). apply nonbinned_ok in E. destruct E as (_ & e1 & e2). split; [apply single_wf'; [now rewrite map_length|auto]|]. cbn. do 3 (split; [auto|]). split; [auto|]. intros t ht.
  assert (G1 : nth_error (firstn (Z.to_nat z) samples) t <> None) by (apply nth_error_Some; lia). destruct (nth_error (firstn (Z.to_nat z) samples) t) as [x|] eqn:F; [|easy]. exists x. split; [rewrite firstn_nth in F; auto|]. eexists 0, _, _. cbn. split; [auto|]. split; [auto|]. split; [auto|]. rewrite nth_error_map, F. reflexivity. Qed.

(** ** Distributions *)
Lemma total_split runs : forall n j, (total runs j (S n) == runs j + total runs (S j) n)%Q.
Proof. intros. cbn. reflexivity. Qed.
Lemma from_cum_spec runs : forall l k, (forall j x, nth_error l j = Some x -> match x with Some q => (q == total runs (k + j)%nat (List.length l - j)%nat)%Q | None => (runs (k + j)%nat == 0)%Q end) ->
  let '(last, res) := from_cumulative k l in
  (last == total runs k (List.length l))%Q /\ (forall c v, In (c, v) res -> exists j, c = S j /\ k <= j < k + List.length l /\ (v == runs j)%Q /\ ~ (runs j == 0)%Q) /\
  (forall j, k <= j < k + List.length l -> ~ (runs j == 0)%Q -> exists v, In (S j, v) res) /\ (forall i c v c' v' , nth_error res i = Some (c, v) -> nth_error res (S i) = Some (c', v') -> c < c').
Proof. induction l as [|x l IH]; intros k H.
  - cbn. split; [reflexivity|]. split; [intros c v []|]. split; [intros; lia|]. intros i. destruct i; discriminate.
  - cbn [from_cumulative]. specialize (IH (S k)). destruct (from_cumulative (S k) l) as [last res].
    destruct IH as (i1 & i2 & i3 & i4). { intros j y h. specialize (H (S j) y h). cbn [List.length] in H. replace (k + S j) with (S k + j) in H by lia. exact H. }
    assert (H0 := H 0 x eq_refl). rewrite Nat.add_0_r in H0. cbn [List.length] in H0. rewrite Nat.sub_0_r in H0. cbn [total] in H0.
    assert (LOW : (forall c v, In (c, v) res -> exists j, c = S j /\ k <= j < k + List.length (x :: l) /\ (v == runs j)%Q /\ ~ (runs j == 0)%Q)).
    { intros c v h. destruct (i2 _ _ h) as (j & q1 & q2 & q3). exists j. cbn [List.length]. split; [auto|]. split; [lia|auto]. }
    assert (Z0 : forall last' : Q, (last' == last)%Q -> (runs k == 0)%Q -> (last' == total runs k (List.length (x :: l)))%Q).
    { intros last' e z. cbn [List.length total]. rewrite e, z, i1. ring. }
    assert (UP : (runs k == 0)%Q -> forall j, k <= j < k + List.length (x :: l) -> ~ (runs j == 0)%Q -> exists v, In (S j, v) res).
    { intros z j hj nz. cbn [List.length] in hj. destruct (Nat.eq_dec j k) as [->|]; [contradiction|]. apply i3; [lia|auto]. }
    destruct x as [q|].
    + destruct (Qeq_bool last q) eqn:E.
      * apply Qeq_bool_iff in E. assert (z : (runs k == 0)%Q). { rewrite <- E, i1 in H0. setoid_replace (runs k) with ((runs k + total runs (S k) (List.length l)) - total runs (S k) (List.length l))%Q by ring. rewrite <- H0. ring. }
        split; [apply Z0; [reflexivity|auto]|]. split; [exact LOW|]. split; [exact (UP z)|exact i4].
      * apply Qeq_bool_neq in E. assert (nz : ~ (runs k == 0)%Q) by (intros z; apply E; rewrite H0, i1, z; ring).
        split; [cbn [List.length total]; exact H0|]. split; [|split].
        -- intros c v [h|h]; [|auto]. injection h as <- <-. exists k. split; [auto|]. cbn [List.length]. split; [lia|]. split; [rewrite H0, i1; ring|auto].
        -- intros j hj n0. cbn [List.length] in hj. destruct (Nat.eq_dec j k) as [->|]; [exists (q - last)%Q; cbn; auto|]. destruct (i3 j) as [v hv]; [lia|auto|]. exists v. cbn; auto.
        -- intros i c v c' v' h1 h2. destruct i as [|i]; [|exact (i4 _ _ _ _ _ h1 h2)]. injection h1 as <- <-. apply (nth_error_In res 0) in h2. destruct (i2 _ _ h2) as (j & -> & hj & _). lia.
    + split; [apply Z0; [reflexivity|auto]|]. split; [exact LOW|]. split; [exact (UP H0)|exact i4]. Qed.
Lemma distribution_own ch c hm h d : distribution_data ch c hm h = Ok d ->
  exists k a coords, hm = Whole k /\ bin_data h k = Ok a /\ c_coords c = CoordDict coords /\ Wf d /\ d_reps d = None /\ d_trace d = None /\
    let res := snd (from_cumulative 0 (avg_cnt a)) in d_index d = List.seq 0 (List.length res) /\ (coords = [] \/ List.length res = 1) /\
    forall p c v, nth_error res p = Some (c, v) -> Value d 0 p 0 (Some (v, 0%Q)) /\ Coordinate d ("counts_" ++ ch) p (CCount c).
Proof. unfold distribution_data. intros H. destruct hm as [k|]; [|discriminate]. inv H. destruct (c_coords c) as [|coords] eqn:C; [discriminate|]. inv H. injection H as <-. exists k, a, coords. do 3 (split; [auto|]). set (res := snd (from_cumulative 0 (avg_cnt a))) in *. apply nonbinned_ok in E0. destruct E0 as (e1 & _ & e3).
  assert (W : Wf {| d_reps := None; d_index := List.seq 0 (List.length res); d_trace := None; d_vals := [map (fun e : nat * Q => [Some (snd e, 0%Q)]) res]; d_coord := ("counts_" ++ ch, map (fun e => CCount (fst e)) res)%string :: a0 |}).
  { constructor; cbn.
    - apply seq_NoDup.
    - reflexivity.
    - intros row [<-|[]]. now rewrite map_length, seq_length.
    - intros row cell [<-|[]] hc. apply in_map_iff in hc. destruct hc as (e & <- & _). reflexivity.
    - intros k0 l [hk|hk]; rewrite seq_length; [injection hk as _ <-; now rewrite map_length|eauto]. }
  split; [exact W|]. cbn. do 3 (split; [auto|]). split; [auto|]. intros p n v hp. assert (lp : p < List.length res) by (apply nth_error_Some; congruence).
  assert (sp : nth_error (List.seq 0 (List.length res)) p = Some p) by (rewrite (nth_error_nth' _ 0) by (now rewrite seq_length); rewrite seq_nth by auto; reflexivity). split.
  - eexists p, _, _. cbn. split; [exact sp|]. split; [reflexivity|]. rewrite nth_error_map, hp. cbn. auto.
  - eexists p, _. cbn. split; [exact sp|]. split; [left; reflexivity|]. now rewrite nth_error_map, hp. Qed.

(** ** Windows *)
Lemma add_last_snoc {A} (x : A) ws w : add_last x (ws ++ [w]) = Ok (ws ++ [w ++ [x]]).
Proof. induction ws as [|y ws IH]; [reflexivity|]. cbn [app add_last]. rewrite IH. destruct (ws ++ [w]) eqn:E; [destruct ws; discriminate|reflexivity]. Qed.
Lemma windows_of ws : windows (flat_map w_events ws) = Ok (map w_tags ws).
Proof. unfold windows. assert (G : forall acc, foldM (fun (acc : list (list Z)) '(e, t) => if String.eqb e "OPEN" then Ok (acc ++ [[]]) else if String.eqb e "CLOSE" then Ok acc else add_last t acc) (flat_map w_events ws) acc = Ok (acc ++ map w_tags ws)).
  { induction ws as [|w ws IH]; intros acc; cbn [flat_map map]; [cbn; now rewrite app_nil_r|]. unfold w_events at 1. cbn [app foldM]. cbn [String.eqb Ascii.eqb Bool.eqb bind].
    assert (T : forall tags cur rest, foldM (fun (acc : list (list Z)) '(e, t) => if String.eqb e "OPEN" then Ok (acc ++ [[]]) else if String.eqb e "CLOSE" then Ok acc else add_last t acc) (map (fun t => ("RISE", t)) tags ++ rest) (acc ++ [cur]) = foldM (fun (acc : list (list Z)) '(e, t) => if String.eqb e "OPEN" then Ok (acc ++ [[]]) else if String.eqb e "CLOSE" then Ok acc else add_last t acc) rest (acc ++ [cur ++ tags])).
    { induction tags as [|t tags IHt]; intros cur rest; cbn [map app foldM]; [now rewrite app_nil_r|]. cbn [String.eqb Ascii.eqb Bool.eqb bind]. rewrite add_last_snoc. cbn [bind]. rewrite IHt. now rewrite <- app_assoc. }
    rewrite <- app_assoc. rewrite T. cbn [app foldM String.eqb Ascii.eqb Bool.eqb bind]. rewrite IH, <- app_assoc. reflexivity. }
  exact (G []). Qed.
Lemma pad_length n l : List.length l <= n -> List.length (pad n l) = n.
Proof. intros h. unfold pad. rewrite app_length, repeat_length. lia. Qed.
Lemma pad_nth n l t : t < n -> nth_error (pad n l) t = Some (match nth_error l t with Some v => v | None => None end).
Proof. intros h. unfold pad. destruct (le_lt_dec (List.length l) t) as [g|g].
  - rewrite nth_error_app2 by auto. assert (nth_error l t = None) as -> by (now apply nth_error_None). apply nth_error_repeat. lia.
  - rewrite nth_error_app1 by auto. destruct (nth_error l t) eqn:E; auto. exfalso. apply nth_error_None in E. lia. Qed.
Lemma list_max_in l n : In n l -> n <= list_max l.
Proof. intros h. induction l as [|x l IH]; [destruct h|]. change (list_max (x :: l)) with (Nat.max x (list_max l)). destruct h as [->|h]; [lia|apply IH in h; lia]. Qed.
Lemma timetag_own c reps hm h events d : timetag_trace c reps hm h events = Ok d -> (forall l, hm = Bins l -> NoDup (map fst l)) ->
  exists l b0 a coords traces, hm = Bins l /\ hd_error (map snd l) = Some b0 /\ RetModel.get (acq_name (h_index b0)) h = Some a /\ c_coords c = CoordList coords /\ split_windows (timedelta a) events = Ok traces /\
    Wf d /\ d_index d = map fst l /\ d_reps d = Some reps /\ (exists n, d_trace d = Some n /\ forall t, In t traces -> List.length t <= n) /\
    (NoDup (map fst (d_coord d)) /\ forall k v, In (k, v) (d_coord d) <-> CoordKey coords k /\ v = map (fun a => coord_val coords a k) (d_index d)) /\
    forall x b r, In (x, b) l -> r < reps -> exists tr, nth_error traces (h_bin b + r * h_stride b) = Some tr /\ forall t, t < n_trace d -> Value d r x t (match nth_error tr t with Some v => v | None => None end).
Proof. unfold timetag_trace. intros H nd. destruct hm as [|l]; [discriminate|]. specialize (nd l eq_refl). destruct l as [|[x0 b0] l0]; [destruct (c_coords c); discriminate|]. destruct (c_coords c) as [coords|] eqn:C; [|discriminate]. inv H. inv H. rename a0 into traces. apply item_ok in E.
  exists ((x0, b0) :: l0), b0, a, coords, traces. set (l := (x0, b0) :: l0) in *. split; [reflexivity|]. split; [reflexivity|]. split; [exact E|]. split; [auto|]. split; [exact E0|]. destruct traces as [|t0 tl] eqn:T; [discriminate H|]. rewrite <- T in *. clear T. inv H. destruct (Nat.eqb_spec (List.length coords) (List.length l)) as [ln|]; [|discriminate H]. inv H. injection H as <-. set (n := list_max (map (@List.length cx) traces)) in *.
  rename a0 into rows. rename a1 into cs. apply mapM_spec in E1. apply coords_binned_ok in E2. destruct E2 as (e1 & e2 & e3).
  assert (L : forall t, In t traces -> List.length t <= n) by (intros t ht; apply list_max_in, in_map_iff; eauto).
  assert (RW : forall r row, nth_error rows r = Some row -> r < reps /\ Forall2 (fun '((_, b) : nat * hwbin) cell => exists tr, nth_error traces (h_bin b + r * h_stride b) = Some tr /\ cell = pad n tr) l row).
  { intros r row hr. destruct (f2_nth_r _ _ _ E1 _ _ hr) as (r' & g1 & g2). assert (lr : r < reps) by (rewrite <- (seq_length reps 0); apply nth_error_Some; congruence). split; [auto|].
    assert (g : nth_error (List.seq 0 reps) r = Some r) by (rewrite (nth_error_nth' _ 0) by (now rewrite seq_length); rewrite seq_nth by auto; reflexivity). assert (r' = r) as -> by congruence.
    apply mapM_spec in g2. clear -g2. induction g2 as [|[x b] y l l' h _ IH]; constructor; auto. inv h. injection h as <-. apply at_ok in E. eauto. }
  assert (W : Wf {| d_reps := Some reps; d_index := map fst l; d_trace := Some n; d_vals := rows; d_coord := cs |}).
  { constructor; cbn [d_index d_vals d_coord d_reps d_trace n_reps n_trace]; auto.
    - apply f2_length in E1. rewrite seq_length in E1. auto.
    - intros row hr. apply In_nth_error in hr. destruct hr as [r hr]. apply RW in hr. destruct hr as [_ hr]. apply f2_length in hr. now rewrite map_length.
    - intros row cell hr hc. apply In_nth_error in hr. destruct hr as [r hr]. apply RW in hr. destruct hr as [_ hr]. apply In_nth_error in hc. destruct hc as [j hc]. destruct (f2_nth_r _ _ _ hr _ _ hc) as ([x b] & _ & tr & g1 & ->). apply pad_length, L. eapply nth_error_In; eauto.
    - intros k v hk. apply e3 in hk. destruct hk as [_ ->]. now rewrite map_length. }
  split; [exact W|]. cbn [d_index d_vals d_coord d_reps d_trace]. split; [auto|]. split; [auto|]. split; [exists n; auto|]. split; [split; [auto|intros; apply e3]|].
  unfold n_trace. cbn [d_trace]. intros x b r hx hr. assert (exists row, nth_error rows r = Some row) as [row hrow].
  { apply f2_length in E1. rewrite seq_length in E1. rewrite E1 in hr. apply nth_error_Some in hr. destruct (nth_error rows r); [eauto|easy]. }
  destruct (RW _ _ hrow) as [_ F]. apply In_nth_error in hx. destruct hx as [j hx]. destruct (f2_nth _ _ _ F _ _ hx) as (cell & g1 & tr & g2 & ->). exists tr. split; [auto|]. intros t ht.
  exists j, row, (pad n tr). cbn [d_index d_vals]. split; [change (nth_error (map fst l) j = Some x); rewrite nth_error_map, hx; reflexivity|]. split; [auto|]. split; [auto|]. now apply pad_nth. Qed.
(** the traces of physical windows *)
Lemma split_spec ws tags : List.length tags = List.length ws -> (forall j w x, nth_error ws j = Some w -> nth_error tags j = Some x -> FirstTag w x) ->
  exists traces, split_windows tags (flat_map w_events ws) = Ok traces /\ List.length traces = List.length ws /\
  forall j w tr, nth_error ws j = Some w -> nth_error traces j = Some tr -> List.length tr = List.length (w_tags w) /\ forall t tag, nth_error (w_tags w) t = Some tag -> exists v, nth_error tr t = Some (Some (v, 0%Q)) /\ (v == inject_Z (tag - w_base w) / 2048)%Q.
Proof. intros ln ft. unfold split_windows. rewrite windows_of. cbn [bind]. eexists. split; [reflexivity|]. split; [rewrite map_length, combine_length, map_length; lia|]. intros j w tr hw htr.
  rewrite nth_error_map, combine_nth' in htr by (now rewrite map_length). destruct (nth_error tags j) as [x|] eqn:X; [|discriminate]. rewrite nth_error_map, hw in htr. cbn in htr. injection htr as <-. unfold relative. rewrite map_length. split; [auto|].
  intros t tag ht. rewrite nth_error_map, ht. cbn [option_map]. specialize (ft _ _ _ hw X). unfold FirstTag in ft. destruct (w_tags w) as [|t0 ts]; [now destruct t|]. subst x. cbn [hd option_map real]. eexists. split; [reflexivity|]. unfold Z.sub. rewrite !inject_Z_plus, !inject_Z_opp. field. Qed.
