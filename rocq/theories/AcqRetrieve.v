(** C39: the bins from which results are retrieved are the bins into which the acquisitions were executed. *)
From Verif Require Import Base AcqIndexModel AcqIndexProps.
From Verif Require Import Q1Model Q1Machine Q1Spec Q1Props2.
Open Scope Z_scope.

(** the hardware mapping handed to the instrument coordinator: qblox_acq_index_manager.py l.469-480 ([acq_hardware_mapping]); acquisition channel and index -> index, bin, stride *)
Definition lookup (m : mgr) (c : chan) (a : Z) : option hwbin :=
  match get c (binned m) with Some d => get a d | None => None end.

(** instrument_coordinator/components/qblox.py l.1880-1890, 2661-2668: bin read for one repetition *)
Definition retrieved_bin (h : hwbin) (repetition : Z) : Z := h_bin h + repetition * h_stride h.

Definition req_idx (r : req) : list Z := match r with RBins _ is _ | RTagTrace _ is _ => is | _ => [] end.

Lemma fold_put_other {V} (new : list (Z * V)) : forall old a, ~ In a (map fst new) ->
  get a (fold_left (fun d p => put (fst p) (snd p) d) new old) = get a old.
Proof.
  induction new as [|[x v] new IH]; intros old a H; [reflexivity|]. cbn [fold_left fst snd]. rewrite IH by (intros Hi; apply H; right; exact Hi).
  apply get_put_other. intros ->. apply H. left. reflexivity.
Qed.
Lemma fold_put_in {V} (new : list (Z * V)) : forall old a v, NoDup (map fst new) -> In (a, v) new ->
  get a (fold_left (fun d p => put (fst p) (snd p) d) new old) = Some v.
Proof.
  induction new as [|[x w] new IH]; intros old a v Hn Hi; [destruct Hi|]. cbn [fold_left fst snd]. cbn [map fst] in Hn. inversion Hn; subst.
  destruct Hi as [Hi|Hi]; [|apply IH; assumption]. injection Hi as -> ->. rewrite fold_put_other by assumption. apply get_put_same.
Qed.

Lemma zrange_length a n : List.length (zrange a n) = n.
Proof. unfold zrange. rewrite map_length, seq_length. reflexivity. Qed.
Lemma zrange_nth a n j : (j < n)%nat -> nth_error (zrange a n) j = Some (a + Z.of_nat j).
Proof.
  intros H. unfold zrange. rewrite nth_error_map. rewrite (nth_error_nth' _ 0%nat) by (rewrite seq_length; exact H). rewrite seq_nth by exact H. reflexivity.
Qed.
Lemma combine_fst {A B} (l : list A) : forall l' : list B, List.length l = List.length l' -> map fst (combine l l') = l.
Proof. induction l as [|x l IH]; intros [|y l'] H; try discriminate; [reflexivity|]. cbn. f_equal. apply IH. injection H as H. exact H. Qed.
Lemma combine_nth_error {A B} (l : list A) : forall (l' : list B) j a b, nth_error l j = Some a -> nth_error l' j = Some b -> In (a, b) (combine l l').
Proof.
  induction l as [|x l IH]; intros [|y l'] [|j] a b Ha Hb; cbn in *; try discriminate.
  - left. congruence.
  - right. eapply IH; eauto.
Qed.

Definition new_bins (is : list Z) (k : nat) (off : Z) : list (Z * hwbin) :=
  map (fun p => (fst p, {| h_index := k; h_bin := snd p; h_stride := Z.of_nat (List.length is) |}))
      (combine is (zrange off (Z.to_nat (Z.of_nat (List.length is))))).
Lemma new_bins_fst is k off : map fst (new_bins is k off) = is.
Proof. unfold new_bins. rewrite map_map. cbn [fst]. apply combine_fst. rewrite zrange_length. lia. Qed.
Lemma new_bins_nth is k off j a : nth_error is j = Some a ->
  In (a, {| h_index := k; h_bin := off + Z.of_nat j; h_stride := Z.of_nat (List.length is) |}) (new_bins is k off).
Proof.
  intros H. unfold new_bins. apply in_map_iff. exists (a, off + Z.of_nat j). split; [reflexivity|].
  apply combine_nth_error with (j := j); [exact H|]. apply zrange_nth. rewrite Nat2Z.id. apply nth_error_Some. congruence.
Qed.

Lemma reserve_lookup m k ch is reps m' off : reserve m (Z.of_nat (List.length is)) k ch (Some is) reps = Ok (m', off) ->
  (forall c a, (c <> ch \/ ~ In a is) -> lookup m' c a = lookup m c a) /\
  (NoDup is -> forall j a, nth_error is j = Some a ->
     lookup m' ch a = Some {| h_index := k; h_bin := off + Z.of_nat j; h_stride := Z.of_nat (List.length is) |}).
Proof.
  unfold reserve. destruct (get ch (unbinned m)); [discriminate|]. cbn [bind]. intros H. injection H as <- <-. unfold lookup. cbn [binned].
  fold (new_bins is k (next_free m k)). split.
  - intros c a Hca. destruct (Z.eq_dec c ch) as [->|Hne].
    + rewrite get_put_same. destruct Hca as [|Hni]; [congruence|]. rewrite fold_put_other by (rewrite new_bins_fst; exact Hni). destruct (get ch (binned m)); reflexivity.
    + rewrite get_put_other by exact Hne. reflexivity.
  - intros Hnd j a Hj. rewrite get_put_same. apply fold_put_in; [rewrite new_bins_fst; exact Hnd|]. apply new_bins_nth. exact Hj.
Qed.
Lemma reserve_lookup_none m n k ch reps m' off : reserve m n k ch None reps = Ok (m', off) -> binned m' = binned m.
Proof. unfold reserve. destruct (get ch (binned m)); [discriminate|]. cbn [bind]. intros H. injection H as <- _. reflexivity. Qed.

Lemma do_req_lookup m r m' o : do_req m r = (m', o) ->
  (forall c a, (c <> req_chan r \/ ~ In a (req_idx r)) -> lookup m' c a = lookup m c a) /\
  (forall k off, o = Ok (k, off) -> is_binned r = true -> NoDup (req_idx r) -> forall j a, nth_error (req_idx r) j = Some a ->
     lookup m' (req_chan r) a = Some {| h_index := k; h_bin := off + Z.of_nat j; h_stride := Z.of_nat (List.length (req_idx r)) |}).
Proof.
  destruct r as [c is reps|c|c|c is reps]; cbn [do_req req_chan req_idx is_binned]; intros H.
  - unfold allocate_bins in H. match type of H with context [match ?a with Some k => _ | None => Err IndexError end] => destruct a as [k|]; [|injection H as <- <-; split; [auto|discriminate]] end.
    destruct (free_bins m k <? _); [injection H as <- <-; split; [auto|discriminate]|].
    destruct (reserve m _ k c (Some is) _) as [[m1 off]|] eqn:ER; cbn [bind] in H; injection H as <- <-; [|split; [auto|discriminate]].
    destruct (reserve_lookup _ _ _ _ _ _ _ ER) as [A B]. split; [exact A|]. intros k' off' Ho _. injection Ho as <- <-. exact B.
  - split; [|discriminate]. unfold allocate_qblox_index in H. destruct (get c (chan_index m)); [injection H as <- <-; auto|]. destruct (next_index m) as [k|]; [|injection H as <- <-; auto].
    destruct (reserve m _ k c None 1) as [[m1 off]|] eqn:ER; cbn [bind] in H; injection H as <- <-; [|auto]. apply reserve_lookup_none in ER. unfold lookup. cbn [binned set_chan]. rewrite ER. auto.
  - split; [|discriminate]. unfold allocate_trace in H. destruct (get c (chan_index m)); [injection H as <- <-; auto|]. destruct (trace_allocated m); [injection H as <- <-; auto|]. destruct (next_index m) as [k|]; [|injection H as <- <-; auto].
    destruct (reserve m _ k c None 1) as [[m1 off]|] eqn:ER; cbn [bind] in H; injection H as <- <-; [|auto]. apply reserve_lookup_none in ER. unfold lookup. cbn [binned set_chan set_trace]. rewrite ER. auto.
  - unfold allocate_timetagtrace in H. match type of H with context [do k <- ?a; _] => destruct a as [k|]; cbn [bind] in H; [|injection H as <- <-; split; [auto|discriminate]] end.
    destruct (free_bins m k <? _); [injection H as <- <-; split; [auto|discriminate]|].
    destruct (reserve m _ k c (Some is) _) as [[m1 off]|] eqn:ER; cbn [bind] in H; injection H as <- <-; [|split; [auto|discriminate]].
    destruct (reserve_lookup _ _ _ _ _ _ _ ER) as [A B]. split; [exact A|]. intros k' off' Ho _. injection Ho as <- <-. exact B.
Qed.

(** within one channel, no acquisition index is requested twice (this is C23) *)
Definition indices_distinct (rs : list req) : Prop :=
  Forall (fun r => NoDup (req_idx r)) rs /\
  forall i j ri rj a, (i < j)%nat -> nth_error rs i = Some ri -> nth_error rs j = Some rj -> req_chan ri = req_chan rj -> In a (req_idx ri) -> ~ In a (req_idx rj).

Lemma serve_keeps rs : forall m c a, (forall j r, nth_error rs j = Some r -> req_chan r = c -> ~ In a (req_idx r)) ->
  lookup (fst (serve m rs)) c a = lookup m c a.
Proof.
  induction rs as [|r rs IH]; intros m c a H; [reflexivity|]. cbn [serve]. destruct (do_req m r) as [m1 o] eqn:E.
  specialize (IH m1 c a (fun j r' Hj => H (S j) r' Hj)). destruct (serve m1 rs) as [m2 os]. cbn [fst] in *. rewrite IH.
  apply (proj1 (do_req_lookup _ _ _ _ E)). destruct (Z.eq_dec c (req_chan r)) as [->|]; [right; exact (H 0%nat r eq_refl eq_refl)|left; assumption].
Qed.

Theorem C39_mapping : forall rs m, indices_distinct rs ->
  forall i r k off j a, nth_error rs i = Some r -> is_binned r = true ->
  nth_error (snd (serve m rs)) i = Some (Ok (k, off)) -> nth_error (req_idx r) j = Some a ->
  lookup (fst (serve m rs)) (req_chan r) a = Some {| h_index := k; h_bin := off + Z.of_nat j; h_stride := Z.of_nat (List.length (req_idx r)) |}.
Proof.
  induction rs as [|r0 rs IH]; intros m [HN HD] i r k off j a Hi Hb Ho Hj; [destruct i; discriminate|].
  inversion HN as [|? ? Hn0 HN']; subst. cbn [serve] in *. destruct (do_req m r0) as [m1 o] eqn:E.
  assert (HD' : indices_distinct rs) by (split; [exact HN'|]; intros i' j' ri rj x Hij A B; exact (HD (S i') (S j') ri rj x ltac:(lia) A B)).
  specialize (IH m1 HD'). pose proof (serve_keeps rs m1) as HK. destruct (serve m1 rs) as [m2 os]. cbn [fst snd] in *.
  destruct i as [|i]; cbn in Hi, Ho.
  - injection Hi as ->. injection Ho as ->. rewrite HK.
    + destruct (do_req_lookup _ _ _ _ E) as [_ B]. apply B; auto.
    + intros j' r' Hj' Hc. apply (HD 0%nat (S j') r r' a); [lia|reflexivity|exact Hj'|auto|]. eapply nth_error_In; eauto.
  - eapply IH; eauto.
Qed.

(** ** C39 *)
(** [rs]: history of requests of a sequencer; request [i] asks for the acquisition indices [is] of channel [c] with [reps] repetitions of the schedule
    (append mode) and is granted.  The program of the sequencer starts with the granted offset in bin register [r], and its schedule acquires as often
    per repetition as there are acquisition indices.  Then the bin that is read for acquisition index [a] (the j-th one) and repetition [rep] is the
    one in which the hardware stored the (rep * n + j)-th acquisition, i.e. the j-th acquisition of that repetition. *)
Theorem C39_retrieved_bin_is_the_executed_bin : forall rs i c is reps k off,
  Forall req_ok rs -> indices_distinct rs ->
  nth_error rs i = Some (RBins c is (Some reps)) -> nth_error (snd (serve mgr0 rs)) i = Some (Ok (k, off)) ->
  forall env mrk offs lat total forest p t0 r,
  Forall (fun o => 0 <= o < M32) offs -> 1 <= reps < M32 -> 4 + lat <= TMAX -> total <= TMAX ->
  forallb (node_ok (List.length offs)) forest = true ->
  generate mrk offs lat reps total (flat_map flat forest) = Ok p ->
  forallb (node_uses (Z.of_nat k) r) forest = true -> (r < List.length offs)%nat -> nth r offs 0 = off ->
  acqs_of_all (Z.of_nat k) forest = Z.of_nat (List.length is) -> off + Z.of_nat (List.length is) * reps <= M32 ->
  exists tr tend, Runs env p t0 tr tend /\
    List.length (bins_used (Z.of_nat k) tr) = (Z.to_nat reps * List.length is)%nat /\
    forall rep j a, (rep < Z.to_nat reps)%nat -> nth_error is j = Some a ->
    exists h, lookup (fst (serve mgr0 rs)) c a = Some h /\ h_index h = k /\
      nth_error (bins_used (Z.of_nat k) tr) (rep * List.length is + j)%nat = Some (retrieved_bin h (Z.of_nat rep)).
Proof.
  intros rs i c is reps k off Hok HD Hi Ho env mrk offs lat total forest p t0 r H1 H2 H3 H4 H5 H6 H7 H8 H9 H10 H11.
  destruct (C21_append_bins_consecutive env mrk offs lat reps total forest p t0 _ r H1 H2 H3 H4 H5 H6 H7 H8) as [tr [te [HR HB]]].
  exists tr, te. split; [exact HR|]. rewrite HB, H9, H10. unfold consecutive.
  assert (HL : Z.to_nat (reps * Z.of_nat (List.length is)) = (Z.to_nat reps * List.length is)%nat) by (rewrite Z2Nat.inj_mul by lia; rewrite Nat2Z.id; reflexivity).
  rewrite HL. split; [rewrite map_length, seq_length; reflexivity|].
  intros rep j a Hrep Hj. assert (Hj' : (j < List.length is)%nat) by (apply nth_error_Some; congruence).
  assert (Hlt : (rep * List.length is + j < Z.to_nat reps * List.length is)%nat) by nia.
  eexists. split; [exact (C39_mapping rs mgr0 HD i _ k off j a Hi eq_refl Ho Hj)|]. split; [reflexivity|].
  rewrite nth_error_map. rewrite (nth_error_nth' _ 0%nat) by (rewrite seq_length; exact Hlt). rewrite seq_nth by exact Hlt. cbn [option_map req_idx].
  f_equal. unfold retrieved_bin. cbn [h_bin h_stride].
  assert (Hoff : 0 <= off < M32) by (rewrite <- H9; rewrite Forall_forall in H1; apply H1, nth_In, H8).
  rewrite Z.mod_small.
  - lia.
  - assert (Z.of_nat (rep * List.length is + j) < reps * Z.of_nat (List.length is)) by (rewrite <- (Z2Nat.id reps) by lia; lia). lia.
Qed.

(** a schedule of 2 repetitions of a loop of 3 acquisitions, after a request of another channel *)
Example C39_example :
  let rs := [RBins 7 [0] (Some 2); RBins 5 [0; 1; 2] (Some 2)] in
  Forall req_ok rs /\ indices_distinct rs /\ nth_error (snd (serve mgr0 rs)) 1 = Some (Ok (1%nat, 0)) /\
  forallb (node_uses 1 0) [PLoop 100 3 [POp 100 (KAcq 1 (BReg 0) ASquare)] 600] = true /\
  acqs_of_all 1 [PLoop 100 3 [POp 100 (KAcq 1 (BReg 0) ASquare)] 600] = 3 /\
  exists p, generate 3 [0] 5 2 500000 (flat_map flat [PLoop 100 3 [POp 100 (KAcq 1 (BReg 0) ASquare)] 600]) = Ok p.
Proof.
  split; [repeat constructor; cbn; try discriminate; lia|]. split.
  - split.
    + repeat constructor; cbn; intuition lia.
    + intros i j ri rj a Hij A B. destruct i as [|[|[|?]]], j as [|[|[|?]]]; cbn in A, B; try lia; try discriminate. injection A as <-. injection B as <-. cbn. discriminate.
  - split; [reflexivity|]. split; [reflexivity|]. split; [reflexivity|]. eexists. vm_compute. reflexivity.
Qed.
