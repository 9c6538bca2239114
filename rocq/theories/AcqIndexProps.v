(** C21, C22: acquisition indices and bins. *)
From Verif Require Import Base AcqIndexModel.
Open Scope Z_scope.

(** ** Histories of calls, as seen by the caller *)
Inductive req :=
  | RBins (ch : chan) (is : list Z) (reps : option Z)
  | RIndex (ch : chan)
  | RTrace (ch : chan)
  | RTagTrace (ch : chan) (is : list Z) (reps : Z).

Definition req_chan (r : req) : chan := match r with RBins c _ _ | RIndex c | RTrace c | RTagTrace c _ _ => c end.

(** index and first bin, or the exception *)
Definition do_req (m : mgr) (r : req) : mgr * result (nat * Z) :=
  match r with
  | RBins c is reps => match allocate_bins m c is reps with Ok (m', a) => (m', Ok a) | Err e => (m, Err e) end
  | RIndex c => match allocate_qblox_index m c with Ok (m', k) => (m', Ok (k, 0)) | Err e => (m, Err e) end
  | RTrace c => match allocate_trace m c with Ok (m', a) => (m', Ok a) | Err e => (m, Err e) end
  | RTagTrace c is reps => match allocate_timetagtrace m c is reps with Ok (m', a) => (m', Ok a) | Err e => (m, Err e) end
  end.

Fixpoint serve (m : mgr) (rs : list req) : mgr * list (result (nat * Z)) :=
  match rs with
  | [] => (m, [])
  | r :: rest => let '(m1, o) := do_req m r in let '(m2, os) := serve m1 rest in (m2, o :: os)
  end.

(** number of bins a binned request needs: one for each acquisition index and repetition *)
Definition need (r : req) : Z :=
  match r with
  | RBins _ is reps => Z.of_nat (List.length is) * match reps with Some x => x | None => 1 end
  | RTagTrace _ is reps => Z.of_nat (List.length is) * reps
  | _ => 0
  end.
Definition is_binned (r : req) : bool := match r with RBins _ _ _ | RTagTrace _ _ _ => true | _ => false end.

(** what the compiler asks for: at least one acquisition index and at least one repetition *)
Definition req_ok (r : req) : Prop :=
  match r with
  | RBins _ is reps => is <> [] /\ (match reps with Some x => 1 <= x | None => True end)
  | RTagTrace _ is reps => is <> [] /\ 1 <= reps
  | _ => True
  end.

Definition declared (m : mgr) (k : nat) : Z := match get (Z.of_nat k) (decl m) with Some x => x | None => 0 end.

(** ** Lemmas *)
Lemma get_put_same {V} k (v : V) d : get k (put k v d) = Some v.
Proof. induction d as [|[k' v'] d IH]; cbn; [rewrite Z.eqb_refl; reflexivity|]. destruct (k =? k') eqn:E; cbn; [rewrite Z.eqb_refl; reflexivity|rewrite E; exact IH]. Qed.
Lemma get_put_other {V} k k2 (v : V) d : k2 <> k -> get k2 (put k v d) = get k2 d.
Proof.
  intros H. induction d as [|[k' v'] d IH]; cbn; [destruct (k2 =? k) eqn:E; [apply Z.eqb_eq in E; congruence|reflexivity]|].
  destruct (k =? k') eqn:E; cbn.
  - apply Z.eqb_eq in E. subst k'. destruct (k2 =? k) eqn:E2; [apply Z.eqb_eq in E2; congruence|reflexivity].
  - destruct (k2 =? k'); [reflexivity|exact IH].
Qed.

Lemma next_index_spec m k : next_index m = Some k -> (k < 32)%nat /\ next_free m k = 0.
Proof. unfold next_index. intros H. apply find_some in H. destruct H as [H1 H2]. apply in_seq in H1. apply Z.eqb_eq in H2. unfold NIDX in H1. split; [lia|exact H2]. Qed.

(** The invariant: used indices have a positive next free bin, are below 32, and belong to one channel; declared = next free *)
Record Inv (m : mgr) : Prop := {
  inv_nonneg : forall k, 0 <= next_free m k;
  inv_decl : forall k, declared m k = next_free m k;
  inv_pos : forall c k, get c (chan_index m) = Some k -> 0 < next_free m k /\ (k < 32)%nat;
  inv_inj : forall c c' k, get c (chan_index m) = Some k -> get c' (chan_index m) = Some k -> c = c'
}.

Lemma Inv0 : Inv mgr0.
Proof. split; intros; cbn in *; try lia; try reflexivity; discriminate. Qed.

Lemma reserve_spec m n k ch is reps m' off : reserve m n k ch is reps = Ok (m', off) ->
  off = next_free m k /\ chan_index m' = chan_index m /\
  (forall j, next_free m' j = if Nat.eqb j k then next_free m k + n * reps else next_free m j) /\
  (forall j, declared m' j = if Nat.eqb j k then declared m k + n * reps else declared m j).
Proof.
  unfold reserve. intros H. match type of H with (do _ <- ?a; _) = _ => destruct a as [[b u]|]; [|discriminate] end. cbn [bind] in H.
  injection H as <- <-. repeat split.
  intros j. unfold declared. cbn [decl]. destruct (Nat.eqb j k) eqn:E.
  - apply Nat.eqb_eq in E. subst j. rewrite get_put_same. reflexivity.
  - apply Nat.eqb_neq in E. rewrite get_put_other by lia. reflexivity.
Qed.

(** a granted request: index [k], bins [off, off+size) *)
Lemma grow m k n ch is reps m1 off m' :
  Inv m -> (get ch (chan_index m) = Some k \/ (get ch (chan_index m) = None /\ next_index m = Some k)) ->
  0 < n * reps -> reserve m n k ch is reps = Ok (m1, off) ->
  (next_free m' = next_free m1 /\ decl m' = decl m1 /\ chan_index m' = put ch k (chan_index m1)) ->
  Inv m' /\ off = next_free m k /\ next_free m' k = off + n * reps /\ (forall j, next_free m j <= next_free m' j) /\
  (forall c k', get c (chan_index m) = Some k' -> get c (chan_index m') = Some k') /\ get ch (chan_index m') = Some k.
Proof.
  intros [I1 I2 I3 I4] Hk Hn HR [Q1 [Q2 Q3]]. destruct (reserve_spec _ _ _ _ _ _ _ _ HR) as [-> [HC [HN HD]]]. rewrite HC in Q3.
  assert (HN' : forall j, next_free m' j = if Nat.eqb j k then next_free m k + n * reps else next_free m j) by (intros j; rewrite Q1; apply HN).
  assert (Hk32 : (k < 32)%nat). { destruct Hk as [Hk|[_ Hk]]; [apply (I3 _ _ Hk)|apply (next_index_spec _ _ Hk)]. }
  assert (Hfresh : forall c, get c (chan_index m) = Some k -> c = ch).
  { intros c Hc. destruct Hk as [Hk|[Hk1 Hk2]]; [exact (I4 _ _ _ Hc Hk)|]. destruct (I3 _ _ Hc) as [Hp _]. destruct (next_index_spec _ _ Hk2). lia. }
  split.
  - split.
    + intros j. rewrite HN'. destruct (Nat.eqb j k); [specialize (I1 k)|specialize (I1 j)]; lia.
    + intros j. unfold declared. rewrite Q2. change (declared m1 j = next_free m' j). rewrite HD, HN', !I2. reflexivity.
    + intros c k' Hc. rewrite Q3 in Hc. destruct (Z.eq_dec c ch) as [->|Hne].
      * rewrite get_put_same in Hc. injection Hc as <-. rewrite HN', Nat.eqb_refl. split; [specialize (I1 k); lia|exact Hk32].
      * rewrite get_put_other in Hc by exact Hne. destruct (I3 _ _ Hc) as [A B]. rewrite HN'. destruct (Nat.eqb k' k); [specialize (I1 k); lia|auto].
    + intros c c' k' Hc Hc'. rewrite Q3 in Hc, Hc'. destruct (Z.eq_dec c ch) as [->|Hne], (Z.eq_dec c' ch) as [->|Hne']; auto.
      * rewrite get_put_same in Hc. injection Hc as <-. rewrite get_put_other in Hc' by exact Hne'. symmetry. apply Hfresh. exact Hc'.
      * rewrite get_put_same in Hc'. injection Hc' as <-. rewrite get_put_other in Hc by exact Hne. apply Hfresh. exact Hc.
      * rewrite get_put_other in Hc, Hc' by assumption. eapply I4; eauto.
  - split; [reflexivity|]. split; [rewrite HN', Nat.eqb_refl; reflexivity|]. split.
    + intros j. rewrite HN'. destruct (Nat.eqb j k) eqn:E; [apply Nat.eqb_eq in E; subst; lia|lia].
    + split; [|rewrite Q3; apply get_put_same]. intros c k' Hc. rewrite Q3. destruct (Z.eq_dec c ch) as [->|Hne].
      * rewrite get_put_same. destruct Hk as [Hk|[Hk _]]; congruence.
      * rewrite get_put_other by exact Hne. exact Hc.
Qed.

(** one request, seen from outside *)
(* unchanged manager *)
Ltac same := match goal with |- Inv _ /\ _ => split; [assumption|split; [intros; apply Z.le_refl|split; [auto|]]] end.
Lemma do_req_spec m r m' o : Inv m -> req_ok r -> do_req m r = (m', o) ->
  Inv m' /\ (forall j, next_free m j <= next_free m' j) /\
  (forall c k', get c (chan_index m) = Some k' -> get c (chan_index m') = Some k') /\
  match o with
  | Err e => m' = m /\ (e = IndexError \/ e = ValueError \/ e = RuntimeError)
  | Ok (k, off) => get (req_chan r) (chan_index m') = Some k /\
      (if is_binned r then off = next_free m k /\ next_free m' k = off + need r /\ 0 < need r else off = 0)
  end.
Proof.
  intros HI Hok H. destruct r as [c is reps|c|c|c is reps]; cbn [do_req req_chan is_binned need req_ok] in *.
  - unfold allocate_bins in H. set (rp := match reps with Some r => r | None => 1 end) in *.
    assert (Hrp : 1 <= rp) by (unfold rp; destruct reps; [apply Hok|lia]).
    assert (Hlen : 0 < Z.of_nat (List.length is)) by (destruct is; [destruct Hok; congruence|cbn [List.length]; lia]).
    assert (Hpos : 0 < Z.of_nat (List.length is) * rp) by nia.
    set (k0 := match get c (chan_index m) with Some k => Some k | None => next_index m end) in *.
    destruct k0 as [k|] eqn:Ek; [|injection H as <- <-; same; auto].
    assert (Hk : get c (chan_index m) = Some k \/ (get c (chan_index m) = None /\ next_index m = Some k)).
    { unfold k0 in Ek. destruct (get c (chan_index m)); [left; exact Ek|right; auto]. }
    destruct (free_bins m k <? Z.of_nat (List.length is)); [injection H as <- <-; same; auto|].
    destruct (reserve m (Z.of_nat (List.length is)) k c (Some is) rp) as [[m1 off]|e] eqn:ER.
    + cbn [bind] in H. injection H as <- <-. destruct (grow m k _ c _ _ m1 off (set_chan c k m1) HI Hk Hpos ER) as [A1 [A2 [A3 [A4 [A5 A6]]]]]; [repeat split|].
      split; [exact A1|]. split; [exact A4|]. split; [exact A5|]. split; [exact A6|]. auto.
    + cbn [bind] in H. injection H as <- <-. same.
      split; [reflexivity|].
      unfold reserve in ER. destruct (get c (unbinned m)); [cbn in ER; injection ER as <-; auto|discriminate].
  - unfold allocate_qblox_index in H. destruct (get c (chan_index m)) as [k|] eqn:Ec.
    + injection H as <- <-. same; auto.
    + destruct (next_index m) as [k|] eqn:En; [|injection H as <- <-; same; auto].
      destruct (next_index_spec _ _ En) as [_ Hz]. destruct (reserve m (free_bins m k) k c None 1) as [[m1 off]|e] eqn:ER.
      * cbn [bind] in H. injection H as <- <-. assert (Hpos : 0 < free_bins m k * 1) by (unfold free_bins, NBINS; lia).
        destruct (grow m k _ c _ _ m1 off (set_chan c k m1) HI (or_intror (conj Ec En)) Hpos ER) as [A1 [A2 [A3 [A4 [A5 A6]]]]]; [repeat split|].
        split; [exact A1|]. split; [exact A4|]. split; [exact A5|]. split; [exact A6|]. reflexivity.
      * cbn [bind] in H. injection H as <- <-. same.
      split; [reflexivity|].
        unfold reserve in ER. destruct (get c (binned m)); [cbn in ER; injection ER as <-; auto|discriminate].
  - unfold allocate_trace in H. destruct (get c (chan_index m)) as [k|] eqn:Ec.
    + injection H as <- <-. same; auto.
    + destruct (trace_allocated m); [injection H as <- <-; same; auto|].
      destruct (next_index m) as [k|] eqn:En; [|injection H as <- <-; same; auto].
      destruct (reserve m 1 k c None 1) as [[m1 off]|e] eqn:ER.
      * cbn [bind] in H. injection H as <- <-.
        destruct (grow m k _ c _ _ m1 off (set_trace (set_chan c k m1)) HI (or_intror (conj Ec En)) (eq_refl : 0 < 1 * 1) ER) as [A1 [A2 [A3 [A4 [A5 A6]]]]]; [repeat split|].
        split; [exact A1|]. split; [exact A4|]. split; [exact A5|]. split; [exact A6|]. reflexivity.
      * cbn [bind] in H. injection H as <- <-. same.
      split; [reflexivity|].
        unfold reserve in ER. destruct (get c (binned m)); [cbn in ER; injection ER as <-; auto|discriminate].
  - unfold allocate_timetagtrace in H.
    assert (Hlen : 0 < Z.of_nat (List.length is)) by (destruct is; [destruct Hok; congruence|cbn [List.length]; lia]).
    assert (Hpos : 0 < Z.of_nat (List.length is) * reps) by nia.
    match type of H with context [do k <- ?a; _] => destruct a as [k|e] eqn:Ek end; cbn [bind] in H.
    2:{ injection H as <- <-. same.
      split; [reflexivity|].
        destruct (get c (chan_index m)); [discriminate|]. destruct (trace_allocated m); [injection Ek as <-; auto|]. destruct (next_index m); [discriminate|injection Ek as <-; auto]. }
    assert (Hk : get c (chan_index m) = Some k \/ (get c (chan_index m) = None /\ next_index m = Some k)).
    { destruct (get c (chan_index m)); [left; congruence|right]. split; [reflexivity|]. destruct (trace_allocated m); [discriminate|]. destruct (next_index m); [congruence|discriminate]. }
    destruct (free_bins m k <? Z.of_nat (List.length is)); [injection H as <- <-; same; auto|].
    destruct (reserve m (Z.of_nat (List.length is)) k c (Some is) reps) as [[m1 off]|e] eqn:ER.
    + cbn [bind] in H. injection H as <- <-. destruct (grow m k _ c _ _ m1 off (set_trace (set_chan c k m1)) HI Hk Hpos ER) as [A1 [A2 [A3 [A4 [A5 A6]]]]]; [repeat split|].
      split; [exact A1|]. split; [exact A4|]. split; [exact A5|]. split; [exact A6|]. auto.
    + cbn [bind] in H. injection H as <- <-. same.
      split; [reflexivity|].
      unfold reserve in ER. destruct (get c (unbinned m)); [cbn in ER; injection ER as <-; auto|discriminate].
Qed.

Lemma serve_mono rs : forall m, Inv m -> Forall req_ok rs ->
  Inv (fst (serve m rs)) /\ (forall j, next_free m j <= next_free (fst (serve m rs)) j) /\
  (forall c k, get c (chan_index m) = Some k -> get c (chan_index (fst (serve m rs))) = Some k) /\
  (forall i r k off, nth_error rs i = Some r -> nth_error (snd (serve m rs)) i = Some (Ok (k, off)) ->
     get (req_chan r) (chan_index (fst (serve m rs))) = Some k /\
     (is_binned r = true -> next_free m k <= off /\ off + need r <= next_free (fst (serve m rs)) k)).
Proof.
  induction rs as [|r rs IH]; intros m HI Hok.
  - split; [exact HI|]. split; [intros j; apply Z.le_refl|]. split; [auto|]. intros i r k off Hi. destruct i; discriminate.
  - inversion Hok as [|? ? Hr Hrs]; subst. cbn [serve]. destruct (do_req m r) as [m1 o] eqn:E. destruct (do_req_spec _ _ _ _ HI Hr E) as [I1 [M1 [C1 S1]]].
    destruct (IH m1 I1 Hrs) as [I2 [M2 [C2 S2]]]. destruct (serve m1 rs) as [m2 os]. cbn [fst snd] in *.
    split; [exact I2|]. split; [intros j; specialize (M1 j); specialize (M2 j); lia|]. split; [auto|].
    intros [|i] r' k off Hi Ho; cbn in Hi, Ho.
    + injection Hi as <-. injection Ho as ->. destruct S1 as [A B]. split; [auto|]. intros Hb. rewrite Hb in B. destruct B as [B1 [B2 B3]]. specialize (M2 k). lia.
    + destruct (S2 _ _ _ _ Hi Ho) as [A B]. split; [exact A|]. intros Hb. specialize (B Hb). specialize (M1 k). lia.
Qed.

(** ** C21 *)
(** For every history of requests to a fresh manager:
    (1) granted requests of different channels have different indices, all below 32; the same channel always has the same index;
    (2) two granted binned requests on the same index get disjoint intervals of bins, of the sizes they need;
    (3) all of them lie inside the declared number of bins. *)
Theorem C21_bins_never_shared : forall rs, Forall req_ok rs ->
  let '(m, os) := serve mgr0 rs in
  (forall i j ri rj ki kj oi oj, nth_error rs i = Some ri -> nth_error rs j = Some rj ->
     nth_error os i = Some (Ok (ki, oi)) -> nth_error os j = Some (Ok (kj, oj)) ->
     (ki < 32)%nat /\ (req_chan ri = req_chan rj <-> ki = kj)) /\
  (forall i j ri rj k oi oj, (i < j)%nat -> nth_error rs i = Some ri -> nth_error rs j = Some rj ->
     is_binned ri = true -> is_binned rj = true ->
     nth_error os i = Some (Ok (k, oi)) -> nth_error os j = Some (Ok (k, oj)) -> oi + need ri <= oj) /\
  (forall i r k off, nth_error rs i = Some r -> nth_error os i = Some (Ok (k, off)) ->
     is_binned r = true -> 0 <= off /\ off + need r <= declared m k).
Proof.
  intros rs Hok. pose proof (serve_mono rs mgr0 Inv0 Hok) as HS. 
  assert (HP : forall m, Inv m -> Forall req_ok rs -> forall i j ri rj k oi oj, (i < j)%nat -> nth_error rs i = Some ri -> nth_error rs j = Some rj ->
     is_binned ri = true -> is_binned rj = true ->
     nth_error (snd (serve m rs)) i = Some (Ok (k, oi)) -> nth_error (snd (serve m rs)) j = Some (Ok (k, oj)) -> oi + need ri <= oj).
  { clear. induction rs as [|r rs IH]; intros m HI Hok i j ri rj k oi oj Hij Hi Hj Bi Bj Oi Oj; [destruct i; discriminate|].
    inversion Hok as [|? ? Hr Hrs]; subst. cbn [serve] in Oi, Oj. destruct (do_req m r) as [m1 o] eqn:E. destruct (do_req_spec _ _ _ _ HI Hr E) as [I1 [M1 [C1 S1]]].
    pose proof (serve_mono rs m1 I1 Hrs) as [_ [_ [_ S2]]]. specialize (IH m1 I1 Hrs). destruct (serve m1 rs) as [m2 os]. cbn [fst snd] in *.
    destruct j as [|j]; [lia|]. cbn in Hj, Oj. destruct i as [|i]; cbn in Hi, Oi.
    - injection Hi as <-. injection Oi as ->. destruct S1 as [_ S1]. rewrite Bi in S1. destruct (S2 _ _ _ _ Hj Oj) as [_ B]. specialize (B Bj). lia.
    - eapply (IH i j); eauto. lia. }
  specialize (HP mgr0 Inv0 Hok). destruct (serve mgr0 rs) as [m os]. cbn [fst snd] in *. destruct HS as [HI [_ [_ HS]]].
  split; [|split].
  - intros i j ri rj ki kj oi oj Hi Hj Oi Oj. destruct (HS _ _ _ _ Hi Oi) as [A _]. destruct (HS _ _ _ _ Hj Oj) as [B _].
    split; [apply (inv_pos _ HI _ _ A)|]. split; [intros Heq; rewrite Heq in A; congruence|]. intros ->. exact (inv_inj _ HI _ _ _ A B).
  - exact HP.
  - intros i r k off Hi Oi Hb. destruct (HS _ _ _ _ Hi Oi) as [_ B]. specialize (B Hb). rewrite (inv_decl _ HI). cbn in B. lia.
Qed.

(** An empty request breaks the first part: the index is given to the next channel as well. (Acquisition in a loop with 0 repetitions.) *)
Theorem C21_empty_request_refuted : snd (serve mgr0 [RBins 1 [] None; RBins 2 [0] None]) = [Ok (0%nat, 0); Ok (0%nat, 0)].
Proof. reflexivity. Qed.
(** A trace on a channel that has binned acquisitions is given bin 0 of its index, which is in use (excluded earlier in the compilation, C23). *)
Theorem C21_trace_on_binned_refuted : snd (serve mgr0 [RBins 1 [0; 1] None; RTrace 1]) = [Ok (0%nat, 0); Ok (0%nat, 0)].
Proof. reflexivity. Qed.

Example C21_example : Forall req_ok [RBins 1 [0; 1] (Some 10); RBins 2 [0] None; RBins 1 [2; 3; 4] (Some 10); RTrace 3; RTagTrace 4 [0] 2] /\
  snd (serve mgr0 [RBins 1 [0; 1] (Some 10); RBins 2 [0] None; RBins 1 [2; 3; 4] (Some 10); RTrace 3; RTagTrace 4 [0] 2]) =
   [Ok (0%nat, 0); Ok (1%nat, 0); Ok (0%nat, 20); Ok (2%nat, 0); Err RuntimeError].
Proof. split; [|reflexivity]. repeat constructor; cbn; try discriminate; lia. Qed.

(** ** C22 *)
(** At most 32 indices are ever handed out: C21_bins_never_shared. Without schedule repetitions (average mode), the declared bins respect the capacity... *)
Theorem C22_capacity_partial : forall rs, Forall (fun r => req_ok r /\ match r with RBins _ _ (Some x) => x = 1 | RTagTrace _ _ x => x = 1 | _ => True end) rs ->
  forall k, declared (fst (serve mgr0 rs)) k <= 100000.
Proof.
  intros rs Hok.
  assert (HG : forall rs m, Inv m -> (forall k, next_free m k <= NBINS) ->
     Forall (fun r => req_ok r /\ match r with RBins _ _ (Some x) => x = 1 | RTagTrace _ _ x => x = 1 | _ => True end) rs -> forall k, next_free (fst (serve m rs)) k <= NBINS).
  { clear. induction rs as [|r rs IH]; intros m HI Hm Hok k; [exact (Hm k)|]. inversion Hok as [|? ? [Hr H1] Hrs]; subst. cbn [serve].
    destruct (do_req m r) as [m1 o] eqn:E. destruct (do_req_spec _ _ _ _ HI Hr E) as [I1 [M1 [C1 S1]]].
    assert (Hm1 : forall k, next_free m1 k <= NBINS).
    { intros j. assert (HR : forall n k0 ch is m' off, n <= free_bins m k0 -> reserve m n k0 ch is 1 = Ok (m', off) -> next_free m' j <= NBINS).
      { intros n k0 ch is m' off Hn HR. destruct (reserve_spec _ _ _ _ _ _ _ _ HR) as [_ [_ [HN _]]]. rewrite HN. unfold free_bins in Hn. specialize (Hm j). destruct (Nat.eqb j k0); lia. }
      destruct r as [c is reps|c|c|c is reps]; cbn [do_req] in E.
      - assert (Hrp : match reps with Some r => r | None => 1 end = 1) by (destruct reps; auto). unfold allocate_bins in E. rewrite Hrp in E.
        match type of E with context [match ?a with Some k => _ | None => Err IndexError end] => destruct a as [k0|]; [|injection E as <- <-; apply Hm] end.
        destruct (free_bins m k0 <? Z.of_nat (List.length is)) eqn:EF; [injection E as <- <-; apply Hm|]. apply Z.ltb_ge in EF.
        destruct (reserve m _ k0 c (Some is) 1) as [[m2 off]|] eqn:ER; cbn [bind] in E; injection E as <- <-; [|apply Hm]. exact (HR _ _ _ _ _ _ EF ER).
      - unfold allocate_qblox_index in E. destruct (get c (chan_index m)); [injection E as <- <-; apply Hm|]. destruct (next_index m) as [k0|]; [|injection E as <- <-; apply Hm].
        destruct (reserve m _ k0 c None 1) as [[m2 off]|] eqn:ER; cbn [bind] in E; injection E as <- <-; [|apply Hm]. exact (HR _ _ _ _ _ _ (Z.le_refl _) ER).
      - unfold allocate_trace in E. destruct (get c (chan_index m)); [injection E as <- <-; apply Hm|]. destruct (trace_allocated m); [injection E as <- <-; apply Hm|].
        destruct (next_index m) as [k0|] eqn:En; [|injection E as <- <-; apply Hm]. destruct (next_index_spec _ _ En) as [_ Hz].
        destruct (reserve m _ k0 c None 1) as [[m2 off]|] eqn:ER; cbn [bind] in E; injection E as <- <-; [|apply Hm]. refine (HR _ _ _ _ _ _ _ ER). unfold free_bins, NBINS. lia.
      - subst reps. unfold allocate_timetagtrace in E. match type of E with context [do k <- ?a; _] => destruct a as [k0|]; cbn [bind] in E; [|injection E as <- <-; apply Hm] end.
        destruct (free_bins m k0 <? Z.of_nat (List.length is)) eqn:EF; [injection E as <- <-; apply Hm|]. apply Z.ltb_ge in EF.
        destruct (reserve m _ k0 c (Some is) 1) as [[m2 off]|] eqn:ER; cbn [bind] in E; injection E as <- <-; [|apply Hm]. exact (HR _ _ _ _ _ _ EF ER). }
    specialize (IH m1 I1 Hm1 Hrs k). destruct (serve m1 rs) as [m2 os]. exact IH. }
  intros k. assert (Hok' : Forall req_ok rs) by (eapply Forall_impl; [|exact Hok]; intros r [H _]; exact H).
  destruct (serve_mono rs mgr0 Inv0 Hok') as [HI _]. rewrite (inv_decl _ HI). apply HG; [exact Inv0|intros; cbn; unfold NBINS; lia|exact Hok].
Qed.

(** ... but the check ignores the repetitions of append mode: 10 acquisitions x 20000 repetitions are granted 200000 bins. *)
Theorem C22_append_capacity_refuted :
  let '(m, os) := serve mgr0 [RBins 1 [0;1;2;3;4;5;6;7;8;9] (Some 20000)] in
  os = [Ok (0%nat, 0)] /\ declared m 0 = 200000.
Proof. vm_compute. auto. Qed.

(** a 33rd channel, or more bins than an index has, is rejected with IndexError *)
Theorem C22_out_of_indices : forall m ch is reps, (forall k, (k < 32)%nat -> next_free m k <> 0) -> get ch (chan_index m) = None ->
  allocate_bins m ch is reps = Err IndexError.
Proof.
  intros m ch is reps Hm Hc. unfold allocate_bins. rewrite Hc. destruct (next_index m) as [k|] eqn:E; [|reflexivity].
  destruct (next_index_spec _ _ E) as [A B]. exfalso. exact (Hm k A B).
Qed.
Theorem C22_too_many_bins : forall m ch is reps k, get ch (chan_index m) = Some k -> 100000 < next_free m k + Z.of_nat (List.length is) ->
  allocate_bins m ch is reps = Err IndexError.
Proof.
  intros m ch is reps k Hc Hl. unfold allocate_bins. rewrite Hc. unfold free_bins, NBINS.
  destruct (100000 - next_free m k <? Z.of_nat (List.length is)) eqn:E; [reflexivity|]. apply Z.ltb_ge in E. lia.
Qed.
