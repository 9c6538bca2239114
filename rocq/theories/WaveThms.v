(** C68: waveforms with rational values. *)
From Verif Require Import Base NumericProps AcqSetProps WaveModel.
From Coq Require Import Qminmax Lqa.
Local Open Scope Q_scope.
Local Open Scope list_scope.
Local Notation length := List.length.

Lemma nth_repeat_in {A} (v d : A) : forall n i, (i < n)%nat -> nth i (repeat v n) d = v.
Proof. induction n as [|n IH]; intros i H; [lia|]. destruct i; cbn; [reflexivity|]. apply IH. lia. Qed.
Lemma nth_skipn {A} (d : A) : forall b l i, nth i (skipn b l) d = nth (b + i) l d.
Proof. induction b as [|b IH]; intros l i; [reflexivity|]. destruct l; [destruct i; reflexivity|]. cbn. apply IH. Qed.
Lemma nth_firstn {A} (d : A) : forall a l i, (i < a)%nat -> nth i (firstn a l) d = nth i l d.
Proof. induction a as [|a IH]; intros l i H; [lia|]. destruct l; [reflexivity|]. destruct i; [reflexivity|]. cbn. apply IH. lia. Qed.
Lemma nth_slice l a b v i : (a <= b <= length l)%nat -> nth i (set_slice l a b v) 0 = if Nat.leb a i && Nat.ltb i b then v else nth i l 0.
Proof.
  intros H. unfold set_slice. rewrite Nat.min_l by lia. assert (L : length (firstn a l) = a) by (apply firstn_length_le; lia).
  destruct (Nat.leb a i) eqn:E1; cbn [andb].
  - apply Nat.leb_le in E1. rewrite app_nth2 by lia. rewrite L. destruct (Nat.ltb i b) eqn:E2.
    + apply Nat.ltb_lt in E2. rewrite app_nth1 by (rewrite repeat_length; lia). apply nth_repeat_in. lia.
    + apply Nat.ltb_ge in E2. rewrite app_nth2 by (rewrite repeat_length; lia). rewrite repeat_length, nth_skipn. f_equal. lia.
  - apply Nat.leb_gt in E1. rewrite app_nth1 by lia. apply nth_firstn. exact E1.
Qed.
Lemma slice_length l a b v : (a <= b <= length l)%nat -> length (set_slice l a b v) = length l.
Proof. intros H. unfold set_slice. rewrite !app_length, repeat_length, firstn_length, skipn_length. lia. Qed.
Lemma item_ok l i v : (0 <= i < Z.of_nat (length l))%Z -> exists r, set_item l i v = Ok r /\ length r = length l /\ forall k, nth k r 0 = if Nat.eqb k (Z.to_nat i) then v else nth k l 0.
Proof.
  intros H. unfold set_item. assert (E0 : (i <? 0)%Z = false) by (apply Z.ltb_ge; lia). rewrite E0. assert (E1 : (0 <=? i)%Z = true) by (apply Z.leb_le; lia). assert (E2 : (i <? Z.of_nat (length l))%Z = true) by (apply Z.ltb_lt; lia). rewrite E1, E2.
  cbn [andb]. eexists. split; [reflexivity|]. set (n := Z.to_nat i). assert (N : (n < length l)%nat) by (unfold n; lia). assert (L : length (firstn n l) = n) by (apply firstn_length_le; lia). split.
  - rewrite app_length. cbn [length]. rewrite L, skipn_length. lia.
  - intros k. destruct (Nat.eqb k n) eqn:E.
    + apply Nat.eqb_eq in E. subst k. rewrite app_nth2 by lia. rewrite L, Nat.sub_diag. reflexivity.
    + apply Nat.eqb_neq in E. destruct (Nat.ltb k n) eqn:E3.
      * apply Nat.ltb_lt in E3. rewrite app_nth1 by lia. apply nth_firstn. exact E3.
      * apply Nat.ltb_ge in E3. rewrite app_nth2 by lia. rewrite L. destruct (k - n)%nat as [|m] eqn:D; [lia|]. cbn [nth]. rewrite nth_skipn. f_equal. lia.
Qed.
Lemma sumq_app a b : sumq (a ++ b) == sumq a + sumq b.
Proof. induction a as [|x a IH]; [change (sumq ([] ++ b)) with (sumq b); change (sumq []) with 0; ring|]. change (sumq ((x :: a) ++ b)) with (x + sumq (a ++ b)). change (sumq (x :: a)) with (x + sumq a). rewrite IH. ring. Qed.
Lemma sumq_repeat v n : sumq (repeat v n) == inject_Z (Z.of_nat n) * v.
Proof. induction n as [|n IH]; [change (inject_Z (Z.of_nat 0)) with 0; change (sumq (repeat v 0)) with 0; ring|]. cbn [repeat]. change (sumq (v :: repeat v n)) with (v + sumq (repeat v n)). rewrite IH, Nat2Z.inj_succ. unfold Z.succ. rewrite inject_Z_plus. change (inject_Z 1) with 1. ring. Qed.
Lemma sumq_zero l : (forall i, (i < length l)%nat -> nth i l 0 == 0) -> sumq l == 0.
Proof.
  induction l as [|x l IH]; intros H; [reflexivity|]. change (sumq (x :: l)) with (x + sumq l). rewrite IH by (intros i L; exact (H (S i) ltac:(cbn; lia))). pose proof (H 0%nat ltac:(cbn; lia)) as X. cbn in X. rewrite X. reflexivity.
Qed.
Lemma skipn_add {A} : forall a b (l : list A), skipn a (skipn b l) = skipn (b + a) l.
Proof. intros a b. revert a. induction b as [|b IH]; intros a l; [reflexivity|]. destruct l; [now rewrite !skipn_nil|]. cbn. apply IH. Qed.
Lemma slice_sum l a b v : (a <= b <= length l)%nat -> (forall i, (a <= i < b)%nat -> nth i l 0 == 0) -> sumq (set_slice l a b v) == sumq l + inject_Z (Z.of_nat (b - a)) * v.
Proof.
  intros H Z. unfold set_slice. rewrite Nat.min_l by lia. rewrite !sumq_app, sumq_repeat.
  assert (E : l = (firstn a l ++ firstn (b - a) (skipn a l) ++ skipn b l)%list).
  { rewrite <- (firstn_skipn a l) at 1. f_equal. rewrite <- (firstn_skipn (b - a) (skipn a l)) at 1. f_equal. rewrite skipn_add. f_equal. lia. }
  assert (M : sumq (firstn (b - a) (skipn a l)) == 0).
  { apply sumq_zero. intros i L. rewrite firstn_length, skipn_length in L. rewrite nth_firstn by lia. rewrite nth_skipn. apply Z. lia. }
  assert (S : sumq l == sumq (firstn a l) + (sumq (firstn (b - a) (skipn a l)) + sumq (skipn b l))) by (rewrite E at 1; rewrite !sumq_app; reflexivity). rewrite S, M. ring.
Qed.

(** ** sudden_net_zero *)
(** the shape the documentation gives: half pulses of [arm] samples, [mid] samples in between, [corr] samples of one value [v] *)
Definition net_zero_shape (A B s : Q) (arm mid corr : nat) (v : Q) (i : nat) : Q :=
  if Nat.ltb (S i) arm then A
  else if Nat.ltb i arm then A * B
  else if Nat.ltb i (arm + mid) then 0
  else if Nat.eqb i (arm + mid) then - A * s * B
  else if Nat.ltb i (2 * arm + mid) then - A * s
  else if Nat.ltb i (2 * arm + mid + corr) then v
  else 0.
(** the number of whole samples in a duration *)
Definition samples_in (d rate : Q) (n : nat) : Prop := inject_Z (Z.of_nat n) * rate <= d /\ d < inject_Z (Z.of_nat n + 1) * rate.
Lemma int_samples d rate n : 0 < rate -> samples_in d rate n -> Z.to_nat (int_of (d / rate)) = n.
Proof.
  intros P [H1 H2]. assert (L : inject_Z (Z.of_nat n) <= d / rate) by (apply Qle_shift_div_l; assumption). assert (U : d / rate < inject_Z (Z.of_nat n + 1)) by (apply Qlt_shift_div_r; assumption).
  assert (N : 0 <= inject_Z (Z.of_nat n)) by (change 0 with (inject_Z 0); rewrite <- Zle_Qle; lia). unfold int_of. assert (E : Qle_bool 0 (d / rate) = true) by (apply Qle_bool_iff; lra). rewrite E.
  destruct (Qfloor_spec (d / rate)) as [F1 F2]. assert (A : (Z.of_nat n < Qfloor (d / rate) + 1)%Z) by (apply inject_Z_lt; rewrite ?inject_succ in *; lra). assert (B : (Qfloor (d / rate) < Z.of_nat n + 1)%Z) by (apply inject_Z_lt; rewrite ?inject_succ in *; lra). lia.
Qed.
Lemma repeat_zero n i : nth i (repeat 0 n) 0 = 0.
Proof. destruct (Nat.ltb i n) eqn:E; [apply nth_repeat_in; now apply Nat.ltb_lt|apply nth_overflow; rewrite repeat_length; now apply Nat.ltb_ge]. Qed.

(** With at least one sample in each half and in the correction, the waveform has the documented shape and its samples add up to zero. *)
Theorem C68_sudden_net_zero : forall t0 t1 t A B s tp tphi tc arm mid corr, t0 < t1 -> samples_in (tp / 2) (t1 - t0) arm -> samples_in tphi (t1 - t0) mid -> samples_in tc (t1 - t0) corr ->
  (1 <= arm)%nat -> (1 <= corr)%nat -> (2 * arm + mid + corr <= length (t0 :: t1 :: t))%nat ->
  exists w v, sudden_net_zero (t0 :: t1 :: t) A B s tp tphi tc = Ok w /\ length w = length (t0 :: t1 :: t) /\ sumq w == 0 /\
    forall i, (i < length w)%nat -> nth i w 0 = net_zero_shape A B s arm mid corr v i.
Proof.
  intros t0 t1 t A B s tp tphi tc arm mid corr D Sa Sm Sc Na Nc F. set (T := t0 :: t1 :: t) in *. unfold sudden_net_zero, T at 1.
  assert (R : 0 < t1 - t0) by lra. assert (R0 : Qeq_bool (t1 - t0) 0 = false) by (apply not_true_iff_false; rewrite Qeq_bool_iff; intros E; lra). rewrite R0.
  rewrite (int_samples _ _ _ R Sa), (int_samples _ _ _ R Sm), (int_samples _ _ _ R Sc). fold T.
  assert (F' : Nat.ltb (length T) (2 * arm + mid + corr) = false) by (apply Nat.ltb_ge; exact F). rewrite F'.
  set (w1 := set_slice (repeat 0 (length T)) 0 arm A). assert (L1 : length w1 = length T) by (unfold w1; rewrite slice_length; rewrite repeat_length; lia).
  assert (E1 : forall i, nth i w1 0 = if Nat.ltb i arm then A else 0) by (intros i; unfold w1; rewrite nth_slice by (rewrite repeat_length; lia); rewrite repeat_zero; reflexivity).
  destruct (item_ok w1 (Z.of_nat arm - 1) (A * B)) as [w2 [X2 [L2 E2]]]; [lia|]. rewrite X2. cbn [bind].
  set (w3 := set_slice w2 (arm + mid) (2 * arm + mid) (- A * s)). assert (L3 : length w3 = length T) by (unfold w3; rewrite slice_length; lia).
  assert (E3 : forall i, nth i w3 0 = if Nat.leb (arm + mid) i && Nat.ltb i (2 * arm + mid) then - A * s else nth i w2 0) by (intros i; unfold w3; apply nth_slice; lia).
  destruct (item_ok w3 (Z.of_nat (arm + mid)) (- A * s * B)) as [w4 [X4 [L4 E4]]]; [lia|]. rewrite X4. cbn [bind].
  set (v := - sumq w4 / inject_Z (Z.of_nat corr)). exists (set_slice w4 (2 * arm + mid) (2 * arm + mid + corr) v), v. split; [reflexivity|].
  assert (SH : forall i, nth i w4 0 = if Nat.leb (2 * arm + mid) i && Nat.ltb i (2 * arm + mid + corr) then 0 else net_zero_shape A B s arm mid corr v i).
  { intros i. rewrite E4, E3, E2, E1. rewrite !Nat2Z.id. replace (Z.to_nat (Z.of_nat arm - 1)) with (arm - 1)%nat by lia. unfold net_zero_shape.
    destruct (Nat.eqb i (arm + mid)) eqn:C1; [apply Nat.eqb_eq in C1|apply Nat.eqb_neq in C1].
    - subst i. replace (Nat.leb (2 * arm + mid) (arm + mid)) with false by (symmetry; apply Nat.leb_gt; lia). cbn [andb].
      replace (Nat.ltb (S (arm + mid)) arm) with false by (symmetry; apply Nat.ltb_ge; lia). replace (Nat.ltb (arm + mid) arm) with false by (symmetry; apply Nat.ltb_ge; lia). rewrite Nat.ltb_irrefl. reflexivity.
    - destruct (Nat.leb (arm + mid) i) eqn:C2; [apply Nat.leb_le in C2|apply Nat.leb_gt in C2]; cbn [andb].
      + replace (Nat.ltb (S i) arm) with false by (symmetry; apply Nat.ltb_ge; lia). replace (Nat.ltb i arm) with false by (symmetry; apply Nat.ltb_ge; lia). replace (Nat.ltb i (arm + mid)) with false by (symmetry; apply Nat.ltb_ge; lia).
        destruct (Nat.ltb i (2 * arm + mid)) eqn:C3; [apply Nat.ltb_lt in C3|apply Nat.ltb_ge in C3].
        * replace (Nat.leb (2 * arm + mid) i) with false by (symmetry; apply Nat.leb_gt; lia). reflexivity.
        * replace (Nat.leb (2 * arm + mid) i) with true by (symmetry; apply Nat.leb_le; lia). cbn [andb]. replace (Nat.eqb i (arm - 1)) with false by (symmetry; apply Nat.eqb_neq; lia). destruct (Nat.ltb i (2 * arm + mid + corr)); reflexivity.
      + replace (Nat.leb (2 * arm + mid) i) with false by (symmetry; apply Nat.leb_gt; lia). cbn [andb]. destruct (Nat.eqb i (arm - 1)) eqn:C4; [apply Nat.eqb_eq in C4|apply Nat.eqb_neq in C4].
        * replace (Nat.ltb (S i) arm) with false by (symmetry; apply Nat.ltb_ge; lia). replace (Nat.ltb i arm) with true by (symmetry; apply Nat.ltb_lt; lia). reflexivity.
        * destruct (Nat.ltb i arm) eqn:C5; [apply Nat.ltb_lt in C5|apply Nat.ltb_ge in C5].
          -- replace (Nat.ltb (S i) arm) with true by (symmetry; apply Nat.ltb_lt; lia). reflexivity.
          -- replace (Nat.ltb (S i) arm) with false by (symmetry; apply Nat.ltb_ge; lia). replace (Nat.ltb i (arm + mid)) with true by (symmetry; apply Nat.ltb_lt; lia). reflexivity. }
  assert (L4' : length w4 = length T) by lia. split; [rewrite slice_length; lia|]. split.
  - rewrite slice_sum; [|lia|].
    + replace (2 * arm + mid + corr - (2 * arm + mid))%nat with corr by lia. unfold v. field. intros E. assert (X : inject_Z (Z.of_nat corr) == inject_Z 0) by (rewrite E; reflexivity). rewrite inject_Z_injective in X. lia.
    + intros i H. rewrite SH. replace (Nat.leb (2 * arm + mid) i) with true by (symmetry; apply Nat.leb_le; lia). replace (Nat.ltb i (2 * arm + mid + corr)) with true by (symmetry; apply Nat.ltb_lt; lia). reflexivity.
  - intros i _. rewrite nth_slice by lia. destruct (Nat.leb (2 * arm + mid) i && Nat.ltb i (2 * arm + mid + corr)) eqn:C; [|rewrite SH, C; reflexivity].
    apply andb_true_iff in C. destruct C as [C1 C2]. apply Nat.leb_le in C1. unfold net_zero_shape. rewrite C2.
    replace (Nat.ltb (S i) arm) with false by (symmetry; apply Nat.ltb_ge; lia). replace (Nat.ltb i arm) with false by (symmetry; apply Nat.ltb_ge; lia). replace (Nat.ltb i (arm + mid)) with false by (symmetry; apply Nat.ltb_ge; lia).
    replace (Nat.eqb i (arm + mid)) with false by (symmetry; apply Nat.eqb_neq; lia). replace (Nat.ltb i (2 * arm + mid)) with false by (symmetry; apply Nat.ltb_ge; lia). reflexivity.
Qed.
(** Parts that are longer than the time array are refused. *)
Theorem C68_sudden_net_zero_too_long : forall t0 t1 t A B s tp tphi tc arm mid corr, t0 < t1 -> samples_in (tp / 2) (t1 - t0) arm -> samples_in tphi (t1 - t0) mid -> samples_in tc (t1 - t0) corr ->
  (length (t0 :: t1 :: t) < 2 * arm + mid + corr)%nat -> sudden_net_zero (t0 :: t1 :: t) A B s tp tphi tc = Err ValueError.
Proof.
  intros t0 t1 t A B s tp tphi tc arm mid corr D Sa Sm Sc F. unfold sudden_net_zero. assert (R : 0 < t1 - t0) by lra. assert (R0 : Qeq_bool (t1 - t0) 0 = false) by (apply not_true_iff_false; rewrite Qeq_bool_iff; intros E; lra). rewrite R0.
  rewrite (int_samples _ _ _ R Sa), (int_samples _ _ _ R Sm), (int_samples _ _ _ R Sc). apply Nat.ltb_lt in F. rewrite F. reflexivity.
Qed.
(** Without a correction period (or with less than a sample of it) the samples do not add up to zero, and nothing says so; *)
Theorem C68_net_zero_uncorrected_refuted : exists w, sudden_net_zero [0; 1; 2; 3; 4; 5] 1 (1#2) (4#5) 4 1 (1#2) = Ok w /\ sumq w == 3#10.
Proof. eexists. split; [vm_compute; reflexivity|]. vm_compute. reflexivity. Qed.
(** nor with halves of less than a sample. *)
Theorem C68_net_zero_short_refuted : exists w, sudden_net_zero [0; 1; 2; 3] 1 (1#2) (4#5) 1 0 4 = Ok w /\ ~ sumq w == 0.
Proof. eexists. split; [vm_compute; reflexivity|]. vm_compute. discriminate. Qed.
Example net_zero_example : sudden_net_zero [0; 1; 2; 3; 4; 5; 6; 7; 8; 9] 1 (1#2) (4#5) 5 (26#10) (44#10) <> Err ValueError /\ samples_in (5 / 2) (1 - 0) 2 /\ samples_in (26#10) (1 - 0) 2 /\ samples_in (44#10) (1 - 0) 4.
Proof. split; [vm_compute; discriminate|]. unfold samples_in. repeat split; vm_compute; congruence. Qed.

(** ** staircase, ramp and square *)
Definition stair (start final : Q) (n : Z) (dur x : Q) : Q := Qmin (Qmax (inject_Z (Qfloor (x * (inject_Z n / dur))) * ((final - start) / inject_Z (n - 1)) + start) start) final.
Lemma floor_at n dur x k : 0 < dur -> inject_Z k * dur <= x * inject_Z n -> x * inject_Z n < inject_Z (k + 1) * dur -> Qfloor (x * (inject_Z n / dur)) = k.
Proof.
  intros D H1 H2. assert (E : x * (inject_Z n / dur) == x * inject_Z n / dur) by (field; lra). rewrite (Qfloor_comp _ _ E).
  assert (L : inject_Z k <= x * inject_Z n / dur) by (apply Qle_shift_div_l; assumption). assert (U : x * inject_Z n / dur < inject_Z (k + 1)) by (apply Qlt_shift_div_r; assumption).
  destruct (Qfloor_spec (x * inject_Z n / dur)) as [F1 F2]. assert (A : (k < Qfloor (x * inject_Z n / dur) + 1)%Z) by (apply inject_Z_lt; rewrite ?inject_succ in *; lra). assert (B : (Qfloor (x * inject_Z n / dur) < k + 1)%Z) by (apply inject_Z_lt; rewrite ?inject_succ in *; lra). lia.
Qed.
Lemma stair_ok t start final n dur : (2 <= n)%Z -> 0 < dur -> staircase t start final n dur = Ok (map (stair start final n dur) t).
Proof.
  intros N D. unfold staircase. assert (E1 : (n =? 1)%Z = false) by (apply Z.eqb_neq; lia). assert (E2 : Qeq_bool dur 0 = false) by (apply not_true_iff_false; rewrite Qeq_bool_iff; intros E; lra). rewrite E1, E2. reflexivity.
Qed.
Lemma nth_map_q (f : Q -> Q) : forall l i, (i < length l)%nat -> nth i (map f l) 0 = f (nth i l 0).
Proof. induction l as [|x l IH]; intros i H; [cbn in H; lia|]. destruct i; [reflexivity|]. cbn. apply IH. cbn in H. lia. Qed.
Lemma inject_pos n : (2 <= n)%Z -> 0 < inject_Z (n - 1) /\ 0 < inject_Z n.
Proof. intros H. split; change 0 with (inject_Z 0); rewrite <- Zlt_Qlt; lia. Qed.
Lemma stair_floor start final n dur x k : (2 <= n)%Z -> Qfloor (x * (inject_Z n / dur)) = k -> start <= final ->
  ((k <= 0)%Z -> stair start final n dur x == start) /\ ((n - 1 <= k)%Z -> stair start final n dur x == final) /\ ((0 <= k <= n - 1)%Z -> stair start final n dur x == start + inject_Z k * ((final - start) / inject_Z (n - 1))).
Proof.
  intros N K SF. unfold stair. rewrite K. destruct (inject_pos n N) as [P _]. set (d := (final - start) / inject_Z (n - 1)).
  assert (D : 0 <= d) by (unfold d; apply Qle_shift_div_l; [exact P|lra]). assert (E : inject_Z (n - 1) * d == final - start) by (unfold d; field; lra).
  assert (MAX : (0 <= k)%Z -> Qmax (inject_Z k * d + start) start == inject_Z k * d + start).
  { intros H. apply Q.max_l. assert (H' : 0 <= inject_Z k) by (change 0 with (inject_Z 0); now rewrite <- Zle_Qle). nra. }
  refine (conj _ (conj _ _)).
  - intros H. assert (H' : inject_Z k <= 0) by (change 0 with (inject_Z 0); now rewrite <- Zle_Qle). rewrite Q.max_r by nra. rewrite Q.min_l by assumption. reflexivity.
  - intros H. rewrite MAX by lia. rewrite Q.min_r; [reflexivity|]. assert (H' : inject_Z (n - 1) <= inject_Z k) by now rewrite <- Zle_Qle. nra.
  - intros [H1 H2]. rewrite MAX by lia. rewrite Q.min_l; [ring|]. assert (H' : inject_Z k <= inject_Z (n - 1)) by now rewrite <- Zle_Qle. nra.
Qed.
(** An ascending staircase is at its start before 0, at its end from the duration on, and climbs by one equal step at each n-th of the duration. *)
Theorem C68_staircase : forall t start final n dur, (2 <= n)%Z -> 0 < dur -> start <= final -> exists w, staircase t start final n dur = Ok w /\ length w = length t /\
  forall i, (i < length t)%nat ->
    (nth i t 0 < 0 -> nth i w 0 == start) /\ (dur <= nth i t 0 -> nth i w 0 == final) /\
    (forall k, (0 <= k < n)%Z -> inject_Z k * dur <= nth i t 0 * inject_Z n -> nth i t 0 * inject_Z n < inject_Z (k + 1) * dur -> nth i w 0 == start + inject_Z k * ((final - start) / inject_Z (n - 1))).
Proof.
  intros t start final n dur N D SF. exists (map (stair start final n dur) t). split; [now apply stair_ok|]. split; [apply map_length|]. intros i L. rewrite nth_map_q by exact L. set (x := nth i t 0). destruct (inject_pos n N) as [P P'].
  pose proof (stair_floor start final n dur x _ N eq_refl SF) as [S1 [S2 S3]]. assert (E : x * (inject_Z n / dur) == x * inject_Z n / dur) by (field; lra). destruct (Qfloor_spec (x * (inject_Z n / dur))) as [F1 F2]. refine (conj _ (conj _ _)).
  - intros H. apply S1. assert (Y : x * inject_Z n / dur < 0) by (apply Qlt_shift_div_r; [exact D|]; nra). assert (Z : (Qfloor (x * (inject_Z n / dur)) < 1)%Z); [|lia]. apply inject_Z_lt. change (inject_Z 1) with 1. lra.
  - intros H. apply S2. assert (Y : inject_Z n <= x * inject_Z n / dur) by (apply Qle_shift_div_l; [exact D|]; nra). assert (Z : (n < Qfloor (x * (inject_Z n / dur)) + 1)%Z); [|lia]. apply inject_Z_lt. rewrite inject_succ. lra.
  - intros k K H1 H2. pose proof (floor_at n dur x k D H1 H2) as F. rewrite F in S3. apply S3. lia.
Qed.
(** A descending one is not a staircase: it is at its end everywhere. *)
Theorem C68_descending_staircase_refuted : forall t start final n dur, (2 <= n)%Z -> 0 < dur -> final < start -> exists w, staircase t start final n dur = Ok w /\ length w = length t /\ forall i, (i < length t)%nat -> nth i w 0 == final.
Proof.
  intros t start final n dur N D SF. exists (map (stair start final n dur) t). split; [now apply stair_ok|]. split; [apply map_length|]. intros i L. rewrite nth_map_q by exact L. unfold stair. apply Q.min_r. eapply Qle_trans; [|apply Q.le_max_r]. lra.
Qed.
(** A staircase of one step is an error. *)
Theorem C68_single_step_refuted : forall t start final dur, staircase t start final 1 dur = Err OtherErr.
Proof. reflexivity. Qed.
(** A ramp is at its offset at 0, at offset + amp at its duration and linear in between. *)
Theorem C68_ramp : forall t amp offset dur, 0 < dur -> length (ramp t amp offset dur) = length t /\ forall i, (i < length t)%nat ->
  (nth i (ramp t amp offset dur) 0 - offset) * dur == amp * nth i t 0.
Proof. intros t amp offset dur D. unfold ramp. split; [apply map_length|]. intros i L. rewrite nth_map_q by exact L. field. lra. Qed.
Theorem C68_square : forall t amp, length (square t amp) = length t /\ forall i, (i < length t)%nat -> nth i (square t amp) 0 = amp.
Proof. intros t amp. unfold square. split; [apply repeat_length|]. intros i L. now apply nth_repeat_in. Qed.
Example staircase_example : exists w, staircase [0; 1; 2; 3; 4; 5; 6; 7; 8] 0 1 4 8 = Ok w /\ Forall2 Qeq w [0; 0; 1#3; 1#3; 2#3; 2#3; 1; 1; 1].
Proof. eexists. split; [vm_compute; reflexivity|]. repeat constructor; vm_compute; reflexivity. Qed.
