(** C47: every pulse and acquisition of the schedule gets one row, at its scheduled time plus latency plus a correction that only ever delays. *)
From Verif Require Import Base NumericModel NumericProps ZiModel ZiSpec ZiProps ZiProps2 ZiProps3 ZiClock ZiTable ZiTable2 ZiCorr ZiShift.
From Coq Require Import Permutation Qfield.
Open Scope Z_scope.

Lemma ok_corrected srt s devs lat l : sorts srt -> corrected_table srt s devs lat = Ok l -> exists los shift e0, corrected_by devs lat s los shift l /\ Forall2 (ent0 devs lat) los e0 /\ correction_loop 600000000 (acqs_of e0) 0 0 (map (fun _ => 0) e0) = Ok shift /\ Forall (fun '(key, _) => exists p c, split_dash key = [p; c]) lat /\ Forall2 (ent devs lat) (combine los shift) l.
Proof. intros hs h. destruct (corrected_table_ok _ _ _ _ _ hs h) as (los & e0 & corr & p & keys & so & f0 & cl & len & f1). exists los, corr, e0. split; [|auto]. split; [exact p|]. split; [exact len|]. split.
  - clear -f1 keys. induction f1; constructor; auto. apply ent_stands; auto.
  - intros i j a b hij ha hb. pose proof (so i j a b hij ha hb) as q. rewrite !row_time in q by exact keys. exact q. Qed.

(** The shifts are multiples of 3 samples of 1/1.8 GHz (1/600 MHz), never negative, never decreasing along the table, and at most 21 samples per acquisition of the schedule. *)
Theorem C47_shifts srt s devs lat l : sorts srt -> corrected_table srt s devs lat = Ok l -> exists los shift, corrected_by devs lat s los shift l /\
  (forall i j a b, (i <= j)%nat -> nth_error shift i = Some a -> nth_error shift j = Some b -> 0 <= a <= b /\ a mod 3 = 0) /\
  (forall a, In a shift -> a <= 21 * n_acquisitions los).
Proof. intros hs h. destruct (ok_corrected _ _ _ _ _ hs h) as (los & shift & e0 & cb & f0 & cl & keys & _). exists los, shift. split; [exact cb|]. split.
  - apply (correction_climbing _ _ _ _ _ cl), climbing_zeros.
  - intros a ha. apply In_nth_error in ha. destruct ha as (i & hi). assert (Z0 : exists z, nth_error (map (fun _ : entry => 0) e0) i = Some z). { destruct (nth_error (map (fun _ : entry => 0) e0) i) as [z|] eqn:ez; [eauto|]. exfalso. apply nth_error_None in ez. rewrite <- (correction_length _ _ _ _ _ _ cl) in ez. apply nth_error_None in ez. congruence. }
    destruct Z0 as (z & hz). pose proof (correction_bound _ _ _ _ _ cl i z a hz hi) as [_ b]. apply nth_error_In in hz. apply in_map_iff in hz. destruct hz as (? & <- & _). unfold n_acquisitions. replace (List.length (filter _ los)) with (List.length (acqs_of e0)); [lia|]. unfold acqs_of. rewrite map_length. symmetry. eapply forall2_filter; [|exact f0]. intros y e (q & _). rewrite q. reflexivity. Qed.
(** Nothing is reordered and nothing comes closer: the distance of two rows can only grow, by at most 21 samples per acquisition. *)
Theorem C47_distance srt s devs lat l : sorts srt -> corrected_table srt s devs lat = Ok l -> forall i j e f, (i < j)%nat -> nth_error l i = Some e -> nth_error l j = Some f ->
  exists oc od n, In oc (occurrences s) /\ In od (occurrences s) /\ r_operation (e_row e) = o_str (oc_operation oc) /\ r_operation (e_row f) = o_str (oc_operation od) /\ (wanted lat oc <= wanted lat od)%Q /\
    0 <= n <= 21 * Z.of_nat (List.length (filter (fun o => i_is_acq (oc_info o)) (occurrences s))) /\ (r_time (e_row f) - r_time (e_row e) == wanted lat od - wanted lat oc + inject_Z n / 1800000000)%Q.
Proof. intros hs h i j e f hij he hf. destruct (C47_shifts _ _ _ _ _ hs h) as (los & shift & (p & len & f2 & so) & cl & bd).
  destruct (forall2_nth_r _ _ _ f2 i e he) as ([[k oc] a] & h1 & s1). destruct (forall2_nth_r _ _ _ f2 j f hf) as ([[k' od] b] & h2 & s2). apply combine_nth in h1, h2. cbn [fst snd] in *. destruct h1 as [h1 h1'], h2 as [h2 h2'].
  assert (IN : forall k x, In (k, x) los -> In x (occurrences s)). { intros k0 x hx. apply Permutation_sym in p. apply (Permutation_in _ p) in hx. apply combine_seq_in in hx. eapply nth_error_In. apply hx. }
  exists oc, od, (b - a). split; [eapply IN, nth_error_In; eauto|]. split; [eapply IN, nth_error_In; eauto|]. destruct s1 as (q1 & _ & _ & _ & _ & _ & t1 & _), s2 as (q2 & _ & _ & _ & _ & _ & t2 & _). split; [exact q1|]. split; [exact q2|]. split; [apply (so i j _ _ hij h1 h2)|]. pose proof (cl i j a b ltac:(lia) h1' h2') as [[c1 c2] _]. pose proof (bd b ltac:(eapply nth_error_In; eauto)) as b2.
  split.
  - split; [lia|]. assert (NA : n_acquisitions los = Z.of_nat (List.length (filter (fun o => i_is_acq (oc_info o)) (occurrences s)))). { unfold n_acquisitions. f_equal. assert (PL : forall (l1 l2 : list (nat * occurrence)) (g : nat * occurrence -> bool), Permutation l1 l2 -> List.length (filter g l1) = List.length (filter g l2)). { intros l1 l2 g pp. induction pp; cbn; try congruence; repeat destruct (g _); cbn; congruence. } rewrite <- (PL _ _ _ p). clear. generalize 0%nat. induction (occurrences s) as [|o l IH]; intros b; [reflexivity|]. cbn. destruct (i_is_acq (oc_info o)); cbn; now rewrite IH. } rewrite <- NA. lia.
  - rewrite t1, t2. unfold wanted. rewrite inj_sub. field. Qed.

(** If the acquisitions are listed in the order of their times, every acquisition on a device with "uhfqa" in its name starts at the beginning of a clock cycle, and the distance of two rows grows by at most 21 samples per acquisition from the first of them on and before the second - so not at all when there is none. *)
Theorem C47_aligned srt s devs lat l : sorts srt -> corrected_table srt s devs lat = Ok l -> in_order lat (occurrences s) -> exists los shift, corrected_by devs lat s los shift l /\
  (forall e name n, In e l -> r_is_acq (e_row e) = true -> e_channel e = Some (name, n) -> PathModel.contains "uhfqa" name = true -> exists k x, e_start e = Some (k, x) /\ (Qabs x <= 1 # 10000)%Q) /\
  (forall i j a b, (i <= j)%nat -> nth_error shift i = Some a -> nth_error shift j = Some b -> a <= b <= a + 21 * n_acquisitions (slice i j los)).
Proof. intros hs h io. destruct (ok_corrected _ _ _ _ _ hs h) as (los & shift & e0 & cb & f0 & cl & keys & f1). exists los, shift. split; [exact cb|].
  destruct cb as (p & len & f2 & so).
  assert (LAB : forall i e, nth_error e0 i = Some e -> r_is_acq (e_row e) = true -> r_label (e_row e) = (0 + i)%nat). { intros i e he ha. destruct (forall2_nth_r _ _ _ f0 i e he) as ([k oc] & hx & (q & _)). cbn [fst snd] in q. rewrite q in *. cbn [r_label row_of r_is_acq] in *. rewrite (in_order_position lat _ _ p so io i k oc hx ha). reflexivity. }
  pose proof (acqs_growing e0 0 LAB) as G. assert (LV : level 0 0 (map (fun _ : entry => 0) e0)). { intros i v _ hv. apply nth_error_In, in_map_iff in hv. destruct hv as (? & <- & _). reflexivity. }
  split.
  - intros e name n he ha hc hu. apply In_nth_error in he. destruct he as (i & hi). destruct (forall2_nth_r _ _ _ f1 i e hi) as ([[k oc] v] & hx & (q1 & q2 & q3 & q4)). apply combine_nth in hx. cbn [fst snd] in *. destruct hx as [hx hv].
    destruct (forall2_nth _ _ _ f0 i _ hx) as (e' & he' & (r1 & r2 & r3)). cbn [fst snd] in *. rewrite r2 in q2. injection q2 as q2. rewrite hc in *. rewrite q2 in *. cbn [start_ok] in r3, q3. destruct r3 as (k0 & s0 & st0 & c0), q3 as (k1 & s1 & st1 & c1). exists k1, s1. split; [exact st1|].
    assert (ha' : r_is_acq (e_row e') = true) by (rewrite q1 in ha; rewrite r1; exact ha).
    assert (IA : In (i, Some s0) (acqs_of e0)). { unfold acqs_of. apply in_map_iff. exists e'. split; [rewrite st0, (LAB i e' he' ha'); reflexivity|]. apply filter_In. split; [eapply nth_error_In; eauto|exact ha']. }
    destruct (correction_aligned _ _ _ _ _ cl G LV i (Some s0) v IA hv) as (s' & e1 & al). injection e1 as <-.
    destruct (clock_sample_sound _ _ _ _ _ c0) as (fs & m0 & n0 & b0 & nr0 & eq0 & _). destruct (clock_sample_sound _ _ _ _ _ c1) as (fs1 & m1 & n1 & b1 & nr1 & eq1 & _). unfold name_rate in n0, n1. rewrite hu in n0, n1. injection n0 as <-. injection n1 as <-.
    specialize (al m0 (fun z => near_round _ _ z nr0 b0)).
    assert (TT : (r_time (e_row e) * inject_Z 1800000000 == r_time (e_row e') * inject_Z 1800000000 + inject_Z v)%Q). { rewrite q1, r1. cbn [retime r_time]. unfold retime. cbn [r_time]. change (inject_Z 1800000000) with 1800000000%Q. field. }
    rewrite TT in eq1. unfold near in nr0, nr1. apply qabs_le in nr0, nr1. assert (U0 : (inject_Z m0 <= 7)%Q) by (change 7%Q with (inject_Z 7); apply up_le; lia). assert (U1 : (inject_Z m1 <= 7)%Q) by (change 7%Q with (inject_Z 7); apply up_le; lia).
    assert (E : 8 * k1 + m1 = 8 * k0 + m0 + v). { assert (8 * k1 + m1 < 8 * k0 + m0 + v + 1) by (apply dn_lt; rewrite !inj_add, !inj_mul; change (inject_Z 8) with 8%Q; change (inject_Z 1) with 1%Q; lra). assert (8 * k0 + m0 + v < 8 * k1 + m1 + 1) by (apply dn_lt; rewrite !inj_add, !inj_mul; change (inject_Z 8) with 8%Q; change (inject_Z 1) with 1%Q; lra). lia. }
    assert (M1 : m1 = 0). { assert (X : (m0 + v) mod 8 = m1). { symmetry. apply Z.mod_unique with (q := k1 - k0); [left; lia|lia]. } congruence. }
    subst m1. change (inject_Z 0) with 0%Q in *. apply qabs_le. split; lra.
  - intros i j a b hij ha hb. pose proof (correction_steps _ _ _ _ _ cl G LV i j a b ltac:(lia) hij ha hb) as r. rewrite (acqs_between e0 0 i j ltac:(lia) LAB), !Nat.sub_0_r in r. unfold n_acquisitions. rewrite (forall2_filter (ent0 devs lat) (fun x => i_is_acq (oc_info (snd x))) (fun e => r_is_acq (e_row e)) ltac:(intros x e (q & _); rewrite q; reflexivity) _ _ (forall2_slice _ i j _ _ f0)). exact r. Qed.
(** Whatever is accepted lies on the sampling grid of its channel, up to 2e-4 samples. *)
Theorem C47_on_grid srt s devs lat l : sorts srt -> corrected_table srt s devs lat = Ok l -> forall oc p c ch fs, In oc (occurrences s) -> i_port (oc_info oc) = Some p -> i_clock (oc_info oc) = Some c -> connected devs p c ch -> name_rate (fst ch) = Ok fs -> exists m, (Qabs (wanted lat oc * inject_Z fs - inject_Z m) <= 2 # 10000)%Q.
Proof. intros hs h oc p c ch fs ho hp hc hcon hr. destruct (ok_corrected _ _ _ _ _ hs h) as (los & shift & e0 & (pm & _) & f0 & _ & keys & _).
  assert (IN : exists k, In (k, oc) los). { apply In_nth_error in ho. destruct ho as (k & hk). exists k. apply (Permutation_in _ pm). apply combine_seq_in. split; [lia|]. now rewrite Nat.sub_0_r. }
  destruct IN as (k & hk). apply In_nth_error in hk. destruct hk as (i & hi). destruct (forall2_nth _ _ _ f0 i _ hi) as (e & he & (r1 & r2 & r3)). cbn [fst snd] in *. unfold channel_of in r2. change (r_port (row_of lat k oc)) with (i_port (oc_info oc)) in r2. change (r_clock (row_of lat k oc)) with (i_clock (oc_info oc)) in r2. rewrite hp, hc, (connected_get _ _ _ _ hcon) in r2. injection r2 as r2. rewrite <- r2 in r3. cbn [start_ok] in r3. destruct r3 as (c0 & s0 & _ & cs). destruct ch as [nm n]. destruct (clock_sample_sound _ _ _ _ _ cs) as (fs' & m & q1 & q2 & q3 & q4 & _). cbn [fst] in hr. rewrite hr in q1. injection q1 as <-. exists (8 * c0 + m).
  rewrite r1, (row_time lat k oc keys) in q4. fold (wanted lat oc) in q4. unfold near in q3. apply qabs_le in q3. apply qabs_le. rewrite inj_add, inj_mul. change (inject_Z 8) with 8%Q. assert (U : (inject_Z m <= 7)%Q) by (change 7%Q with (inject_Z 7); apply up_le; lia). split; lra. Qed.
