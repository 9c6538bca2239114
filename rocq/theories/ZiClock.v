(** Clock cycles and samples of the Zurich Instruments backend, and the measurement fix-point correction. *)
From Verif Require Import Base NumericModel NumericProps ZiModel ZiSpec ZiProps.
From Coq Require Import Lqa Qfield.
Open Scope Q_scope.

Lemma up_le a b : (a <= b)%Z -> inject_Z a <= inject_Z b. Proof. rewrite Zle_Qle. auto. Qed.
Lemma up_lt a b : (a < b)%Z -> inject_Z a < inject_Z b. Proof. rewrite Zlt_Qlt. auto. Qed.
Lemma dn_le a b : inject_Z a <= inject_Z b -> (a <= b)%Z. Proof. rewrite Zle_Qle. auto. Qed.
Lemma dn_lt a b : inject_Z a < inject_Z b -> (a < b)%Z. Proof. rewrite Zlt_Qlt. auto. Qed.
Lemma inj_add a b : inject_Z (a + b) == inject_Z a + inject_Z b. Proof. rewrite inject_Z_plus. reflexivity. Qed.
Lemma inj_mul a b : inject_Z (a * b) == inject_Z a * inject_Z b. Proof. rewrite inject_Z_mult. reflexivity. Qed.
Lemma inj_opp a : inject_Z (- a) == - inject_Z a. Proof. rewrite inject_Z_opp. reflexivity. Qed.
Lemma inj_sub a b : inject_Z (a - b) == inject_Z a - inject_Z b. Proof. unfold Z.sub. rewrite inj_add, inj_opp. reflexivity. Qed.
Lemma qabs_le x y : Qabs x <= y <-> - y <= x <= y. Proof. apply Qabs_Qle_condition. Qed.
(** the clock is within half a thousandth below, and one above, the time in clocks *)
Lemma floor_round3 u : inject_Z (Qfloor (round3 u)) - (1 # 2000) <= u <= inject_Z (Qfloor (round3 u)) + 1 - (1 # 2000).
Proof. unfold round3. pose proof (py_round_spec (u * 1000)) as [h1 h2]. set (R := py_round (u * 1000)) in *. destruct (Qfloor_spec (inject_Z R / 1000)) as [f1 f2]. set (c := Qfloor (inject_Z R / 1000)) in *.
  assert (D : inject_Z R / 1000 == inject_Z R * (1 # 1000)) by field. rewrite D in f1, f2. clear D. clearbody c. clearbody R.
  assert (A : (1000 * c <= R)%Z). { apply dn_le. rewrite inj_mul. change (inject_Z 1000) with 1000. lra. }
  assert (B : (R < 1000 * (c + 1))%Z). { apply dn_lt. rewrite inj_mul, inj_add. change (inject_Z 1000) with 1000. change (inject_Z 1) with 1. lra. }
  assert (B' : (R <= 1000 * c + 999)%Z) by lia. apply up_le in A, B'. rewrite inj_add in B'. rewrite inj_mul in A, B'. change (inject_Z 1000) with 1000 in *. change (inject_Z 999) with 999 in *. split; lra. Qed.

Definition near (s : Q) (n : Z) : Prop := Qabs (s - inject_Z n) <= (1 # 10000) + (1 # 100000) * inject_Z n.
Lemma isclose_spec s n : (0 <= n)%Z -> isclose s (inject_Z n) = true <-> near s n.
Proof. intros hn. unfold isclose, near. rewrite Qle_bool_iff. rewrite (Qabs_pos (inject_Z n)); [reflexivity|]. change 0 with (inject_Z 0). apply up_le, hn. Qed.

Lemma clock_sample_inv name k t c s : clock_sample (name, k) t = Ok (c, s) -> exists fs, name_rate name = Ok fs /\ c = Qfloor (round3 (t * (inject_Z fs / 8))) /\ s = (t - inject_Z c / (inject_Z fs / 8)) * inject_Z fs /\ isclose s (inject_Z (py_round s)) = true.
Proof. unfold clock_sample. intros h. apply bind_Ok in h. destruct h as (fs & h1 & h). destruct (isclose _ _) eqn:e; [|discriminate]. injection h as h2 h3. subst c. subst s. exists fs. auto. Qed.
Lemma name_rate_pos name fs : name_rate name = Ok fs -> fs = 1800000000%Z \/ fs = 2400000000%Z.
Proof. unfold name_rate. destruct (PathModel.contains _ _); [intros [= <-]; auto|]. destruct (PathModel.contains _ _); [intros [= <-]; auto|discriminate]. Qed.
Lemma sample_eq t fs c : ~ fs == 0 -> (t - c / (fs / 8)) * fs == t * fs - 8 * c.
Proof. intros h. field. exact h. Qed.
Lemma rate_nz name fs : name_rate name = Ok fs -> ~ inject_Z fs == 0.
Proof. intros h. destruct (name_rate_pos _ _ h) as [-> | ->]; discriminate. Qed.

(** An accepted time lies at sample n of clock cycle c, up to the tolerance; n is one of 0..7. *)
Lemma clock_sample_sound name k t c s : clock_sample (name, k) t = Ok (c, s) -> exists fs n, name_rate name = Ok fs /\ (0 <= n <= 7)%Z /\ near s n /\ s == t * inject_Z fs - 8 * inject_Z c /\ py_round s = n.
Proof. intros h. apply clock_sample_inv in h. destruct h as (fs & h1 & h2 & h3 & h4). pose proof (rate_nz _ _ h1) as nz. pose proof (sample_eq t (inject_Z fs) (inject_Z c) nz) as se. rewrite <- h3 in se. exists fs, (py_round s). split; [exact h1|].
  pose proof (floor_round3 (t * (inject_Z fs / 8))) as fr. rewrite <- h2 in fr. assert (e8 : t * (inject_Z fs / 8) == (t * inject_Z fs) * (1 # 8)) by field. rewrite e8 in fr.
  assert (L : - (1 # 250) <= s <= 8 - (1 # 250)) by (rewrite se; split; lra).
  pose proof (py_round_spec s) as ps. set (m := py_round s) in *.
  assert (M0 : (-1 < m)%Z) by (apply dn_lt; change (inject_Z (-1)) with (-1); lra).
  assert (M9 : (m < 9)%Z) by (apply dn_lt; change (inject_Z 9) with 9; lra).
  assert (N : near s m) by (apply isclose_spec; [lia|exact h4]).
  split; [|split; [exact N|split; [exact se|reflexivity]]]. split; [lia|]. assert ((m <> 8)%Z); [|lia]. intros e. rewrite e in N. unfold near in N. apply qabs_le in N. change (inject_Z 8) with 8 in N. lra. Qed.
(** A time within 1/10000 of sample m is accepted, at clock m / 8. *)
Lemma clock_sample_complete name k t fs m : name_rate name = Ok fs -> Qabs (t * inject_Z fs - inject_Z m) <= 1 # 10000 -> exists s, clock_sample (name, k) t = Ok ((m / 8)%Z, s) /\ s == t * inject_Z fs - 8 * inject_Z (m / 8).
Proof. intros h1 hm. pose proof (rate_nz _ _ h1) as nz. apply qabs_le in hm. unfold clock_sample. cbn [fst]. rewrite h1. cbn [bind].
  assert (dm : m = (8 * (m / 8) + m mod 8)%Z) by (apply Z.div_mod; lia). pose proof (Z.mod_pos_bound m 8 ltac:(lia)) as mb. set (q := (m / 8)%Z) in *. set (n := (m mod 8)%Z) in *.
  assert (im : inject_Z m == 8 * inject_Z q + inject_Z n) by (rewrite dm, inj_add, inj_mul; reflexivity).
  assert (e8 : t * (inject_Z fs / 8) == (t * inject_Z fs) * (1 # 8)) by field.
  assert (R : py_round (t * (inject_Z fs / 8) * 1000) = (1000 * q + 125 * n)%Z).
  { apply py_round_unique. rewrite e8, inj_add, !inj_mul. change (inject_Z 1000) with 1000. change (inject_Z 125) with 125. split; lra. }
  assert (C : Qfloor (round3 (t * (inject_Z fs / 8))) = q).
  { unfold round3. rewrite R. destruct (Qfloor_spec (inject_Z (1000 * q + 125 * n) / 1000)) as [f1 f2]. set (z := Qfloor _) in *. assert (E : inject_Z (1000 * q + 125 * n) / 1000 == inject_Z q + inject_Z n * (1 # 8)) by (rewrite inj_add, !inj_mul; change (inject_Z 1000) with 1000; change (inject_Z 125) with 125; field). rewrite E in f1, f2.
    assert (n0 : 0 <= inject_Z n) by (change 0 with (inject_Z 0); apply up_le; lia). assert (n8 : inject_Z n < 8) by (change 8 with (inject_Z 8); apply up_lt; lia).
    assert (z < q + 1)%Z by (apply dn_lt; rewrite inj_add; change (inject_Z 1) with 1; lra). assert (q < z + 1)%Z by (apply dn_lt; rewrite inj_add; change (inject_Z 1) with 1; lra). lia. }
  rewrite C. pose proof (sample_eq t (inject_Z fs) (inject_Z q) nz) as se.
  set (s := (t - inject_Z q / (inject_Z fs / 8)) * inject_Z fs) in *.
  assert (PS : py_round s = n) by (apply py_round_unique; rewrite se; split; lra).
  rewrite PS. assert (isclose s (inject_Z n) = true) as ->. { apply isclose_spec; [lia|]. unfold near. apply qabs_le. rewrite se. assert (n0 : 0 <= inject_Z n) by (change 0 with (inject_Z 0); apply up_le; lia). split; lra. }
  exists s. split; [reflexivity|exact se]. Qed.

(** * The correction *)

Lemma fixpoint_ok s : exists c, fixpoint_correction s 600000000 = Ok c /\ (0 <= c <= 21)%Z /\ ((s + c) mod 8 = 0)%Z /\ (exists i : Z, (c = 3 * i /\ 0 <= i <= 7)%Z).
Proof. unfold fixpoint_correction. change (Qeq_bool (1800000000 / 600000000) (inject_Z (Qfloor (1800000000 / 600000000)))) with true. cbn [negb]. change (Qfloor (1800000000 / 600000000)) with 3%Z.
  pose proof (Z.mod_pos_bound (- s) 8 ltac:(lia)) as b. assert (E : ((s + (- s) mod 8) mod 8 = 0)%Z) by (rewrite Zplus_mod_idemp_r; replace (s + - s)%Z with 0%Z by lia; reflexivity). set (d := ((- s) mod 8)%Z) in *.
  assert (K : forall i, ((3 * i) mod 8 = d)%Z -> ((s + 3 * i) mod 8 = 0)%Z) by (intros i hi; rewrite <- Zplus_mod_idemp_r, hi; exact E).
  assert (D : (d = 0 \/ d = 1 \/ d = 2 \/ d = 3 \/ d = 4 \/ d = 5 \/ d = 6 \/ d = 7)%Z) by lia.
  destruct D as [e|[e|[e|[e|[e|[e|[e|e]]]]]]]; rewrite e.
  - exists 0%Z. split; [reflexivity|]. split; [lia|]. split; [apply (K 0%Z); rewrite e; reflexivity|exists 0%Z; lia].
  - exists 9%Z. split; [reflexivity|]. split; [lia|]. split; [apply (K 3%Z); rewrite e; reflexivity|exists 3%Z; lia].
  - exists 18%Z. split; [reflexivity|]. split; [lia|]. split; [apply (K 6%Z); rewrite e; reflexivity|exists 6%Z; lia].
  - exists 3%Z. split; [reflexivity|]. split; [lia|]. split; [apply (K 1%Z); rewrite e; reflexivity|exists 1%Z; lia].
  - exists 12%Z. split; [reflexivity|]. split; [lia|]. split; [apply (K 4%Z); rewrite e; reflexivity|exists 4%Z; lia].
  - exists 21%Z. split; [reflexivity|]. split; [lia|]. split; [apply (K 7%Z); rewrite e; reflexivity|exists 7%Z; lia].
  - exists 6%Z. split; [reflexivity|]. split; [lia|]. split; [apply (K 2%Z); rewrite e; reflexivity|exists 2%Z; lia].
  - exists 15%Z. split; [reflexivity|]. split; [lia|]. split; [apply (K 5%Z); rewrite e; reflexivity|exists 5%Z; lia]. Qed.
