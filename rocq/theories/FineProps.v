From Verif Require Import Base NumericModel NumericProps FineModel FineSpec.
From Coq Require Import Lqa.
Local Open Scope Q_scope.

Lemma inject_2 m : inject_Z (2 * m) == 2 * inject_Z m. Proof. rewrite inject_Z_mult. reflexivity. Qed.
Lemma Qfloor_add x m : Qfloor (x + inject_Z m) = (Qfloor x + m)%Z.
Proof.
  destruct (Qfloor_spec x) as [H1 H2]. destruct (Qfloor_spec (x + inject_Z m)) as [H3 H4].
  assert (A : (Qfloor x + m < Qfloor (x + inject_Z m) + 1)%Z) by (apply inject_Z_lt; rewrite !inject_Z_plus; rewrite ?inject_succ in *; change (inject_Z 1) with 1; lra).
  assert (B : (Qfloor (x + inject_Z m) < Qfloor x + m + 1)%Z) by (apply inject_Z_lt; rewrite !inject_Z_plus; rewrite ?inject_succ in *; change (inject_Z 1) with 1; lra). lia.
Qed.
Lemma py_round_even x m : py_round (x + inject_Z (2 * m)) = (py_round x + 2 * m)%Z.
Proof.
  unfold py_round. assert (E : x + inject_Z (2 * m) + (1 # 2) == x + (1#2) + inject_Z (2 * m)) by ring. rewrite (Qfloor_comp _ _ E). rewrite Qfloor_add. rewrite inject_Z_plus.
  assert (O : Z.odd (Qfloor (x + (1#2)) + 2 * m) = Z.odd (Qfloor (x + (1#2)))) by (rewrite Z.odd_add, Z.odd_mul; cbn [Z.odd andb]; apply xorb_false_r). rewrite O.
  assert (Q : Qeq_bool (inject_Z (Qfloor (x + (1 # 2))) + inject_Z (2 * m)) (x + (1#2) + inject_Z (2 * m)) = Qeq_bool (inject_Z (Qfloor (x + (1 # 2)))) (x + (1#2))).
  { apply eq_true_iff_eq. rewrite !Qeq_bool_iff. split; intros H; lra. }
  assert (E2 : Qeq_bool (inject_Z (Qfloor (x + (1 # 2))) + inject_Z (2 * m)) (x + inject_Z (2 * m) + (1 # 2)) = Qeq_bool (inject_Z (Qfloor (x + (1 # 2))) + inject_Z (2 * m)) (x + (1#2) + inject_Z (2 * m))).
  { apply eq_true_iff_eq. rewrite !Qeq_bool_iff. split; intros H; lra. }
  rewrite ?E2, Q. destruct (_ && _); lia.
Qed.
Lemma fine_of x k : x == inject_Z k / 128 -> fine x = k.
Proof. intros H. unfold fine. rewrite <- (py_round_int k). apply py_round_comp. rewrite H. field. Qed.
Lemma ps_near x k : x == inject_Z k / 128 -> (-64 <= 128 * ps x - 1000 * k <= 64)%Z.
Proof.
  intros H. unfold ps. pose proof (py_round_spec (x * 1000)) as [H1 H2]. set (p := py_round (x * 1000)) in *. assert (E : x * 1000 == inject_Z (1000 * k) * (1#128)) by (rewrite H, inject_Z_mult; field). rewrite E in H1, H2.
  split; rewrite Zle_Qle; unfold Z.sub; rewrite inject_Z_plus, inject_Z_opp, (inject_Z_mult 128 p); change (inject_Z 128) with 128; change (inject_Z (-64)) with (-64 # 1); change (inject_Z 64) with (64#1); lra.
Qed.
Lemma ps_shift x y j : x == y + inject_Z j -> ps x = (ps y + 1000 * j)%Z.
Proof.
  intros H. unfold ps. replace (1000 * j)%Z with (2 * (500 * j))%Z by lia. rewrite <- py_round_even. apply py_round_comp. rewrite H. replace (2 * (500 * j))%Z with (1000 * j)%Z by lia. rewrite inject_Z_mult. change (inject_Z 1000) with 1000. ring.
Qed.
(** An instant in ps and the same in 1/128 ns: the check on ps says exactly that the instants are apart *)
Lemma apart_ps x y kx ky tx ty : x == inject_Z kx / 128 -> y == inject_Z ky / 128 ->
  (((ty * 1000 + ps y) - (tx * 1000 + ps x)) mod 1000 = 0 \/ 7000 <= (ty * 1000 + ps y) - (tx * 1000 + ps x))%Z <-> apart (tx * 128 + kx) (ty * 128 + ky).
Proof.
  intros X Y. pose proof (ps_near x kx X) as NX. pose proof (ps_near y ky Y) as NY. unfold apart. split.
  - intros [H|H].
    + left. apply Z.mod_divide in H; [|lia]. destruct H as [j H]. exists j. lia.
    + right. lia.
  - intros [[j H]|H].
    + left. assert (E : y == x + inject_Z (j - ty + tx)).
      { rewrite X, Y. assert (K : ky = (kx + (j - ty + tx) * 128)%Z) by lia. rewrite K, inject_Z_plus, inject_Z_mult. change (inject_Z 128) with 128. field. }
      apply ps_shift in E. apply Z.mod_divide; [lia|]. exists j. lia.
    + assert (D : (ty * 128 + ky - (tx * 128 + kx) = 896 \/ 897 <= ty * 128 + ky - (tx * 128 + kx))%Z) by lia. destruct D as [D|D]; [|right; lia].
      left. assert (E : y == x + inject_Z (7 - ty + tx)).
      { rewrite X, Y. assert (K : ky = (kx + (7 - ty + tx) * 128)%Z) by lia. rewrite K, inject_Z_plus, inject_Z_mult. change (inject_Z 128) with 128. field. }
      apply ps_shift in E. apply Z.mod_divide; [lia|]. exists 7%Z. lia.
Qed.
Lemma mod_shift a j : ((a + j * 1000) mod 1000 = a mod 1000)%Z.
Proof. apply Z_mod_plus_full. Qed.
Lemma within_spec o : exact o -> (bad_within o = false <-> apart (begins o) (finishes o)).
Proof.
  intros [[ks S] [ke E]]. unfold begins, finishes. rewrite (fine_of _ _ S), (fine_of _ _ E).
  rewrite <- (apart_ps _ _ ks ke (py_round (start o)) (py_round (start o) + py_round (dur o)) S E). unfold bad_within, grid_ps, MIN_PS. rewrite andb_false_iff, negb_false_iff, Z.eqb_eq, Z.ltb_ge.
  assert (M : (((py_round (start o) + py_round (dur o)) * 1000 + ps (fine_end o) - (py_round (start o) * 1000 + ps (fine_start o))) mod 1000 = (ps (fine_end o) - ps (fine_start o)) mod 1000)%Z).
  { rewrite <- (mod_shift (ps (fine_end o) - ps (fine_start o)) (py_round (dur o))). f_equal. ring. }
  rewrite M. split; intros [H|H]; auto; right; lia.
Qed.
Lemma mod_opp a : ((- a) mod 1000 = 0 <-> a mod 1000 = 0)%Z.
Proof. rewrite !Z.mod_divide by lia. apply Z.divide_opp_r. Qed.
Lemma between_spec p o : exact p -> exact o -> (bad_between (end_ps p) o = false <-> apart (finishes p) (begins o)).
Proof.
  intros [_ [kp P]] [[ks S] _]. unfold begins, finishes. rewrite (fine_of _ _ S), (fine_of _ _ P).
  rewrite <- (apart_ps _ _ kp ks (py_round (start p) + py_round (dur p)) (py_round (start o)) P S). unfold bad_between, end_ps, grid_ps, MIN_PS. rewrite andb_false_iff, negb_false_iff, Z.eqb_eq, Z.ltb_ge.
  assert (M : (((py_round (start p) * 1000 + py_round (dur p) * 1000 + ps (fine_end p) - ps (fine_start o)) mod 1000 = 0)%Z <-> ((py_round (start o) * 1000 + ps (fine_start o) - ((py_round (start p) + py_round (dur p)) * 1000 + ps (fine_end p))) mod 1000 = 0)%Z)).
  { rewrite <- mod_opp. rewrite <- (mod_shift _ (py_round (start o))). match goal with |- (?a mod _ = _)%Z <-> (?b mod _ = _)%Z => replace b with a by ring end. reflexivity. }
  rewrite M. split; intros [H|H]; auto; right; lia.
Qed.
Lemma first_spec o : exact o -> 0 <= start o -> 0 <= fine_start o -> bad_between (- MIN_PS) o = false.
Proof.
  intros [[k S] _] H1 H2. unfold bad_between. apply andb_false_iff. right. apply Z.ltb_ge. unfold grid_ps, MIN_PS.
  assert (A : (0 <= py_round (start o))%Z).
  { pose proof (py_round_spec (start o)) as [A1 A2]. assert (-1 < py_round (start o))%Z; [|lia]. apply inject_Z_lt. change (inject_Z (-1)) with (-1 # 1). lra. }
  assert (B : (0 <= ps (fine_start o))%Z).
  { unfold ps. pose proof (py_round_spec (fine_start o * 1000)) as [A1 A2]. assert (-1 < py_round (fine_start o * 1000))%Z; [|lia]. apply inject_Z_lt. change (inject_Z (-1)) with (-1 # 1). lra. }
  lia.
Qed.
