(** C70: proofs about the input gains. *)
From Verif Require Import Base CircModel PathModel OptModel OptSpec.
From Coq Require Import Ascii.
Local Open Scope string_scope.
Local Open Scope list_scope.
Local Open Scope Z_scope.

Lemma last_char_app pre c : last_char (pre ++ String c "") = Some c.
Proof. induction pre as [|x pre IH]; cbn [append last_char]; [reflexivity|]. destruct pre; cbn in *; auto. Qed.
Lemma last_char_inv s c : last_char s = Some c -> exists pre, s = (pre ++ String c "")%string.
Proof.
  induction s as [|x s IH]; cbn [last_char]; [discriminate|]. destruct s as [|y s].
  - intros H. injection H as <-. now exists ""%string.
  - intros H. destruct (IH H) as [pre E]. exists (String x pre). cbn [append]. now rewrite <- E.
Qed.
Lemma digit_char c d : digit c = Some d -> c = ascii_of_nat (Z.to_nat (48 + d)) /\ 0 <= d <= 9.
Proof.
  unfold digit. set (n := Z.of_nat (nat_of_ascii c)). destruct ((48 <=? n) && (n <=? 57)) eqn:E; [|discriminate].
  apply andb_true_iff in E. destruct E as [E1 E2]. apply Z.leb_le in E1, E2. intros H. injection H as <-.
  replace (48 + (n - 48)) with n by lia. unfold n in *. rewrite Nat2Z.id, ascii_nat_embedding. split; [reflexivity|lia].
Qed.

(** the gain an option asks for at input [n] of a channel that ends in [d] *)
Definition wants (g : gain) (d n : Z) : option Z :=
  match g with GComplex i q => if Z.eqb n 0 then Some i else Some q | GReal v => if Z.eqb d n then Some v else None end.
Lemma asks_iff ch g d n v : last_int ch = Ok d -> n = 0 \/ n = 1 -> (asks ch g n v <-> wants g d n = Some v).
Proof.
  unfold last_int. destruct (last_char ch) as [c|] eqn:C; [|discriminate]. destruct (digit c) as [d'|] eqn:D; [|discriminate]. intros H N. injection H as ->.
  split.
  - intros A. inversion A; subst; cbn [wants]; try reflexivity.
    + rewrite last_char_app in C. injection C as <-. vm_compute in D. injection D as <-. reflexivity.
    + rewrite last_char_app in C. injection C as <-. vm_compute in D. injection D as <-. reflexivity.
  - destruct g as [w|i q]; cbn [wants].
    + destruct (Z.eqb_spec d n) as [->|]; [|discriminate]. intros H. injection H as <-. destruct (last_char_inv _ _ C) as [pre ->].
      destruct (digit_char _ _ D) as [-> _]. destruct N as [-> | ->]; [apply (asks_0 pre)|apply (asks_1 pre)].
    + destruct N as [-> | ->]; cbn; intros H; injection H as <-; constructor.
Qed.
(** a complex gain does not look at the channel name *)
Lemma asks_complex ch i q n v : asks ch (GComplex i q) n v <-> (n = 0 /\ v = i) \/ (n = 1 /\ v = q).
Proof. split; [intros A; inversion A; subst; auto|]. intros [[-> ->]|[-> ->]]; constructor. Qed.
Lemma asks_01 ch g n v : asks ch g n v -> n = 0 \/ n = 1.
Proof. intros A; inversion A; auto. Qed.

Definition orelse (a b : option Z) : option Z := match a with Some x => Some x | None => b end.
Definition usable (p : path) (g : gain) : Prop := match g with GComplex _ _ => True | GReal _ => exists d, last_int (p_ch p) = Ok d end.
(** what one port-clock asks for, as a pair *)
Lemma step_form gains st pc p g : get gains pc = Some g -> usable p g -> exists a b,
  (forall v, a = Some v <-> asks (p_ch p) g 0 v) /\ (forall v, b = Some v <-> asks (p_ch p) g 1 v) /\
  gain_step (Some gains) st (pc, p) =
    let x := orelse a (g_0 st) in let y := orelse b (g_1 st) in
    if truthy (g_pc st) && (clash x (g_i0 st) || clash y (g_i1 st)) then Err ValueError
    else Ok {| g_0 := x; g_1 := y; g_i0 := x; g_i1 := y; g_pc := Some pc; g_set := (x, y) |}.
Proof.
  intros G U. unfold gain_step. rewrite G. destruct g as [v|i q].
  - destruct U as [d D]. exists (wants (GReal v) d 0), (wants (GReal v) d 1). split; [|split].
    + intros w. symmetry. apply asks_iff; auto.
    + intros w. symmetry. apply asks_iff; auto.
    + rewrite D. cbn [bind wants]. destruct (Z.eqb_spec d 0) as [->|N0]; [reflexivity|]. destruct (Z.eqb_spec d 1); reflexivity.
  - exists (Some i), (Some q). split; [|split; [|reflexivity]].
    + intros w. rewrite asks_complex. split; [intros H; injection H as <-; auto|]. intros [[_ ->]|[? _]]; [reflexivity|lia].
    + intros w. rewrite asks_complex. split; [intros H; injection H as <-; auto|]. intros [[? _]|[_ ->]]; [lia|reflexivity].
Qed.

Record ginv (gains : dict gain) (l : dict path) (st : gstate) : Prop := {
  gi_set : g_set st = (g_0 st, g_1 st);
  gi_0 : g_i0 st = g_0 st;
  gi_1 : g_i1 st = g_1 st;
  gi_pc : truthy (g_pc st) = true \/ (g_0 st = None /\ g_1 st = None);
  gi_a0 : forall v, g_0 st = Some v <-> asked gains l 0 v;
  gi_a1 : forall v, g_1 st = Some v <-> asked gains l 1 v }.

Lemma asked_snoc gains l pc p n v : asked gains (l ++ [(pc, p)]) n v <-> asked gains l n v \/ exists g, get gains pc = Some g /\ asks (p_ch p) g n v.
Proof.
  split.
  - intros (pc' & p' & g & H & G & A). apply in_app_iff in H. destruct H as [H|[E|[]]]; [left; exists pc', p', g; auto|].
    injection E as <- <-. right. eauto.
  - intros [(pc' & p' & g & H & G & A)|(g & G & A)]; [exists pc', p', g|exists pc, p, g]; rewrite in_app_iff; cbn; auto.
Qed.

Lemma clash_false a b : clash a b = false <-> (forall x y, a = Some x -> b = Some y -> x = y).
Proof.
  destruct a as [x|], b as [y|]; cbn; split; try discriminate; try reflexivity.
  - intros H. apply negb_false_iff, Z.eqb_eq in H. subst. intros ? ? H1 H2. injection H1 as <-. now injection H2 as <-.
  - intros H. rewrite (H x y eq_refl eq_refl). now rewrite Z.eqb_refl.
Qed.
Lemma clash_true a b : clash a b = true -> exists x y, a = Some x /\ b = Some y /\ x <> y.
Proof. destruct a as [x|], b as [y|]; try discriminate. cbn. intros H. apply negb_true_iff, Z.eqb_neq in H. eauto. Qed.
Lemma orelse_inv a b v : orelse a b = Some v -> a = Some v \/ (a = None /\ b = Some v).
Proof. destruct a; cbn; auto. Qed.

Lemma step_inv gains l st pc p : ginv gains l st -> pc <> "" -> (forall g, get gains pc = Some g -> usable p g) ->
  (exists st', gain_step (Some gains) st (pc, p) = Ok st' /\ ginv gains (l ++ [(pc, p)]) st') \/
  (gain_step (Some gains) st (pc, p) = Err ValueError /\ exists n v w, asked gains (l ++ [(pc, p)]) n v /\ asked gains (l ++ [(pc, p)]) n w /\ v <> w).
Proof.
  intros [I1 I2 I3 I4 I5 I6] NE U. destruct (get gains pc) as [g|] eqn:G.
  - destruct (step_form gains st pc p g G (U g eq_refl)) as (a & b & A & B & ->). cbn [bind]. cbv zeta. rewrite I2, I3.
    destruct (truthy (g_pc st) && (clash (orelse a (g_0 st)) (g_0 st) || clash (orelse b (g_1 st)) (g_1 st))) eqn:E.
    + right. split; [reflexivity|]. apply andb_true_iff in E. destruct E as [_ E]. apply orb_true_iff in E.
      destruct E as [E|E]; destruct (clash_true _ _ E) as (x & y & E1 & E2 & E3); destruct (orelse_inv _ _ _ E1) as [E4|[_ E4]]; try congruence.
      * exists 0, x, y. rewrite !asked_snoc. split; [right; exists g; split; [exact G|now apply A]|]. split; [left; now apply I5|exact E3].
      * exists 1, x, y. rewrite !asked_snoc. split; [right; exists g; split; [exact G|now apply B]|]. split; [left; now apply I6|exact E3].
    + left. eexists. split; [reflexivity|].
      assert (C : clash (orelse a (g_0 st)) (g_0 st) = false /\ clash (orelse b (g_1 st)) (g_1 st) = false).
      { destruct I4 as [T|[N0 N1]].
        - rewrite T in E. cbn [andb] in E. now apply orb_false_iff in E.
        - rewrite N0, N1. split; [destruct a|destruct b]; reflexivity. }
      destruct C as [C0 C1]. rewrite clash_false in C0, C1.
      constructor; cbn [g_set g_0 g_1 g_i0 g_i1 g_pc]; try reflexivity.
      * left. destruct pc; [congruence|reflexivity].
      * intros v. rewrite asked_snoc, <- I5. split.
        -- intros H. destruct (orelse_inv _ _ _ H) as [K|[_ K]]; [right; exists g; split; [exact G|now apply A]|now left].
        -- intros [K|(g' & G' & K)].
           ++ destruct a as [x|]; cbn [orelse] in *; [|exact K]. now rewrite (C0 x v eq_refl K).
           ++ assert (g' = g) by congruence. subst g'. apply A in K. rewrite K. reflexivity.
      * intros v. rewrite asked_snoc, <- I6. split.
        -- intros H. destruct (orelse_inv _ _ _ H) as [K|[_ K]]; [right; exists g; split; [exact G|now apply B]|now left].
        -- intros [K|(g' & G' & K)].
           ++ destruct b as [x|]; cbn [orelse] in *; [|exact K]. now rewrite (C1 x v eq_refl K).
           ++ assert (g' = g) by congruence. subst g'. apply B in K. rewrite K. reflexivity.
  - left. unfold gain_step. rewrite G. eexists. split; [reflexivity|].
    constructor; cbn [g_set g_0 g_1 g_i0 g_i1 g_pc]; auto.
    + intros v. rewrite asked_snoc, I5. split; [auto|]. intros [H|(g & G' & _)]; [exact H|congruence].
    + intros v. rewrite asked_snoc, I6. split; [auto|]. intros [H|(g & G' & _)]; [exact H|congruence].
Qed.

Lemma fold_inv gains : forall r l st, ginv gains l st -> (forall pc p, In (pc, p) r -> pc <> "" /\ forall g, get gains pc = Some g -> usable p g) ->
  (exists st', foldM (gain_step (Some gains)) r st = Ok st' /\ ginv gains (l ++ r) st') \/
  (foldM (gain_step (Some gains)) r st = Err ValueError /\ exists n v w, asked gains (l ++ r) n v /\ asked gains (l ++ r) n w /\ v <> w).
Proof.
  induction r as [|[pc p] r IH]; intros l st I H; cbn [foldM].
  - left. exists st. split; [reflexivity|]. now rewrite app_nil_r.
  - destruct (H pc p (or_introl eq_refl)) as [NE U]. destruct (step_inv gains l st pc p I NE U) as [(st' & -> & I')|(-> & n & v & w & A & B & N)]; cbn [bind].
    + replace (l ++ (pc, p) :: r) with ((l ++ [(pc, p)]) ++ r) by (rewrite <- app_assoc; reflexivity).
      apply IH; [exact I'|]. intros pc' p' K. apply H. now right.
    + right. split; [reflexivity|]. exists n, v, w.
      assert (M : forall x, asked gains (l ++ [(pc, p)]) n x -> asked gains (l ++ (pc, p) :: r) n x).
      { intros x (a & b & g & K & L). exists a, b, g. split; [|exact L]. rewrite in_app_iff in *. cbn in *. intuition. }
      auto.
Qed.
