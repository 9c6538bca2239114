(** Lemmas for C69. *)
From Verif Require Import Base NumericModel NumericProps WfModel WfProps AmpModel AmpSpec.
Local Open Scope Q_scope.
Local Open Scope list_scope.
Local Notation length := List.length.
Local Notation sample := (Q * Q)%type.

Lemma Qlt_bool_morph : forall a b c d, a == c -> b == d -> Qlt_bool a b = Qlt_bool c d.
Proof. intros a b c d H1 H2. destruct (Qlt_bool c d) eqn:E; [apply Qlt_bool_iff in E; apply Qlt_bool_iff|apply Qlt_bool_false in E; apply Qlt_bool_false]; rewrite H1, H2; exact E. Qed.
Notation pk := (fun b y => if Qlt_bool (Qabs b) (Qabs y) then y else b).
Lemma peak_fold : forall r x, is_peak (x :: r) (fold_left pk r x).
Proof.
  induction r as [|y r IH]; intros x; cbn [fold_left].
  - split; [now left|]. intros z [<-|[]]. apply Qle_refl.
  - destruct (Qlt_bool (Qabs x) (Qabs y)) eqn:E.
    + apply Qlt_bool_iff in E. destruct (IH y) as [I M]. split; [now right|]. intros z [<-|Hz]; [|now apply M].
      apply Qle_trans with (Qabs y); [now apply Qlt_le_weak|]. apply M. now left.
    + apply Qlt_bool_false in E. destruct (IH x) as [I M]. split; [destruct I as [I|I]; [left; exact I|right; right; exact I]|]. intros z [<-|[<-|Hz]]; [apply M; now left| |apply M; now right].
      apply Qle_trans with (Qabs x); [exact E|]. apply M. now left.
Qed.
Lemma peak_ok : forall l c, peak l = Ok c -> is_peak l c.
Proof. intros [|x r] c H; [discriminate|]. injection H as <-. apply peak_fold. Qed.
Lemma peak_some : forall l, l <> [] -> exists c, peak l = Ok c.
Proof. intros [|x r] H; [now elim H|]. eexists. reflexivity. Qed.

Lemma norm_inv : forall p w a b, normalize p = Ok (w, a, b) -> is_peak (map fst p) a /\ is_peak (map snd p) b /\ length w = length p /\
  (~ a == 0 -> map fst w = map (fun z => fst z / a) p) /\ (~ b == 0 -> map snd w = map (fun z => snd z / b) p) /\ (b == 0 -> map snd w = map (fun _ => 0) p).
Proof.
  intros p w a b H. unfold normalize in H. destruct (peak (map fst p)) as [a'|] eqn:Ea; [|discriminate]. destruct (peak (map snd p)) as [b'|] eqn:Eb; [|discriminate]. cbn [bind] in H.
  apply peak_ok in Ea. apply peak_ok in Eb.
  assert (R : forall z : sample, ~ a' == 0 -> (if Qeq_bool a' 0 then 0 else fst z / a') = fst z / a'). { intros z N. destruct (Qeq_bool a' 0) eqn:E; [apply Qeq_bool_iff in E; contradiction|reflexivity]. }
  destruct (Qeq_bool b' 0) eqn:E; injection H as <- <- <-; (split; [exact Ea|]); (split; [exact Eb|]); (split; [now rewrite map_length|]); rewrite !map_map; cbn [fst snd].
  - apply Qeq_bool_iff in E. split; [intros N; apply map_ext; intros z; apply R; exact N|]. split; [intros N; contradiction|reflexivity].
  - split; [intros N; apply map_ext; intros z; apply R; exact N|]. split; [reflexivity|]. intros N. apply Qeq_bool_iff in N. congruence.
Qed.
Lemma norm_ok : forall p, p <> [] -> exists w a b, normalize p = Ok (w, a, b).
Proof.
  intros p N. unfold normalize. destruct (peak_some (map fst p)) as [a Ea]; [destruct p; [now elim N|discriminate]|]. destruct (peak_some (map snd p)) as [b Eb]; [destruct p; [now elim N|discriminate]|].
  rewrite Ea, Eb. cbn [bind]. destruct (Qeq_bool b 0); do 3 eexists; reflexivity.
Qed.
Lemma non_null_ne : forall a, non_null a = true -> ~ a == 0.
Proof. intros a H E. unfold non_null in H. apply Qle_bool_iff in H. rewrite E in H. cbn in H. revert H. unfold Qle. cbn. lia. Qed.
Lemma non_null_iff : forall a, non_null a = true <-> 1 # 32768 <= Qabs a.
Proof. intros a. unfold non_null. rewrite Qle_bool_iff. assert (E : 2 / 65536 == 1 # 32768) by reflexivity. rewrite E. reflexivity. Qed.
Lemma non_null_false : forall a, non_null a = false -> Qabs a < 1 # 32768.
Proof. intros a H. apply Qnot_le_lt. intros C. apply non_null_iff in C. congruence. Qed.

Section S.
Variable hash : list Z -> Z.
Notation add_wf := (add_wf hash).
Notation add_all := (add_all hash).
Lemma add_all_app : forall a b d, add_all d (a ++ b) = let '(d1, i) := add_all d a in let '(d2, j) := add_all d1 b in (d2, i ++ j).
Proof.
  induction a as [|x a IH]; intros b d; cbn.
  - destruct (add_all d b); reflexivity.
  - destruct (add_wf d x) as [d1 i]. rewrite IH. destruct (add_all d1 a) as [d2 k]. destruct (add_all d2 b) as [d3 j]. reflexivity.
Qed.
Lemma add_one : forall d w, add_all d [w] = let '(d1, i) := add_wf d w in (d1, [i]).
Proof. intros. cbn. destruct (add_wf d w). reflexivity. Qed.

Definition idx (o : option nat) : list nat := match o with Some i => [i] | None => [] end.
(** what one pulse adds to the table *)
Lemma generate_inv : forall complex d p d' s, generate_data hash complex d p = Ok (d', s) -> exists ws0 ws1,
  add_all d (ws0 ++ ws1) = (d', idx (index0 s) ++ idx (index1 s)) /\ is_peak (map fst p) (amp_I s) /\ is_peak (map snd p) (amp_Q s) /\
  (match index0 s with Some _ => non_null (amp_I s) = true /\ ws0 = [map (fun z => fst z / amp_I s) p] | None => non_null (amp_I s) = false /\ ws0 = [] end) /\
  (match index1 s with Some _ => non_null (amp_Q s) = true /\ ws1 = [map (fun z => snd z / amp_Q s) p] | None => non_null (amp_Q s) = false /\ ws1 = [] end) /\
  (complex = true \/ amp_Q s == 0).
Proof.
  intros complex d p d' s H. unfold generate_data in H. destruct (normalize p) as [[[w a] b]|] eqn:E; [|discriminate]. cbn [bind] in H. apply norm_inv in E. destruct E as [Pa [Pb [L [Fa [Fb Fz]]]]].
  destruct (existsb _ w && negb complex)%bool eqn:Ec; [discriminate|].
  assert (C : complex = true \/ b == 0).
  { destruct complex; [now left|right]. rewrite andb_true_r in Ec. destruct (Qeq_dec b 0) as [Z|N]; [exact Z|]. exfalso. destruct Pb as [Ib _]. apply in_map_iff in Ib. destruct Ib as [z [Hz Iz]].
    assert (V : In (b / b) (map snd w)). { rewrite (Fb N). apply in_map_iff. exists z. rewrite Hz. now split. }
    apply in_map_iff in V. destruct V as [y [Hy Iy]]. assert (F : existsb (fun z : sample => negb (Qeq_bool (snd z) 0)) w = true); [|congruence].
    apply existsb_exists. exists y. split; [exact Iy|]. rewrite Hy. apply Bool.negb_true_iff. destruct (Qeq_bool (b / b) 0) eqn:Q; [|reflexivity]. apply Qeq_bool_iff in Q. exfalso. assert (Q1 : b / b == 1) by (field; exact N). rewrite Q in Q1. discriminate. }
  destruct (non_null a) eqn:Na.
  - specialize (Fa (non_null_ne _ Na)). destruct (add_wf d (map fst w)) as [d1 i] eqn:E1. destruct (non_null b) eqn:Nb.
    + specialize (Fb (non_null_ne _ Nb)). destruct (add_wf d1 (map snd w)) as [d2 j] eqn:E2. injection H as <- <-. cbn [index0 index1 amp_I amp_Q idx].
      exists [map (fun z => fst z / a) p], [map (fun z => snd z / b) p]. rewrite <- Fa, <- Fb. cbn. rewrite E1, E2. auto 10.
    + injection H as <- <-. cbn [index0 index1 amp_I amp_Q idx]. exists [map (fun z => fst z / a) p], []. rewrite <- Fa. cbn. rewrite E1. auto 10.
  - destruct (non_null b) eqn:Nb.
    + specialize (Fb (non_null_ne _ Nb)). destruct (add_wf d (map snd w)) as [d2 j] eqn:E2. injection H as <- <-. cbn [index0 index1 amp_I amp_Q idx].
      exists [], [map (fun z => snd z / b) p]. rewrite <- Fb. cbn. rewrite E2. auto 10.
    + injection H as <- <-. cbn [index0 index1 amp_I amp_Q idx]. exists [], []. cbn. auto 10.
Qed.
(** what all pulses add *)
Lemma all_inv : forall complex ps d d' ss, generate_all hash complex d ps = Ok (d', ss) -> exists ws, add_all d ws = (d', flat_map (fun s => idx (index0 s) ++ idx (index1 s)) ss) /\
  (forall w, In w ws -> parts ps w) /\ length ss = length ps.
Proof.
  intros complex. induction ps as [|p r IH]; intros d d' ss H; cbn [generate_all] in H.
  - injection H as <- <-. exists []. split; [reflexivity|]. split; [intros w []|reflexivity].
  - destruct (generate_data hash complex d p) as [[d1 s]|] eqn:E; [|discriminate]. cbn [bind] in H. destruct (generate_all hash complex d1 r) as [[d2 ss2]|] eqn:E2; [|discriminate]. cbn [bind] in H. injection H as <- <-.
    destruct (IH _ _ _ E2) as [ws [A [P L]]]. destruct (generate_inv _ _ _ _ _ E) as [w0 [w1 [B [Pa [Pb [M0 [M1 _]]]]]]]. exists ((w0 ++ w1) ++ ws). split.
    + rewrite add_all_app, B, A. reflexivity.
    + split; [|cbn; now rewrite L]. intros w Hw. apply in_app_or in Hw. destruct Hw as [Hw|Hw].
      * exists p. split; [now left|]. apply in_app_or in Hw. destruct Hw as [Hw|Hw].
        -- left. destruct (index0 s); destruct M0 as [_ ->]; [|destruct Hw]. destruct Hw as [<-|[]]. exists (amp_I s). now split.
        -- right. destruct (index1 s); destruct M1 as [_ ->]; [|destruct Hw]. destruct Hw as [<-|[]]. exists (amp_Q s). now split.
      * destruct (P w Hw) as [q [Iq Q]]. exists q. split; [now right|exact Q].
Qed.
Lemma add_all_table : forall ws d d' is, TInv hash d -> add_all d ws = (d', is) -> TInv hash d' /\ (exists s, d' = d ++ s) /\ Forall2 (fun w i => exists e, In e d' /\ index e = i /\ key e = uuid hash w) ws is.
Proof. intros ws d d' is I H. destruct (add_all_inv hash ws d d' is I H) as [A [B [_ C]]]. auto. Qed.

(** each pulse's parts are in the final table under the key of the part *)
Lemma all_stored : forall complex ps d d' ss, TInv hash d -> generate_all hash complex d ps = Ok (d', ss) -> TInv hash d' /\ (exists s, d' = d ++ s) /\
  Forall2 (fun p s => is_peak (map fst p) (amp_I s) /\ is_peak (map snd p) (amp_Q s) /\ (complex = true \/ amp_Q s == 0) /\
    (match index0 s with Some i => non_null (amp_I s) = true /\ exists e, In e d' /\ index e = i /\ key e = uuid hash (map (fun z => fst z / amp_I s) p) | None => non_null (amp_I s) = false end) /\
    (match index1 s with Some i => non_null (amp_Q s) = true /\ exists e, In e d' /\ index e = i /\ key e = uuid hash (map (fun z => snd z / amp_Q s) p) | None => non_null (amp_Q s) = false end)) ps ss.
Proof.
  intros complex. induction ps as [|p r IH]; intros d d' ss I H; cbn [generate_all] in H.
  - injection H as <- <-. split; [exact I|]. split; [exists []; now rewrite app_nil_r|constructor].
  - destruct (generate_data hash complex d p) as [[d1 s]|] eqn:E; [|discriminate]. cbn [bind] in H. destruct (generate_all hash complex d1 r) as [[d2 ss2]|] eqn:E2; [|discriminate]. cbn [bind] in H. injection H as <- <-.
    destruct (generate_inv _ _ _ _ _ E) as [w0 [w1 [B [Pa [Pb [M0 [M1 C]]]]]]]. destruct (add_all_table _ _ _ _ I B) as [I1 [[s1 S1] F]]. destruct (IH _ _ _ I1 E2) as [I2 [[s2 S2] G]].
    split; [exact I2|]. split; [exists (s1 ++ s2); rewrite S2, S1; now rewrite app_assoc|]. constructor; [|exact G]. split; [exact Pa|]. split; [exact Pb|]. split; [exact C|].
    assert (Inc : forall e, In e d1 -> In e d2) by (intros e He; rewrite S2; apply in_or_app; now left).
    destruct (index0 s) as [i|], (index1 s) as [j|]; cbn [idx app] in *; destruct M0 as [N0 ->]; destruct M1 as [N1 ->]; cbn [app] in F; rewrite ?N0, ?N1;
      repeat match goal with H : Forall2 _ (_ :: _) _ |- _ => inversion_clear H end; repeat match goal with H : exists e, _ |- _ => destruct H as [? [? [? ?]]] end; repeat split; eauto 8.
Qed.
Lemma TInv_nil : TInv hash [].
Proof. repeat split; constructor. Qed.
Lemma index_unique : forall d e f, TInv hash d -> In e d -> In f d -> index e = index f -> e = f.
Proof. intros d e f [H1 _] He Hf E. apply (NoDup_map_inj index d); [rewrite H1; apply seq_NoDup|exact He|exact Hf|exact E]. Qed.
Lemma key_unique : forall d e f, TInv hash d -> In e d -> In f d -> key e = key f -> e = f.
Proof. intros d e f [_ [H1 _]] He Hf E. apply (NoDup_map_inj key d); assumption. Qed.
Lemma table_parts : forall complex ps d ss e, generate_all hash complex [] ps = Ok (d, ss) -> In e d -> parts ps (data e) /\ key e = uuid hash (data e).
Proof.
  intros complex ps d ss e H He. destruct (all_inv _ _ _ _ _ H) as [ws [A [P _]]]. destruct (add_all_inv hash ws [] d _ TInv_nil A) as [I [_ [C _]]]. split.
  - destruct (C e He) as [[]|Hw]. now apply P.
  - destruct I as [_ [_ F]]. rewrite Forall_forall in F. now apply F.
Qed.
End S.

Lemma round12_close : forall a b, round12 a = round12 b -> length a = length b /\ forall k, Qabs (nth k a 0 - nth k b 0) <= 1 # 1000000000000.
Proof.
  induction a as [|x a IH]; intros [|y b] H; try discriminate.
  - split; [reflexivity|]. intros [|k]; cbn; unfold Qle; cbn; lia.
  - cbn in H. injection H as H1 H2. destruct (IH b H2) as [L K]. split; [cbn; now rewrite L|]. intros [|k]; [|apply K]. cbn [nth].
    pose proof (py_round_spec (x * 1000000000000)) as [A1 A2]. pose proof (py_round_spec (y * 1000000000000)) as [B1 B2]. rewrite H1 in A1, A2. set (r := inject_Z (py_round (y * 1000000000000))) in *. clearbody r.
    apply Qabs_Qle_condition. split; lra.
Qed.
