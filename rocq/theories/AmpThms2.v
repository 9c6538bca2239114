(** C69: which pulses are accepted, which share waveforms, and acquisition weights. *)
From Verif Require Import Base NumericModel NumericProps WfModel WfProps AmpModel AmpSpec AmpProps AmpThms.
Local Open Scope Q_scope.
Local Open Scope list_scope.
Local Notation length := List.length.
Local Notation sample := (Q * Q)%type.
Local Notation concat := List.concat.

Lemma peak_zero : forall l c, is_peak l c -> c == 0 -> forall x, In x l -> x == 0.
Proof. intros l c [_ M] E x I. specialize (M x I). rewrite E in M. change (Qabs 0) with 0 in M. apply Qabs_Qle_condition in M. lra. Qed.
(** A pulse is compiled exactly if it has samples, and no imaginary part unless the channel is complex; then it can be played exactly if its values can be output. *)
Theorem C69_accepted : forall hash complex d p,
  ((exists r, generate_data hash complex d p = Ok r) <-> p <> [] /\ (complex = true \/ real_valued p)) /\
  forall d' s, generate_data hash complex d p = Ok (d', s) -> ((exists prog, insert_qasm s = Ok prog) <-> in_range p).
Proof.
  intros hash complex d p. split.
  - split.
    + intros [[d' s] H]. split; [intros ->; discriminate|]. destruct (generate_inv _ _ _ _ _ _ H) as [w0 [w1 [_ [_ [Pb [_ [_ [C|C]]]]]]]]; [now left|right]. intros z Hz. apply (peak_zero _ _ Pb C). now apply in_map.
    + intros [N C]. destruct (norm_ok p N) as [w [a [b E]]]. unfold generate_data. rewrite E. cbn [bind]. apply norm_inv in E. destruct E as [_ [Pb [_ [_ [_ Fz]]]]].
      assert (B : (existsb (fun z : sample => negb (Qeq_bool (snd z) 0)) w && negb complex)%bool = false).
      { destruct C as [->|C]; [now rewrite andb_false_r|]. destruct (existsb _ w) eqn:X; [|reflexivity]. exfalso. apply existsb_exists in X. destruct X as [z [Iz Hz]].
        assert (Z : b == 0). { destruct Pb as [Ib _]. apply in_map_iff in Ib. destruct Ib as [y [<- Iy]]. now apply C. }
        specialize (Fz Z). assert (I : In (snd z) (map snd w)) by now apply in_map. rewrite Fz in I. apply in_map_iff in I. destruct I as [y [E0 _]]. rewrite <- E0 in Hz. discriminate. }
      rewrite B. destruct (non_null a).
      * destruct (add_wf hash d (map fst w)) as [d1 i]. destruct (non_null b); [destruct (add_wf hash d1 (map snd w))|]; eauto.
      * destruct (non_null b); [destruct (add_wf hash d (map snd w))|]; eauto.
  - intros d' s H. destruct (generate_inv _ _ _ _ _ _ H) as [w0 [w1 [_ [Pa [Pb [M0 [M1 _]]]]]]].
    assert (R : in_range p <-> Qabs (amp_I s) <= 1 /\ Qabs (amp_Q s) <= 1).
    { split.
      - intros R. destruct Pa as [Ia _]. destruct Pb as [Ib _]. apply in_map_iff in Ia. destruct Ia as [y [<- Iy]]. apply in_map_iff in Ib. destruct Ib as [x [<- Ix]]. split; [apply (R y Iy)|apply (R x Ix)].
      - intros [A B] z Hz. destruct Pa as [_ Ma]. destruct Pb as [_ Mb]. specialize (Ma _ (in_map fst _ _ Hz)). specialize (Mb _ (in_map snd _ _ Hz)). split; lra. }
    rewrite R. clear R.
    assert (V : forall v, (exists g, expand_awg v 65536 = Ok g) <-> Qabs v <= 1).
    { intros v. destruct (C25_dac v) as [A B]. split; [intros [g E]; apply (gain_close _ _ E)|]. intros L. destruct (A L) as [g [E _]]. eauto. }
    assert (K : (index0 s <> None \/ index1 s <> None) -> (exists prog, insert_qasm s = Ok prog) <-> Qabs (amp_I s) <= 1 /\ Qabs (amp_Q s) <= 1).
    { intros Ne. rewrite <- !V. unfold insert_qasm. destruct (index0 s) as [i|] eqn:E0; [|destruct (index1 s) as [j|] eqn:E1; [|destruct Ne as [Ne|Ne]; now elim Ne]].
      - split; [intros [prog X]|intros [[g0 ->] [g1 ->]]; cbn [bind]; eauto]. destruct (expand_awg (amp_I s) 65536) as [g0|]; [|discriminate]. destruct (expand_awg (amp_Q s) 65536) as [g1|]; [|discriminate]. eauto.
      - split; [intros [prog X]|intros [[g0 ->] [g1 ->]]; cbn [bind]; eauto]. destruct (expand_awg (amp_I s) 65536) as [g0|]; [|discriminate]. destruct (expand_awg (amp_Q s) 65536) as [g1|]; [|discriminate]. eauto. }
    destruct (index0 s) as [i|] eqn:E0; [apply K; left; discriminate|]. destruct (index1 s) as [j|] eqn:E1; [apply K; right; discriminate|].
    destruct M0 as [M0 _]. destruct M1 as [M1 _]. apply non_null_false in M0. apply non_null_false in M1. split; [intros _; split; lra|]. intros _. unfold insert_qasm. rewrite E0, E1. eauto.
Qed.

Lemma validate_iff : forall d n used, (NoDup (used ++ map index d)) -> validate n used d = if (MAX_SAMPLES <? n + Z.of_nat (table_size d))%Z then Err RuntimeError else Ok tt.
Proof.
  induction d as [|e d IH]; intros n used N; cbn [validate table_size fold_right]; [now rewrite Z.add_0_r|].
  assert (X : existsb (Nat.eqb (index e)) used = false).
  { destruct (existsb _ used) eqn:X; [|reflexivity]. exfalso. apply existsb_exists in X. destruct X as [u [I E]]. apply Nat.eqb_eq in E. subst u. apply NoDup_remove_2 in N. apply N. apply in_or_app. now left. }
  rewrite X, IH.
  - fold (table_size d). rewrite Nat2Z.inj_add, Z.add_assoc. reflexivity.
  - cbn [app]. apply NoDup_cons_iff. apply NoDup_remove in N. cbn [map] in N. destruct N; split; assumption.
Qed.
(** Compiled pulses are refused only when their waveforms do not fit: the indices never clash. *)
Theorem C69_table : forall hash complex pulses d ss, generate_all hash complex [] pulses = Ok (d, ss) ->
  NoDup (map index d) /\ generate_awg_dict hash complex pulses = if (16384 <? Z.of_nat (table_size d))%Z then Err RuntimeError else Ok (d, ss).
Proof.
  intros hash complex ps d ss H. destruct (all_stored hash complex ps [] d ss (TInv_nil hash) H) as [[T _] _]. assert (N : NoDup (map index d)) by (rewrite T; apply seq_NoDup).
  split; [exact N|]. unfold generate_awg_dict. rewrite H. cbn [bind]. rewrite validate_iff by exact N. rewrite Z.add_0_l. unfold MAX_SAMPLES. destruct (16384 <? _)%Z; reflexivity.
Qed.

Lemma Qabs_pos : forall c, ~ c == 0 -> 0 < Qabs c.
Proof. intros c N. destruct (Qlt_le_dec 0 (Qabs c)) as [H|H]; [exact H|]. exfalso. apply N. apply Qabs_Qle_condition in H. lra. Qed.
Lemma peak_scale_fold : forall c l m x y, ~ c == 0 -> Forall2 (fun a b => b == c * a) l m -> y == c * x -> fold_left (fun b y => if Qlt_bool (Qabs b) (Qabs y) then y else b) m y == c * fold_left (fun b y => if Qlt_bool (Qabs b) (Qabs y) then y else b) l x.
Proof.
  intros c l m x y N F. revert x y. induction F as [|a b l m H F IH]; intros x y E; cbn [fold_left]; [exact E|]. apply IH.
  assert (X : Qlt_bool (Qabs y) (Qabs b) = Qlt_bool (Qabs x) (Qabs a)).
  { pose proof (Qabs_pos c N) as P. destruct (Qlt_bool (Qabs x) (Qabs a)) eqn:L.
    - apply Qlt_bool_iff in L. apply Qlt_bool_iff. rewrite E, H, !Qabs_Qmult. rewrite !(Qmult_comm (Qabs c)). now apply Qmult_lt_compat_r.
    - apply Qlt_bool_false in L. apply Qlt_bool_false. rewrite E, H, !Qabs_Qmult. rewrite !(Qmult_comm (Qabs c)). apply Qmult_le_compat_r; [exact L|now apply Qlt_le_weak]. }
  rewrite X. destruct (Qlt_bool (Qabs x) (Qabs a)); assumption.
Qed.
Lemma peak_scale : forall c l m a b, ~ c == 0 -> Forall2 (fun x y => y == c * x) l m -> peak l = Ok a -> peak m = Ok b -> b == c * a.
Proof. intros c l m a b N F A B. destruct F as [|x y l m H F]; [discriminate|]. injection A as <-. injection B as <-. apply peak_scale_fold; assumption. Qed.
Lemma norm_peaks : forall p w a b, normalize p = Ok (w, a, b) -> peak (map fst p) = Ok a /\ peak (map snd p) = Ok b.
Proof. intros p w a b H. unfold normalize in H. destruct (peak (map fst p)) as [a'|]; [|discriminate]. destruct (peak (map snd p)) as [b'|]; [|discriminate]. cbn [bind] in H. destruct (Qeq_bool b' 0); injection H as _ <- <-; auto. Qed.
Lemma round12_eq : forall v w, Forall2 Qeq v w -> round12 v = round12 w.
Proof. intros v w F. induction F; [reflexivity|]. cbn. f_equal; [|assumption]. apply py_round_comp. now rewrite H. Qed.
Lemma forall2_map : forall A B A' B' (f : A -> A') (g : B -> B') (P : A' -> B' -> Prop) l m, Forall2 (fun x y => P (f x) (g y)) l m -> Forall2 P (map f l) (map g m).
Proof. intros A B A' B' f g P l m F. induction F; cbn; constructor; auto. Qed.
Lemma all_peaks : forall hash complex ps d d' ss, generate_all hash complex d ps = Ok (d', ss) -> Forall2 (fun p s => peak (map fst p) = Ok (amp_I s) /\ peak (map snd p) = Ok (amp_Q s)) ps ss.
Proof.
  intros hash complex. induction ps as [|p r IH]; intros d d' ss H; cbn [generate_all] in H.
  - injection H as <- <-. constructor.
  - destruct (generate_data hash complex d p) as [[d1 s]|] eqn:E; [|discriminate]. cbn [bind] in H. destruct (generate_all hash complex d1 r) as [[d2 ss2]|] eqn:E2; [|discriminate]. cbn [bind] in H. injection H as <- <-. constructor; [|eapply IH; eauto].
    unfold generate_data in E. destruct (normalize p) as [[[w a] b]|] eqn:Ep; [|discriminate]. cbn [bind] in E. destruct (existsb _ w && negb complex)%bool; [discriminate|].
    apply norm_peaks in Ep. destruct (non_null a); [destruct (add_wf hash d (map fst w)) as [x i]|]; (destruct (non_null b); [destruct (add_wf hash _ (map snd w)) as [x' j]|]); injection E as _ <-; exact Ep.
Qed.
(** The same shape is stored once: parts of two pulses of a sequencer that are real multiples of each other have one index. *)
Theorem C69_shared : forall hash complex pulses d ss n m p q s t i j, generate_all hash complex [] pulses = Ok (d, ss) ->
  nth_error pulses n = Some p -> nth_error pulses m = Some q -> nth_error ss n = Some s -> nth_error ss m = Some t ->
  (multiple fst p q -> index0 s = Some i -> index0 t = Some j -> i = j) /\ (multiple snd p q -> index1 s = Some i -> index1 t = Some j -> i = j).
Proof.
  intros hash complex ps d ss n m p q s t i j G Hp Hq Hs Ht. destruct (all_stored hash complex ps [] d ss (TInv_nil hash) G) as [T [_ F]]. pose proof (all_peaks _ _ _ _ _ _ G) as Pk.
  destruct (forall2_nth _ _ _ _ _ _ _ _ F Hp Hs) as [_ [_ [_ [A0 A1]]]]. destruct (forall2_nth _ _ _ _ _ _ _ _ F Hq Ht) as [_ [_ [_ [B0 B1]]]].
  destruct (forall2_nth _ _ _ _ _ _ _ _ Pk Hp Hs) as [Ps0 Ps1]. destruct (forall2_nth _ _ _ _ _ _ _ _ Pk Hq Ht) as [Pt0 Pt1].
  assert (Z : forall (f : sample -> Q) a b e g, multiple f p q -> peak (map f p) = Ok a -> peak (map f q) = Ok b -> ~ a == 0 -> In e d -> In g d -> key e = uuid hash (map (fun z => f z / a) p) -> key g = uuid hash (map (fun z => f z / b) q) -> e = g).
  { intros f a b e g [c [Nc M]] P1 P2 Na He Hg Ke Kg. apply (key_unique hash d); auto. rewrite Ke, Kg. unfold uuid. f_equal. apply round12_eq. apply forall2_map.
    assert (Eb : b == c * a) by (apply (peak_scale c (map f p) (map f q)); auto; now apply forall2_map).
    clear -M Eb Na Nc. induction M as [|x y p q H M IH]; constructor; [|exact IH]. rewrite H, Eb. field. split; assumption. }
  split; intros M E1 E2.
  - rewrite E1 in A0. rewrite E2 in B0. destruct A0 as [N0 [e [He [<- Ke]]]]. destruct B0 as [_ [g [Hg [<- Kg]]]]. f_equal. eapply (Z fst); eauto. now apply non_null_ne.
  - rewrite E1 in A1. rewrite E2 in B1. destruct A1 as [N0 [e [He [<- Ke]]]]. destruct B1 as [_ [g [Hg [<- Kg]]]]. f_equal. eapply (Z snd); eauto. now apply non_null_ne.
Qed.
(** The comment in insert_qasm says that the gain of a path without a waveform is 0.  It can be 1: the waveform of the other path then comes out, by 1/32768, on a path that should play something else. *)
Theorem C69_silent_path_refuted : forall hash, exists d s, generate_awg_dict hash true [[(1, 3 # 131072); (1 # 2, 0)]] = Ok (d, [s]) /\ index1 s = None /\ insert_qasm s = Ok [SetAwgGain 32767 1; Play 0 0 4].
Proof. intros hash. do 2 eexists. split; [reflexivity|]. split; reflexivity. Qed.

Lemma maximum_ok : forall l c, maximum l = Ok c -> forall x, In x l -> x <= c.
Proof.
  intros [|x r] c H; [discriminate|]. injection H as <-.
  assert (G : forall r x, x <= fold_left (fun b y => if Qlt_bool b y then y else b) r x /\ forall y, In y r -> y <= fold_left (fun b y => if Qlt_bool b y then y else b) r x).
  { clear. induction r as [|y r IH]; intros x; cbn [fold_left]; [split; [apply Qle_refl|intros z []]|]. destruct (Qlt_bool x y) eqn:E; [apply Qlt_bool_iff in E|apply Qlt_bool_false in E]; destruct (IH y) as [A B], (IH x) as [C D].
    - split; [apply Qle_trans with y; [now apply Qlt_le_weak|exact A]|]. intros z [<-|Hz]; [exact A|now apply B].
    - split; [exact C|]. intros z [<-|Hz]; [apply Qle_trans with x; assumption|now apply D]. }
  destruct (G r x) as [A B]. intros y [<-|Hy]; [exact A|now apply B].
Qed.
Lemma weights_inv : forall hash ws n d d' is, TInv hash d -> add_weights hash n d ws = Ok (d', is) -> add_all hash d ws = (d', is) /\ Forall (fun w => w <> [] /\ forall x, In x w -> x <= 1) ws.
Proof.
  intros hash. induction ws as [|w r IH]; intros n d d' is T H; cbn [add_weights] in H.
  - injection H as <- <-. split; [reflexivity|constructor].
  - destruct (Nat.ltb 1 n); [discriminate|]. destruct (maximum w) as [mx|] eqn:E; [|discriminate]. cbn [bind] in H. destruct (Qlt_bool 1 (Qabs mx)) eqn:L; [destruct (existsb _ w); discriminate|].
    destruct (add_wf hash d w) as [d1 i] eqn:A. destruct (add_weights hash (S n) d1 r) as [[d2 is2]|] eqn:B; [|discriminate]. cbn [bind] in H. injection H as <- <-.
    destruct (add_wf_inv _ _ _ _ _ T A) as [T1 _]. destruct (IH _ _ _ _ T1 B) as [C D]. split; [cbn; rewrite A, C; reflexivity|]. constructor; [|exact D].
    apply Qlt_bool_false in L. apply Qabs_Qle_condition in L. split; [intros ->; discriminate|]. intros x Hx. pose proof (maximum_ok _ _ E x Hx). lra.
Qed.
Lemma weights_dict_inv : forall hash acqs d d' is, TInv hash d -> generate_weights_dict hash d acqs = Ok (d', is) ->
  add_all hash d (concat acqs) = (d', flat_map (fun i : nat * nat => [fst i; snd i]) is) /\ Forall2 (fun a i => exists w0 w1, a = [w0; w1] /\ (w0 <> [] /\ forall x, In x w0 -> x <= 1) /\ (w1 <> [] /\ forall x, In x w1 -> x <= 1)) acqs is.
Proof.
  intros hash. induction acqs as [|a r IH]; intros d d' is T H; cbn [generate_weights_dict] in H.
  - injection H as <- <-. split; [reflexivity|constructor].
  - unfold generate_weights in H. destruct (add_weights hash 0 d a) as [[d1 l]|] eqn:A; [|discriminate]. cbn [bind] in H. destruct l as [|i0 [|i1 [|]]]; try discriminate. cbn [bind] in H.
    destruct (generate_weights_dict hash d1 r) as [[d2 is2]|] eqn:B; [|discriminate]. cbn [bind] in H. injection H as <- <-. destruct (weights_inv _ _ _ _ _ _ T A) as [C D].
    destruct (add_all_table _ _ _ _ _ T C) as [T1 [_ F]]. destruct (IH _ _ _ T1 B) as [E G]. split; [cbn [concat flat_map fst snd]; rewrite add_all_app, C, E; reflexivity|]. constructor; [|exact G].
    assert (L : length a = 2%nat). { clear -F. inversion_clear F as [|? ? ? ? _ F1]. inversion_clear F1 as [|? ? ? ? _ F2]. inversion_clear F2. reflexivity. }
    destruct a as [|w0 [|w1 [|]]]; try discriminate. inversion D as [|? ? D0 D1]. inversion D1 as [|? ? D2 _]. exists w0, w1. auto.
Qed.
Lemma forall2_concat : forall A B (P : A -> B -> Prop) (l : list (list A)) (is : list (B * B)), Forall2 (fun a (_ : B * B) => length a = 2%nat) l is -> Forall2 P (concat l) (flat_map (fun i : B * B => [fst i; snd i]) is) -> Forall2 (fun a i => exists w0 w1, a = [w0; w1] /\ P w0 (fst i) /\ P w1 (snd i)) l is.
Proof.
  intros A B P l is F. induction F as [|a i l is L F IH]; intros G; [constructor|]. destruct a as [|w0 [|w1 [|]]]; try discriminate. cbn in G. inversion G as [|? ? ? ? G1 G2]. inversion G2 as [|? ? ? ? G3 G4]. constructor; [exists w0, w1; auto|now apply IH].
Qed.
(** Accepted weighted acquisitions have two weights each, none above 1, and find them under the indices they use, in order.  (Weights below -1 are not refused: see the refutation.) *)
Theorem C69_weights_partial : forall hash acqs d is, no_collision_on hash (fun w => In w (concat acqs)) -> generate_weights_dict hash [] acqs = Ok (d, is) ->
  Forall2 (fun a (i : nat * nat) => exists w0 w1, a = [w0; w1] /\ (uploaded d w0 (fst i) /\ forall x, In x w0 -> x <= 1) /\ (uploaded d w1 (snd i) /\ forall x, In x w1 -> x <= 1)) acqs is.
Proof.
  intros hash acqs d is N H. destruct (weights_dict_inv _ _ _ _ _ (TInv_nil hash) H) as [A F]. destruct (add_all_inv hash (concat acqs) [] d _ (TInv_nil hash) A) as [T [_ [C S]]].
  assert (L : Forall2 (fun a (_ : nat * nat) => length a = 2%nat) acqs is). { clear -F. induction F as [|a i l m [w0 [w1 [-> _]]] F IH]; constructor; [reflexivity|exact IH]. }
  assert (U : Forall2 (fun w i => uploaded d w i) (concat acqs) (flat_map (fun i : nat * nat => [fst i; snd i]) is)).
  { assert (Q : forall w i, In w (concat acqs) -> (exists e, In e d /\ index e = i /\ key e = uuid hash w) -> uploaded d w i).
    { intros w i Iw [e [He [Hi Ke]]]. exists e. split; [exact He|]. split; [exact Hi|]. apply round12_close. destruct (C e He) as [[]|Hd]. apply N; [exact Hd|exact Iw|]. destruct T as [_ [_ T]]. rewrite Forall_forall in T. rewrite <- (T e He : key e = hash (round12 (data e))). exact Ke. }
    revert S Q. clear. generalize (concat acqs) (flat_map (fun i : nat * nat => [fst i; snd i]) is). intros l m S. induction S as [|w i l m H S IH]; intros Q; constructor; [apply Q; [now left|exact H]|]. apply IH. intros v j Iv. apply Q. now right. }
  pose proof (forall2_concat _ _ _ _ _ L U) as W. clear -W F. induction W as [|a i l m [w0 [w1 [-> [U0 U1]]]] W IH]; [constructor|]. inversion F as [|? ? ? ? [v0 [v1 [E [[_ B0] [_ B1]]]]] F']. injection E as <- <-. constructor; [|now apply IH]. exists w0, w1. auto.
Qed.
(** The check is of abs(max(w)), not of max(abs(w)): a weight of -2 is accepted.  When every weight is below -1 the error is not the documented one (StopIteration). *)
Theorem C69_weights_refuted : forall hash, (exists r, generate_weights_dict hash [] [[[-(2); 0]; [-(2); 0]]] = Ok r) /\ generate_weights_dict hash [] [[[-(2); -(3)]; [0; 0]]] = Err OtherErr.
Proof.
  intros hash. split; [|reflexivity]. unfold generate_weights_dict, generate_weights, add_weights. cbn [Nat.ltb Nat.leb maximum fold_left bind].
  change (Qlt_bool (-(2)) 0) with true. cbn [fold_left]. change (Qlt_bool 1 (Qabs 0)) with false. cbn iota. destruct (add_wf hash [] [-(2); 0]) as [d1 i]. cbn [bind]. destruct (add_wf hash d1 [-(2); 0]) as [d2 j]. cbn [bind]. eauto.
Qed.
(** Three pulses on one sequencer: the second is the first, negated and halved; the third is below the resolution. *)
Example three_pulses : let hash := fun l => fold_left (fun h z => (h * 10000000000000 + z)%Z) l 0%Z in exists d a b c,
  generate_awg_dict hash true [[(1 # 2, 0); (1 # 4, 0)]; [(-(1 # 4), 1); (-(1 # 8), 1)]; [(1 # 100000, 0); (0, 0)]] = Ok (d, [a; b; c]) /\
  insert_qasm a = Ok [SetAwgGain 16384 0; Play 0 0 4] /\ insert_qasm b = Ok [SetAwgGain (-8192) 32767; Play 0 1 4] /\ insert_qasm c = Ok [UpdParam 4].
Proof. cbv zeta. do 4 eexists. split; [vm_compute; reflexivity|]. repeat split; vm_compute; reflexivity. Qed.
(** A hash and pulses without collisions. *)
Example no_collisions : let hash := fun l => hd 0%Z l in let pulses := [[(1 # 2, 0)]; [(-(1 # 4), 1)]] in no_collision_on hash (parts pulses) /\
  exists d ss, generate_awg_dict hash true pulses = Ok (d, ss) /\ forall s, In s ss -> exists prog, insert_qasm s = Ok prog.
Proof.
  cbv zeta. split.
  - assert (L : forall v, parts [[(1 # 2, 0)]; [(-(1 # 4), 1)]] v -> exists x, v = [x]). { intros v [p [[<-|[<-|[]]] [[c [_ ->]]|[c [_ ->]]]]]; cbn [map]; eauto. }
    intros v w Hv Hw E. destruct (L v Hv) as [x ->]. destruct (L w Hw) as [y ->]. cbn in *. now rewrite E.
  - do 2 eexists. split; [vm_compute; reflexivity|]. intros s [<-|[<-|[]]]; eexists; vm_compute; reflexivity.
Qed.
