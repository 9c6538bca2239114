(** C66: QTM. *)
From Verif Require Import Base NumericModel NumericProps AcqSetModel AcqSetSpec AcqSetProps AcqSetThms PathProps2.
Local Open Scope Q_scope.

Lemma om {A B} (f : A -> B) o v : option_map f o = Some v <-> exists x, o = Some x /\ f x = v.
Proof. destruct o as [x|]; cbn; split; [intros H; injection H as <-; eauto|intros [y [E <-]]; now injection E as ->|discriminate|intros [y [E _]]; discriminate]. Qed.
Definition times (l : list acq) :=
  do s <- the tsource_eqb (fun a => option_map (fun '(s, _, _) => s) (time a)) l;
  do r <- the tref_eqb (fun a => option_map (fun '(_, r, _) => r) (time a)) l;
  do c <- the oz_eqb (fun a => option_map (fun '(_, _, c) => c) (time a)) l;
  Ok (Some s, Some r, c).
Lemma times_ok l s r c : l <> [] -> (times l = Ok (Some s, Some r, c) <-> forall a, In a l -> time a = Some (s, r, c)).
Proof.
  intros N. unfold times. split.
  - intros H. binv H s' E1. binv H r' E2. binv H c' E3. injection H as -> -> ->. apply (the_spec _ _ tsource_eqb_eq) in E1. apply (the_spec _ _ tref_eqb_eq) in E2. apply (the_spec _ _ oz_eqb_eq) in E3.
    intros a I. destruct E1 as [_ E1], E2 as [_ E2], E3 as [_ E3]. specialize (E1 a I). specialize (E2 a I). specialize (E3 a I). destruct (time a) as [[[x y] z]|]; cbn in *; congruence.
  - intros H. assert (E1 : the tsource_eqb (fun a => option_map (fun '(s, _, _) => s) (time a)) l = Ok s) by (apply (the_spec _ _ tsource_eqb_eq); split; [exact N|]; intros a I; rewrite (H a I); reflexivity).
    assert (E2 : the tref_eqb (fun a => option_map (fun '(_, r, _) => r) (time a)) l = Ok r) by (apply (the_spec _ _ tref_eqb_eq); split; [exact N|]; intros a I; rewrite (H a I); reflexivity).
    assert (E3 : the oz_eqb (fun a => option_map (fun '(_, _, c) => c) (time a)) l = Ok c) by (apply (the_spec _ _ oz_eqb_eq); split; [exact N|]; intros a I; rewrite (H a I); reflexivity).
    rewrite E1. cbn [bind]. rewrite E2. cbn [bind]. rewrite E3. reflexivity.
Qed.
Lemma times_shape l x : times l = Ok x -> exists s r c, x = (Some s, Some r, c).
Proof. unfold times. intros H. binv H s E1. binv H r E2. binv H c E3. injection H as <-. eauto. Qed.

Definition some_values (zs : list (option Z)) := flat_map (fun o => match o with Some z => [z] | None => [] end) zs.
Lemma some_values_in zs z : In z (some_values zs) <-> In (Some z) zs.
Proof.
  unfold some_values. rewrite in_flat_map. split; [intros [o [I H]]; destruct o; [destruct H as [<-|[]]; exact I|destruct H]|]. intros I. exists (Some z). split; [exact I|left; reflexivity].
Qed.
Lemma need_in {A B} (f : A -> option B) l vs : need f l = Ok vs -> forall v, In v vs <-> exists a, In a l /\ f a = Some v.
Proof.
  intros H v. apply need_spec in H. assert (X : In (Some v) (map f l) <-> In (Some v) (map Some vs)) by now rewrite H. rewrite !in_map_iff in X. split.
  - intros I. destruct (proj2 X) as [a [E Ia]]; eauto.
  - intros [a [Ia E]]. destruct (proj1 X) as [w [W Iw]]; eauto. now injection W as ->.
Qed.
Lemma need_ok {A B} (f : A -> option B) l : (forall a, In a l -> f a <> None) -> exists vs, need f l = Ok vs.
Proof.
  induction l as [|a l IH]; intros H; [exists []; reflexivity|]. destruct IH as [vs M]; [intros; apply H; right; assumption|]. destruct (f a) as [v|] eqn:E; [|destruct (H a (or_introl eq_refl) E)].
  exists (v :: vs). apply need_spec in M. apply need_spec. cbn [map]. now rewrite E, M.
Qed.
Lemma need_all {A B} (f : A -> option B) l vs : need f l = Ok vs -> forall a, In a l -> f a <> None.
Proof.
  intros H a I E. apply need_spec in H. assert (X : In (f a) (map f l)) by (apply in_map; exact I). rewrite H, E in X. apply in_map_iff in X. destruct X as [? [? _]]. discriminate.
Qed.

(** the settings of [single] *)
Definition write1 (t : Z) (c : cond) (z : Z) : bool * option Z * option Z * Z * Z * Z * Z :=
  match c with LESS_THAN => (true, Some t, Some t, z, 0%Z, 0%Z, 0%Z) | GREATER_THAN_EQUAL_TO => (true, Some t, Some t, 0%Z, 0%Z, z, 0%Z) end.
Lemma single_spec l x : single l = Ok x <-> exists t c z, x = write1 t c z /\ l <> [] /\ (forall a, In a l -> counts a = Some (t, c) /\ addr a <> None /\ (forall y, addr a = Some (Some y) -> y = z)) /\ exists a, In a l /\ addr a = Some (Some z).
Proof.
  unfold single. split.
  - intros H. binv H t E1. binv H c E2. binv H zs E3. binv H z E4. injection H as <-. apply (the_spec _ _ Z.eqb_eq) in E1. apply (the_spec _ _ cond_eqb_eq) in E2. destruct E1 as [N E1], E2 as [_ E2].
    apply (unique_spec Z.eqb Z.eqb_eq) in E4. destruct E4 as [N4 E4]. exists t, c, z. split; [destruct c; reflexivity|]. split; [exact N|]. split.
    + intros a I. split; [specialize (E1 a I); specialize (E2 a I); destruct (counts a) as [[p q]|]; cbn in *; congruence|]. split; [exact (need_all _ _ _ E3 a I)|].
      intros y Ey. apply E4, some_values_in. apply (need_in _ _ _ E3). eauto.
    + fold (some_values zs) in N4, E4. destruct (some_values zs) as [|w ws] eqn:W; [congruence|]. assert (X : w = z) by (apply E4; left; reflexivity). subst w.
      assert (Y : In z (some_values zs)) by (rewrite W; left; reflexivity). apply some_values_in in Y. apply (need_in _ _ _ E3) in Y. exact Y.
  - intros [t [c [z [-> [N [H [a0 [I0 Z0]]]]]]]].
    assert (E1 : the Z.eqb (fun a => option_map fst (counts a)) l = Ok t) by (apply (the_spec _ _ Z.eqb_eq); split; [exact N|]; intros a I; rewrite (proj1 (H a I)); reflexivity).
    assert (E2 : the cond_eqb (fun a => option_map snd (counts a)) l = Ok c) by (apply (the_spec _ _ cond_eqb_eq); split; [exact N|]; intros a I; rewrite (proj1 (H a I)); reflexivity).
    destruct (need_ok addr l) as [zs E3]; [intros a I; apply H; exact I|].
    assert (E4 : unique Z.eqb (some_values zs) = Ok z).
    { apply (unique_spec Z.eqb Z.eqb_eq). assert (Y : In z (some_values zs)) by (apply some_values_in, (need_in _ _ _ E3); eauto). split; [intros X; rewrite X in Y; destruct Y|]. intros y Iy. apply some_values_in in Iy. apply (need_in _ _ _ E3) in Iy. destruct Iy as [a [Ia Ea]]. apply (H a Ia). exact Ea. }
    rewrite E1. cbn [bind]. rewrite E2. cbn [bind]. rewrite E3. cbn [bind]. unfold some_values in E4. rewrite E4. cbn [bind]. destruct c; reflexivity.
Qed.
Definition to0 (x : option Z * option Z * option Z * option Z) : Z * Z * Z * Z := let '(w, m, h, i) := x in (or0 w, or0 m, or0 h, or0 i).
Lemma double_spec l x : double l = Ok x <-> exists lo hi w m h i, x = (negb (Z.eqb w 0) || negb (Z.eqb m 0) || negb (Z.eqb h 0) || negb (Z.eqb i 0), Some lo, Some hi, w, m, h, i) /\ l <> [] /\
  forall a, In a l -> dual a = Some (lo, hi) /\ exists y, addrs a = Some y /\ to0 y = (w, m, h, i).
Proof.
  unfold double. split.
  - intros H. binv H lo E1. binv H hi E2. binv H h E3. binv H m E4. binv H w E5. binv H i E6. injection H as <-. apply (the_spec _ _ Z.eqb_eq) in E1, E2, E3, E4, E5, E6.
    destruct E1 as [N E1], E2 as [_ E2], E3 as [_ E3], E4 as [_ E4], E5 as [_ E5], E6 as [_ E6]. exists lo, hi, w, m, h, i. split; [reflexivity|]. split; [exact N|].
    intros a I. specialize (E1 a I). specialize (E2 a I). specialize (E3 a I). specialize (E4 a I). specialize (E5 a I). specialize (E6 a I).
    split; [destruct (dual a) as [[p q]|]; cbn in *; congruence|]. destruct (addrs a) as [[[[p q] r] s]|]; [|discriminate]. eexists. split; [reflexivity|]. cbn in *. congruence.
  - intros [lo [hi [w [m [h [i [-> [N H]]]]]]]].
    assert (E : forall f v, (forall a, In a l -> f a = Some v) -> the Z.eqb f l = Ok v) by (intros f v F; apply (the_spec _ _ Z.eqb_eq); auto).
    rewrite (E _ lo) by (intros a I; rewrite (proj1 (H a I)); reflexivity). cbn [bind]. rewrite (E _ hi) by (intros a I; rewrite (proj1 (H a I)); reflexivity). cbn [bind].
    rewrite (E _ h) by (intros a I; destruct (H a I) as [_ [[[[p q] r] s] [Y T]]]; rewrite Y; cbn in *; congruence). cbn [bind].
    rewrite (E _ m) by (intros a I; destruct (H a I) as [_ [[[[p q] r] s] [Y T]]]; rewrite Y; cbn in *; congruence). cbn [bind].
    rewrite (E _ w) by (intros a I; destruct (H a I) as [_ [[[[p q] r] s] [Y T]]]; rewrite Y; cbn in *; congruence). cbn [bind].
    rewrite (E _ i) by (intros a I; destruct (H a I) as [_ [[[[p q] r] s] [Y T]]]; rewrite Y; cbn in *; congruence). reflexivity.
Qed.
Lemma count_spec l : Nat.ltb 1 (b2n (has TriggerCount l) + b2n (has ThresholdedTriggerCount l) + b2n (has DualThresholdedTriggerCount l)) = false <->
  forall a b, In a l -> In b l -> In (protocol a) [TriggerCount; ThresholdedTriggerCount; DualThresholdedTriggerCount] -> In (protocol b) [TriggerCount; ThresholdedTriggerCount; DualThresholdedTriggerCount] -> protocol a = protocol b.
Proof.
  split.
  - intros H a b Ia Ib Pa Pb. assert (A : forall p x, In x l -> p = protocol x -> has p l = true) by (intros p x Ix E; apply has_spec; eauto).
    destruct Pa as [Pa|[Pa|[Pa|[]]]], Pb as [Pb|[Pb|[Pb|[]]]]; try congruence; exfalso; rewrite (A _ a Ia Pa), (A _ b Ib Pb) in H; cbn in H;
      repeat match goal with H : context[has ?p l] |- _ => destruct (has p l) end; discriminate.
  - intros H. destruct (has TriggerCount l) eqn:E1, (has ThresholdedTriggerCount l) eqn:E2, (has DualThresholdedTriggerCount l) eqn:E3; try reflexivity; exfalso; rewrite ?has_spec in *;
      repeat match goal with E : exists a, _ |- _ => destruct E as [? [? ?]] end;
      match goal with I1 : In ?a l, I2 : In ?b l, P1 : protocol ?a = ?p, P2 : protocol ?b = ?q |- _ => tryif unify p q then fail else (assert (X : protocol a = protocol b) by (apply H; auto; rewrite ?P1, ?P2; cbn; auto); congruence) end.
Qed.

Lemma write_ok l : l <> [] -> (forall a, In a l -> built a) -> qtm_fits l -> exists x, (if has ThresholdedTriggerCount l then single l else if has DualThresholdedTriggerCount l then double l else Ok no_write) = Ok x.
Proof.
  intros N B F. destruct (has ThresholdedTriggerCount l) eqn:E1.
  - apply has_spec in E1. destruct E1 as [a [Ia Pa]]. destruct (tfit_single _ F a Ia Pa) as [[b0 [z [I0 Z0]]] H]. destruct (B a Ia) as [_ [C _]]. destruct (counts a) as [[t c]|] eqn:K; [|destruct (proj2 C Pa eq_refl)].
    exists (write1 t c z). apply single_spec. exists t, c, z. split; [reflexivity|]. split; [exact N|]. split; [|eauto]. intros b Ib. destruct (H b Ib) as [H1 [H2 H3]]. refine (conj H1 (conj H2 _)). intros y Ey. exact (H3 b0 y z I0 Ey Z0).
  - destruct (has DualThresholdedTriggerCount l) eqn:E2; [|eexists; reflexivity]. apply has_spec in E2. destruct E2 as [a [Ia Pa]]. pose proof (tfit_double _ F a Ia Pa) as H. destruct (B a Ia) as [_ [_ [C _]]].
    destruct (dual a) as [[lo hi]|] eqn:K; [|destruct (proj2 C Pa eq_refl)]. destruct (H a Ia) as [_ [[[[w m] h] i] [y [A1 _]]]].
    eexists. apply double_spec. exists lo, hi, (or0 w), (or0 m), (or0 h), (or0 i). split; [reflexivity|]. split; [exact N|]. intros b Ib. destruct (H b Ib) as [D [x [y' [X1 [X2 X3]]]]]. split; [exact D|].
    exists y'. split; [exact X2|]. rewrite A1 in X1. injection X1 as <-. destruct y' as [[[w' m'] h'] i']. destruct X3 as [-> [-> [-> ->]]]. reflexivity.
Qed.
Lemma time_ok l : l <> [] -> (forall a, In a l -> built a) -> (forall a, In a l -> protocol a = Timetag \/ protocol a = TimetagTrace -> forall b, In b l -> time b = time a) ->
  exists x, (if has Timetag l || has TimetagTrace l then times l else Ok (None, None, None)) = Ok x.
Proof.
  intros N B F. destruct (has Timetag l || has TimetagTrace l) eqn:E; [|eexists; reflexivity]. apply orb_true_iff in E.
  assert (X : exists a, In a l /\ (protocol a = Timetag \/ protocol a = TimetagTrace)) by (rewrite !has_spec in E; destruct E as [[a [I P]]|[a [I P]]]; eauto). destruct X as [a [Ia Pa]].
  destruct (B a Ia) as [_ [_ [_ C]]]. destruct (time a) as [[[s r] c]|] eqn:K; [|destruct (proj2 C Pa eq_refl)]. exists (Some s, Some r, c). apply (times_ok l s r c N). intros b Ib. rewrite <- K. exact (F a Ia Pa b Ib).
Qed.

(** The settings are found exactly when they can be the same for all acquisitions. *)
Theorem C66_qtm_accepted_iff : forall l, l <> [] -> (forall a, In a l -> built a) -> ((exists st, qtm l = Ok st) <-> qtm_fits l).
Proof.
  intros l N B. unfold qtm. fold (times l).
  assert (TR : has Trace l && has TimetagTrace l = false <-> forall a b, In a l -> In b l -> protocol a = Trace -> protocol b <> TimetagTrace).
  { split.
    - intros H a b Ia Ib Pa Pb. assert (X : has Trace l && has TimetagTrace l = true) by (apply andb_true_iff; rewrite !has_spec; split; eauto). congruence.
    - intros H. apply not_true_iff_false. intros X. apply andb_true_iff in X. rewrite !has_spec in X. destruct X as [[a [Ia Pa]] [b [Ib Pb]]]. exact (H a b Ia Ib Pa Pb). }
  assert (SC : exists x, (if has Trace l then match l with [] => Err IndexError | a :: _ => Ok (Some SCOPE, Some (py_round (duration a))) end else Ok (if has TimetagTrace l then Some TIMETAG else None, None)) = Ok x).
  { destruct (has Trace l); [|eexists; reflexivity]. destruct l; [congruence|eexists; reflexivity]. }
  split.
  - intros [st H]. destruct (has Trace l && has TimetagTrace l) eqn:E0; [discriminate|]. destruct (Nat.ltb 1 _) eqn:E1; [discriminate|]. binv H sc E2. binv H tm E3. binv H w E4. constructor.
    + now apply TR.
    + now apply count_spec.
    + intros a Ia Pa b Ib. assert (X : has Timetag l || has TimetagTrace l = true) by (apply orb_true_iff; rewrite !has_spec; destruct Pa; eauto). rewrite X in E3. destruct (times_shape _ _ E3) as [s [r [c ->]]]. rewrite (times_ok l s r c N) in E3. now rewrite (E3 a Ia), (E3 b Ib).
    + intros a Ia Pa. assert (X : has ThresholdedTriggerCount l = true) by (apply has_spec; eauto). rewrite X in E4. apply single_spec in E4. destruct E4 as [t [c [z [_ [_ [G [b0 [I0 Z0]]]]]]]]. split; [eauto|].
      intros b Ib. destruct (G b Ib) as [G1 [G2 G3]]. split; [now rewrite G1, (proj1 (G a Ia))|]. split; [exact G2|]. intros d x y Id Ex Ey. rewrite (G3 x Ex). symmetry. exact (proj2 (proj2 (G d Id)) y Ey).
    + intros a Ia Pa b Ib. assert (X : has DualThresholdedTriggerCount l = true) by (apply has_spec; eauto). assert (Y : has ThresholdedTriggerCount l = false).
      { apply has_false. intros d Id Pd. assert (Z : protocol a = protocol d) by (rewrite count_spec in E1; apply E1; auto; [rewrite Pa|rewrite Pd]; cbn; auto). congruence. }
      rewrite X, Y in E4. apply double_spec in E4. destruct E4 as [lo [hi [w' [m [h [i [_ [_ G]]]]]]]]. destruct (G a Ia) as [Ga [x [X1 X2]]]. destruct (G b Ib) as [Gb [y [Y1 Y2]]]. split; [congruence|]. exists x, y. split; [exact X1|]. split; [exact Y1|].
      destruct x as [[[? ?] ?] ?], y as [[[? ?] ?] ?]. cbn in *. repeat split; congruence.
  - intros F. rewrite (proj2 TR (tfit_trace _ F)), (proj2 (count_spec l) (tfit_count _ F)). destruct SC as [sc SC]. rewrite SC. cbn [bind]. destruct (time_ok l N B (tfit_time _ F)) as [tm TM]. rewrite TM. cbn [bind].
    destruct (write_ok l N B F) as [w W]. rewrite W. cbn [bind]. destruct tm as [[? ?] ?]. destruct w as [[[[[[? ?] ?] ?] ?] ?] ?]. eexists. reflexivity.
Qed.

(** Each acquisition finds its own reference times, and the trigger it sends is the one of its label, exactly when its count meets its condition. *)
Theorem C66_qtm_settings : forall l st, (forall a, In a l -> built a) -> qtm l = Ok st ->
  (forall a, In a l -> protocol a = Timetag \/ protocol a = TimetagTrace -> exists s r c, time a = Some (s, r, c) /\ t_source st = Some s /\ t_ref st = Some r /\ t_channel st = c) /\
  (forall a z n, In a l -> protocol a = ThresholdedTriggerCount -> addr a = Some (Some z) -> exists t c, counts a = Some (t, c) /\ (holds c t n -> sends st n = Some z) /\ (~ holds c t n -> sends st n = Some 0%Z)) /\
  (forall a n, In a l -> protocol a = DualThresholdedTriggerCount -> exists lo hi w m h i, dual a = Some (lo, hi) /\ addrs a = Some (w, m, h, i) /\ a_invalid st = or0 i /\ (or0 i <> 0%Z -> w_en st = true) /\
     ((n < lo)%Z -> sends st n = Some (or0 w)) /\ ((lo <= n < hi)%Z -> sends st n = Some (or0 m)) /\ ((lo <= n)%Z -> (hi <= n)%Z -> sends st n = Some (or0 h))) /\
  ((forall a, In a l -> protocol a <> ThresholdedTriggerCount /\ protocol a <> DualThresholdedTriggerCount) -> forall n, sends st n = Some 0%Z) /\
  (scope st = Some SCOPE <-> exists a, In a l /\ protocol a = Trace) /\ (scope st = Some TIMETAG <-> exists a, In a l /\ protocol a = TimetagTrace).
Proof.
  intros l st B H. unfold qtm in H. fold (times l) in H. destruct (has Trace l && has TimetagTrace l) eqn:E0; [discriminate|]. destruct (Nat.ltb 1 _) eqn:E1; [discriminate|]. binv H sc E2. binv H tm E3. binv H w E4.
  destruct tm as [[ts tr] tc]. destruct w as [[[[[[en tl] th] al] am] ah] ai]. injection H as <-. cbn [t_source t_ref t_channel scope a_invalid w_en]. unfold sends. cbn [w_en thr_low thr_high a_low a_mid a_high].
  refine (conj _ (conj _ (conj _ (conj _ _)))).
  - intros a Ia Pa. assert (X : has Timetag l || has TimetagTrace l = true) by (apply orb_true_iff; rewrite !has_spec; destruct Pa; eauto). rewrite X in E3. destruct (times_shape _ _ E3) as [s [r [c Y]]]. injection Y as -> -> ->.
    assert (N : l <> []) by (intros ->; destruct Ia). rewrite (times_ok l s r c N) in E3. exists s, r, c. split; [exact (E3 a Ia)|auto].
  - intros a z n Ia Pa Ea. assert (X : has ThresholdedTriggerCount l = true) by (apply has_spec; eauto). rewrite X in E4. apply single_spec in E4. destruct E4 as [t [c [z' [W [_ [G _]]]]]]. destruct (G a Ia) as [G1 [_ G3]]. rewrite (G3 z Ea) in *. exists t, c. split; [exact G1|].
    unfold write1 in W. destruct c; injection W as -> -> -> -> -> -> ->; cbn [holds].
    + split; intros K; [rewrite (proj2 (Z.ltb_lt n t) K); reflexivity|]. assert (Y : (n <? t)%Z = false) by (apply Z.ltb_ge; lia). rewrite Y. reflexivity.
    + split; intros K; [assert (Y : (n <? t)%Z = false) by (apply Z.ltb_ge; lia); rewrite Y; reflexivity|]. assert (Y : (n <? t)%Z = true) by (apply Z.ltb_lt; lia). rewrite Y. reflexivity.
  - intros a n Ia Pa. assert (X : has DualThresholdedTriggerCount l = true) by (apply has_spec; eauto). assert (Y : has ThresholdedTriggerCount l = false).
    { apply has_false. intros d Id Pd. assert (Z : protocol a = protocol d) by (rewrite count_spec in E1; apply E1; auto; [rewrite Pa|rewrite Pd]; cbn; auto). congruence. }
    rewrite X, Y in E4. apply double_spec in E4. destruct E4 as [lo [hi [w' [m [h [i [W [_ G]]]]]]]]. destruct (G a Ia) as [Ga [[[[w0 m0] h0] i0] [X1 X2]]]. cbn [to0] in X2. injection X2 as <- <- <- <-. injection W as -> -> -> -> -> -> ->.
    exists lo, hi, w0, m0, h0, i0. split; [exact Ga|]. split; [exact X1|]. split; [reflexivity|]. split; [intros NZ; apply Z.eqb_neq in NZ; rewrite NZ; cbn [negb]; apply orb_true_r|].
    assert (OFF : negb (or0 w0 =? 0)%Z || negb (or0 m0 =? 0)%Z || negb (or0 h0 =? 0)%Z || negb (or0 i0 =? 0)%Z = false -> or0 w0 = 0%Z /\ or0 m0 = 0%Z /\ or0 h0 = 0%Z).
    { rewrite !orb_false_iff, !negb_false_iff, !Z.eqb_eq. tauto. }
    destruct (negb (or0 w0 =? 0)%Z || _ || _ || _).
    + refine (conj _ (conj _ _)).
      * intros K. rewrite (proj2 (Z.ltb_lt n lo) K). reflexivity.
      * intros [K1 K2]. rewrite (proj2 (Z.ltb_ge n lo) K1), (proj2 (Z.ltb_lt n hi) K2). reflexivity.
      * intros K1 K2. rewrite (proj2 (Z.ltb_ge n lo) K1), (proj2 (Z.ltb_ge n hi) K2). reflexivity.
    + destruct (OFF eq_refl) as [-> [-> ->]]. auto.
  - intros K n. assert (X : has ThresholdedTriggerCount l = false) by (apply has_false; intros a I; apply K; exact I). assert (Y : has DualThresholdedTriggerCount l = false) by (apply has_false; intros a I; apply K; exact I).
    rewrite X, Y in E4. injection E4 as <- <- <- <- <- <- <-. reflexivity.
  - rewrite <- !has_spec. destruct (has Trace l); [destruct l; [discriminate|]; injection E2 as <-; cbn [andb] in E0; rewrite E0; split; split; cbn; congruence|].
    injection E2 as <-. destruct (has TimetagTrace l); split; split; cbn; congruence.
Qed.
