(** C27: consistency of clock, LO and IF. *)
From Verif Require Import Base FreqModel NumericProps.
Open Scope Q_scope.

(** the RF frequency to be produced: the clock, or its image under down-conversion *)
Definition rf_of (clock : Q) (down : option Q) : Q := match down with None => clock | Some d => d - clock end.
(** equal up to one part in 10^9 *)
Definition close (a b : Q) : Prop := Qabs (a - b) <= (1 # 1000000000) * Qmax (Qabs a) (Qabs b).

Lemma isclose_iff a b : isclose a b = true <-> close a b.
Proof. apply Qle_bool_iff. Qed.

Lemma close_refl a b : a == b -> close a b.
Proof.
  intros H. unfold close. assert (H0 : a - b == 0) by lra. rewrite H0. change (Qabs 0) with 0.
  apply Qmult_le_0_compat; [lra|]. eapply Qle_trans; [apply (Qabs_nonneg a)|apply Q.le_max_l].
Qed.

(** What one determination returns. *)
Theorem C27_consistent : forall clock LO IF down c l i, determine clock LO IF down true = Ok (c, l, i) ->
  c = rf_of clock down /\ close (l + i) c /\
  (LO = None \/ IF = None -> l + i == c) /\
  (forall l0, LO = Some l0 -> l = l0) /\ (forall i0, IF = Some i0 -> i = i0).
Proof.
  intros clock LO IF down c l i H. unfold determine in H. destruct (downconvert clock down) as [c0|] eqn:Ed; [|discriminate]. cbn [bind negb] in H.
  assert (Hc : c0 = rf_of clock down).
  { unfold downconvert in Ed. destruct down as [d|]; [|cbn; congruence]. destruct (Qlt_bool d 0); [discriminate|]. destruct (Qlt_bool d clock); [discriminate|]. cbn. congruence. }
  destruct LO as [l0|], IF as [i0|]; try discriminate.
  - destruct (isclose (l0 + i0) c0) eqn:E; [|discriminate]. injection H as <- <- <-. apply isclose_iff in E.
    repeat split; auto; try congruence. intros [|]; discriminate.
  - injection H as <- <- <-. assert (E : l0 + (c0 - l0) == c0) by ring. repeat split; auto using close_refl; try congruence.
  - injection H as <- <- <-. assert (E : c0 - i0 + i0 == c0) by ring. repeat split; auto using close_refl; try congruence.
Qed.

Theorem C27_no_mixing : forall clock LO IF down c l i, determine clock LO IF down false = Ok (c, l, i) ->
  c = rf_of clock down /\ l = c /\ IF = Some i.
Proof.
  intros clock LO IF down c l i H. unfold determine in H. destruct (downconvert clock down) as [c0|] eqn:Ed; [|discriminate]. cbn [bind negb] in H.
  destruct IF as [i0|]; [|discriminate]. injection H as <- <- <-. split; [|auto].
  unfold downconvert in Ed. destruct down as [d|]; [|cbn; congruence]. destruct (Qlt_bool d 0); [discriminate|]. destruct (Qlt_bool d clock); [discriminate|]. cbn. congruence.
Qed.

(** Exactly the under- or over-determined settings and impossible down-conversions are rejected. *)
Theorem C27_rejected_iff : forall clock LO IF down mix,
  determine clock LO IF down mix = Err ValueError <->
  ((exists d, down = Some d /\ (d < 0 \/ d < clock)) \/
   (mix = false /\ IF = None) \/
   (mix = true /\ LO = None /\ IF = None) \/
   (mix = true /\ exists l i, LO = Some l /\ IF = Some i /\ ~ close (l + i) (rf_of clock down))).
Proof.
  intros clock LO IF down mix. unfold determine.
  destruct (downconvert clock down) as [c0|e] eqn:Ed; cbn [bind].
  - assert (Hc : c0 = rf_of clock down /\ forall d, down = Some d -> 0 <= d /\ clock <= d).
    { unfold downconvert in Ed. destruct down as [d|]; [|split; [cbn; congruence|discriminate]].
      destruct (Qlt_bool d 0) eqn:E1; [discriminate|]. destruct (Qlt_bool d clock) eqn:E2; [discriminate|]. apply Qlt_bool_false in E1, E2.
      split; [cbn; congruence|]. intros d' Hd. injection Hd as <-. auto. }
    destruct Hc as [-> Hd]. assert (ND : ~ exists d, down = Some d /\ (d < 0 \/ d < clock)).
    { intros [d [E HH]]. destruct (Hd d E). destruct HH; lra. }
    destruct mix; cbn [negb].
    + destruct LO as [l|], IF as [i|].
      * destruct (isclose (l + i) (rf_of clock down)) eqn:E.
        -- apply isclose_iff in E. split; [discriminate|]. intros [H|[[? _]|[[_ [? _]]|[_ [l' [i' [H1 [H2 H3]]]]]]]]; try discriminate; [contradiction|].
           injection H1 as <-. injection H2 as <-. contradiction.
        -- split; [|reflexivity]. intros _. right. right. right. split; [reflexivity|]. exists l, i. repeat split; auto.
           rewrite <- isclose_iff. congruence.
      * split; [discriminate|]. intros [H|[[? _]|[[_ [? _]]|[_ [l' [i' [H1 [H2 H3]]]]]]]]; try discriminate; contradiction.
      * split; [discriminate|]. intros [H|[[? _]|[[_ [_ ?]]|[_ [l' [i' [H1 [H2 H3]]]]]]]]; try discriminate; contradiction.
      * split; [|reflexivity]. intros _. right. right. left. auto.
    + destruct IF as [i|].
      * split; [discriminate|]. intros [H|[[_ ?]|[[? _]|[? _]]]]; try discriminate; contradiction.
      * split; [|reflexivity]. intros _. right. left. auto.
  - unfold downconvert in Ed. destruct down as [d|]; [|discriminate].
    assert (He : e = ValueError /\ (d < 0 \/ d < clock)).
    { destruct (Qlt_bool d 0) eqn:E1; [apply Qlt_bool_iff in E1; split; [congruence|auto]|].
      destruct (Qlt_bool d clock) eqn:E2; [apply Qlt_bool_iff in E2; split; [congruence|auto]|discriminate]. }
    destruct He as [-> He]. split; [intros _; left; eauto|reflexivity].
Qed.

(** the relation a sequencer that uses local oscillator frequency [l] must satisfy *)
Definition seq_ok (s : seqr) (l : Q) : Prop :=
  exists i, s_if s = Some i /\
    (if s_mix s then close (l + i) (rf_of (s_clock s) (s_down s)) else l == rf_of (s_clock s) (s_down s)).

Lemma close_comp a b c : a == b -> close a c -> close b c.
Proof. intros H. unfold close. rewrite H. auto. Qed.

Lemma baseband_one lo s lo' s' : assign_baseband lo s = Ok (lo', s') ->
  exists l, lo' = Some l /\ seq_ok s' l /\ (forall l0, lo = Some l0 -> l == l0) /\
    s_clock s' = s_clock s /\ s_down s' = s_down s /\ s_mix s' = s_mix s /\ (forall i, s_if s = Some i -> s_if s' = Some i).
Proof.
  unfold assign_baseband. intros H. destruct (determine _ _ _ _ _) as [[[c l] i]|] eqn:Ed; [|discriminate]. cbn [bind] in H.
  destruct (set_ext_lo lo l) as [lo1|] eqn:El; [|discriminate]. cbn [bind] in H. destruct (set_if (s_if s) i) as [i1|] eqn:Ei; [|discriminate]. cbn [bind] in H.
  injection H as <- <-.
  assert (L1 : lo1 = Some l /\ forall l0, lo = Some l0 -> l == l0).
  { unfold set_ext_lo in El. destruct lo as [o|]; [destruct (Qeq_bool l o) eqn:E; [|discriminate]; injection El as <-; apply Qeq_bool_iff in E|injection El as <-].
    - split; [reflexivity|]. intros l0 Hl. injection Hl as <-. exact E.
    - split; [reflexivity|discriminate]. }
  destruct L1 as [-> L2].
  assert (I1 : i1 = Some i). { unfold set_if in Ei. destruct (s_if s); [destruct (isclose _ _); [|discriminate]|]; congruence. }
  subst i1. exists l. split; [reflexivity|]. destruct (s_mix s) eqn:Em.
  - destruct (C27_consistent _ _ _ _ _ _ _ Ed) as [Hc [Hcl [_ [_ Hi]]]]. split.
    + exists i. split; [reflexivity|]. cbn [with_if s_mix s_clock s_down]. rewrite Em, <- Hc. exact Hcl.
    + split; [exact L2|]. repeat split; cbn; auto. intros i0 Hi0. rewrite (Hi i0 Hi0). reflexivity.
  - destruct (C27_no_mixing _ _ _ _ _ _ _ Ed) as [Hc [Hl Hi]]. split.
    + exists i. split; [reflexivity|]. cbn [with_if s_mix s_clock s_down]. rewrite Em, <- Hc, Hl. reflexivity.
    + split; [exact L2|]. repeat split; cbn; auto. intros i0 Hi0. congruence.
Qed.

Lemma seq_ok_comp s l l' : l == l' -> seq_ok s l -> seq_ok s l'.
Proof.
  intros H [i [H1 H2]]. exists i. split; [exact H1|]. destruct (s_mix s); [|lra]. eapply close_comp; [|exact H2]. lra.
Qed.

Definition same_settings (s s' : seqr) : Prop :=
  s_clock s' = s_clock s /\ s_down s' = s_down s /\ s_mix s' = s_mix s /\ (forall i, s_if s = Some i -> s_if s' = Some i).

(** Several sequencers on one external LO: if compilation succeeds, one LO frequency fits all of them, whatever their order. *)
Theorem C27_shared_external_lo : forall ss lo lo' ss', assign_all_baseband lo ss = Ok (lo', ss') -> ss <> [] ->
  exists l, lo' = Some l /\ (forall l0, lo = Some l0 -> l == l0) /\
    Forall2 same_settings ss ss' /\ Forall (fun s => seq_ok s l) ss'.
Proof.
  induction ss as [|s r IH]; intros lo lo' ss' H Hne; [congruence|]. cbn in H.
  destruct (assign_baseband lo s) as [[lo1 s1]|] eqn:E1; [|discriminate]. cbn [bind] in H.
  destruct (assign_all_baseband lo1 r) as [[lo2 r2]|] eqn:E2; [|discriminate]. cbn [bind] in H. injection H as <- <-.
  destruct (baseband_one _ _ _ _ E1) as [l [-> [Hs [Hl Hss]]]]. destruct r as [|s2 r].
  - cbn in E2. injection E2 as <- <-. exists l. split; [reflexivity|]. split; [exact Hl|]. split; [repeat constructor; apply Hss|]. constructor; [exact Hs|constructor].
  - destruct (IH _ _ _ E2 ltac:(discriminate)) as [l2 [-> [Hl2 [Hf Hg]]]]. specialize (Hl2 l eq_refl). exists l2. split; [reflexivity|]. split.
    + intros l0 H0. rewrite Hl2. auto.
    + split; [constructor; [exact Hss|exact Hf]|]. constructor; [|exact Hg]. eapply seq_ok_comp; [|exact Hs]. symmetry. exact Hl2.
Qed.

(** RF modules: built-in LOs *)
Definition grows (l l' : nat -> option Q) : Prop := forall k v, l k = Some v -> l' k = Some v.

Lemma assign_rf_ok idx : forall los s los' s', assign_rf idx los s = Ok (los', s') ->
  grows los los' /\ (forall i, s_if s = Some i -> s_if s' = Some i) /\ s_clock s' = s_clock s /\ s_down s' = s_down s /\
  (idx <> [] -> exists i, s_if s' = Some i /\ forall k, In k idx -> exists l, los' k = Some l /\ close (l + i) (rf_of (s_clock s) (s_down s))).
Proof.
  induction idx as [|k r IH]; intros los s los' s' H.
  - injection H as <- <-. repeat split; auto; [intros ? ? ?; assumption|congruence].
  - cbn [assign_rf] in H. destruct (determine _ _ _ _ _) as [[[c l] i]|] eqn:Ed; [|discriminate]. cbn [bind] in H.
    destruct (set_rf_lo (los k) l) as [lo1|] eqn:El; [|discriminate]. cbn [bind] in H. destruct (set_if (s_if s) i) as [i1|] eqn:Ei; [|discriminate]. cbn [bind] in H.
    assert (lo1 = Some l) by (unfold set_rf_lo in El; destruct (los k); [destruct (isclose _ _); [|discriminate]|]; congruence). subst lo1.
    assert (i1 = Some i) by (unfold set_if in Ei; destruct (s_if s); [destruct (isclose _ _); [|discriminate]|]; congruence). subst i1.
    destruct (C27_consistent _ _ _ _ _ _ _ Ed) as [Hc [Hcl [_ [HL HI]]]].
    destruct (IH _ _ _ _ H) as [G [I2 [C2 [D2 R2]]]]. cbn [with_if s_if s_clock s_down] in *.
    assert (Hi' : s_if s' = Some i) by (apply I2; reflexivity).
    assert (Hk : los' k = Some l) by (apply G; unfold upd_lo; rewrite Nat.eqb_refl; reflexivity).
    repeat split; auto.
    + intros k' v Hv. apply G. unfold upd_lo. destruct (Nat.eqb k' k) eqn:E; [|exact Hv]. apply Nat.eqb_eq in E. subst k'. rewrite (HL v Hv). reflexivity.
    + intros i0 Hi0. rewrite Hi'. rewrite (HI i0 Hi0). reflexivity.
    + intros _. exists i. split; [exact Hi'|]. intros k' [<-|Hk'].
      * exists l. split; [exact Hk|]. rewrite <- Hc. exact Hcl.
      * destruct r as [|a r]; [destruct Hk'|]. destruct (R2 ltac:(discriminate)) as [i2 [Hi2 HR]]. rewrite Hi' in Hi2. injection Hi2 as <-. apply HR. exact Hk'.
Qed.

(** If an RF module compiles, every sequencer's IF and every LO it is connected to add up to its clock, user-given LO and IF values unchanged. *)
Theorem C27_rf_module : forall ss los los' ss', assign_all_rf los ss = Ok (los', ss') ->
  grows los los' /\
  Forall2 (fun x s' => (forall i, s_if (snd x) = Some i -> s_if s' = Some i) /\
     (fst x <> [] -> exists i, s_if s' = Some i /\ forall k, In k (fst x) ->
        exists l, los' k = Some l /\ close (l + i) (rf_of (s_clock (snd x)) (s_down (snd x))))) ss ss'.
Proof.
  induction ss as [|[idx s] r IH]; intros los los' ss' H.
  - injection H as <- <-. split; [intros ? ? ?; assumption|constructor].
  - cbn in H. destruct (assign_rf idx los s) as [[l1 s1]|] eqn:E1; [|discriminate]. cbn [bind] in H.
    destruct (assign_all_rf l1 r) as [[l2 r2]|] eqn:E2; [|discriminate]. cbn [bind] in H. injection H as <- <-.
    destruct (assign_rf_ok _ _ _ _ _ E1) as [G1 [I1 [_ [_ R1]]]]. destruct (IH _ _ _ E2) as [G2 F2]. split.
    + intros k v Hv. apply G2, G1, Hv.
    + constructor; [|exact F2]. cbn [fst snd]. split; [exact I1|]. intros Hne. destruct (R1 Hne) as [i [Hi HR]]. exists i. split; [exact Hi|].
      intros k Hk. destruct (HR k Hk) as [l [Hl Hcl]]. exists l. split; [apply G2, Hl|exact Hcl].
Qed.

Example C27_example :
  assign_all_baseband None [{| s_clock := 6000; s_if := Some 100; s_down := None; s_mix := true |};
                            {| s_clock := 5950; s_if := None; s_down := None; s_mix := true |}] =
    Ok (Some (6000 - 100), [{| s_clock := 6000; s_if := Some 100; s_down := None; s_mix := true |};
                     {| s_clock := 5950; s_if := Some (5950 - (6000 - 100)); s_down := None; s_mix := true |}]) /\
  assign_all_baseband None [{| s_clock := 6000; s_if := Some 100; s_down := None; s_mix := true |};
                            {| s_clock := 5950; s_if := Some 70; s_down := None; s_mix := true |}] = Err ValueError.
Proof. split; reflexivity. Qed.

Example C27_rf_example : exists l, assign_all_rf (fun _ => None) [([0%nat], {| s_clock := 6000; s_if := Some 100; s_down := None; s_mix := true |})] = Ok l.
Proof. eexists. reflexivity. Qed.
