(** C40: completeness, and what the compiled circuit looks like. *)
From Verif Require Import Base TimingModel TableModel CircModel CircSpec CircProps.
From Coq Require Import List Arith Lia.
Open Scope string_scope.
Open Scope list_scope.
Open Scope Q_scope.

(** ** Arguments *)
Lemma from_gate_ok g : forall keys kw, (forall k, In k keys -> exists v, GateArg g None k v) -> exists kw', from_gate g keys kw = Ok kw'.
Proof.
  induction keys as [|k keys IH]; intros kw H; [eexists; reflexivity|]. destruct (H k (or_introl eq_refl)) as (v & Hv). inversion Hv; subst. cbn [from_gate foldM]. unfold index. rewrite H0. cbn [bind]. apply IH. intros k' Hk. apply H. right. exact Hk.
Qed.
Lemma from_gate_mux_ok g i : forall keys kw, (forall k, In k keys -> exists v, GateArg g (Some i) k v) -> exists kw', from_gate_mux g i keys kw = Ok kw'.
Proof.
  induction keys as [|k keys IH]; intros kw H; [eexists; reflexivity|]. destruct (H k (or_introl eq_refl)) as (v & Hv).
  assert (Hr : forall kw, exists kw', from_gate_mux g i keys kw = Ok kw') by (intros kw'; apply IH; intros k' Hk; apply H; right; exact Hk).
  inversion Hv as [|? ? ? Ha Hn|? ? l ? Ha Hl]; subst; cbn [from_gate_mux foldM]; unfold index; rewrite Ha; cbn [bind].
  - destruct v; try (apply Hr). exfalso. eapply Hn. reflexivity.
  - rewrite Hl. cbn [bind]. apply Hr.
Qed.
Lemma next_delay_ok g kw : (skips_delay g -> exists v w, get kw "acq_delay" = Some v /\ Minus v w) -> exists kw', next_delay g kw = Ok kw'.
Proof.
  intros H. unfold next_delay. destruct (is_measure g && negb (apply_acq_delay g))%bool eqn:E; [|eexists; reflexivity].
  apply andb_prop in E. destruct E as [E1 E2]. apply negb_true_iff in E2. destruct (H (conj E1 E2)) as (v & w & Hv & Hm). unfold index. rewrite Hv. cbn [bind]. apply negated_spec in Hm. rewrite Hm. cbn [bind]. eexists. reflexivity.
Qed.
Lemma single_represented cfg g c over dev : unordered cfg -> Configured cfg c -> Represents g c None over dev -> device_repr g c (merged (own_overrides g) over) = Ok dev.
Proof.
  intros Hu Hc (f & kw & Hf & [Hk Hd] & Hkw & Edev). unfold device_repr.
  destruct (next_delay_ok g (kwargs c)) as (kw1 & E1); [intros Hs; destruct (Hd Hs) as (v & w & Ha & Hm); inversion Ha; subst; eauto|]. destruct (from_gate_ok g (gate_keys c) kw1 Hk) as (kw2 & E2). rewrite E1. cbn [bind]. rewrite E2. cbn [bind]. unfold call. rewrite Hf, <- Edev.
  eapply Hu; [exact Hc|exact Hf|]. eapply called_fun; [|exact Hkw]. apply called. eapply base_single; eassumption.
Qed.
Lemma mux_represented cfg g c i over dev : unordered cfg -> Configured cfg c -> Represents g c (Some i) over dev -> device_repr_mux g c i (merged (own_overrides g) over) = Ok dev.
Proof.
  intros Hu Hc (f & kw & Hf & [Hk Hd] & Hkw & Edev). unfold device_repr_mux.
  destruct (from_gate_mux_ok g i (gate_keys c) (kwargs c) Hk) as (kw1 & E1). destruct (from_gate_mux_spec _ _ _ _ _ E1) as [G1 G2].
  destruct (next_delay_ok g kw1) as (kw2 & E2).
  { intros Hs. destruct (Hd Hs) as (v & w & Ha & Hm). exists v, w. split; [|exact Hm]. inversion Ha as [|? ? Hn Hg|? ? Hi Hg]; subst; [rewrite (G2 _ Hn); exact Hg|]. destruct (G1 _ Hi) as (x & Hx & Hx'). rewrite Hx'. f_equal. eapply GateArg_fun; eassumption. }
  rewrite E1. cbn [bind]. rewrite E2. cbn [bind]. unfold call. rewrite Hf, <- Edev.
  eapply Hu; [exact Hc|exact Hf|]. eapply called_fun; [|exact Hkw]. apply called. eapply base_mux; eassumption.
Qed.
Lemma on_element_configured cfg q t c : OnElement cfg q t c -> Configured cfg c.
Proof. intros (el & H1 & H2). exists q, el, t. auto. Qed.
Lemma on_edge_configured cfg g a b c : OnEdge cfg g a b c -> Configured cfg c.
Proof. intros (ed & H1 & [H2|(_ & _ & H2)]); eexists _, ed, _; eauto. Qed.

(** ** Completeness *)
(** Whatever the configuration prescribes is what the compiler returns, given a deep enough call stack (the recursion has no other limit). With [C40_sound] the compiled circuit is unique. *)
Theorem C40_complete : forall cfg over o o', unordered cfg -> Device cfg over o o' -> exists n, forall fuel, (n <= fuel)%nat -> c2d fuel cfg over o = Ok o'.
Proof.
  intros cfg over o o' Hu HD.
  enough (HH : (forall over o o', Device cfg over o o' -> exists n, forall fuel, (n <= fuel)%nat -> c2d fuel cfg over o = Ok o') /\
    (forall over ops ops', DeviceOps cfg over ops ops' -> exists n, forall fuel, (n <= fuel)%nat -> mapM (fun '(k, x) => do x' <- c2d fuel cfg over x; Ok (k, x')) ops = Ok ops') /\
    (forall over id l g dev o', Becomes cfg over id l g dev o' -> exists n, forall fuel, (n <= fuel)%nat -> attach (c2d fuel cfg) (merged (own_overrides g) over) id l dev = Ok o') /\
    (forall over g i qs plain subs, Parts cfg over g i qs plain subs -> exists n, forall fuel, (n <= fuel)%nat -> forall l flag subs0,
        mux (c2d fuel cfg) cfg (merged (own_overrides g) over) g i qs l flag subs0 = Ok (extended l plain, (flag || match plain with [] => false | _ => true end)%bool, subs0 ++ subs))).
  { apply HH, HD. }
  clear HD o o' over. apply (Device_mut cfg).
  - intros over own d r n ops ops' ss _ (m & Hm). exists (S m). intros [|f] Hf; [lia|]. cbn [c2d]. rewrite Hm by lia. reflexivity.
  - intros over n b b' _ (m & Hm). exists (S m). intros [|f] Hf; [lia|]. cbn [c2d]. rewrite Hm by lia. reflexivity.
  - intros over n b b' _ (m & Hm). exists (S m). intros [|f] Hf; [lia|]. cbn [c2d]. rewrite Hm by lia. reflexivity.
  - intros over qs mx g r b b' max grid rate E _ (m & Hm). exists (S m). intros [|f] Hf; [lia|]. cbn [c2d]. rewrite E. cbn [bind]. rewrite Hm by lia. reflexivity.
  - intros over mx g r b b' _ (m & Hm). exists (S m). intros [|f] Hf; [lia|]. cbn [c2d]. rewrite Hm by lia. reflexivity.
  - intros over c d. exists 1%nat. intros [|f] Hf; [lia|]. reflexivity.
  - intros over id l Hl. exists 1%nat. intros [|f] Hf; [lia|]. cbn [c2d]. destruct (pulses l) eqn:Hp; [|reflexivity]. destruct (acqs l) eqn:Ha; [|reflexivity]. exfalso. apply Hl. split; assumption.
  - intros over id l g q c dev o' [Hp Ha] Hg He Hon Hr _ (m & Hm). exists (S m). intros [|f] Hf; [lia|]. cbn [c2d]. rewrite Hp, Ha. unfold gate_to_device. rewrite Hg, He. unfold single.
    pose proof (single_represented _ _ _ _ _ Hu (on_element_configured _ _ _ _ Hon) Hr) as Er. destruct Hon as (el & H1 & H2). unfold index. rewrite H1. cbn [bind]. rewrite H2. cbn [bind]. rewrite Er. cbn [bind]. rewrite Hm by lia. reflexivity.
  - intros over id l g a b el c dev o' [Hp Ha] Hg He H1 H2 Hon Hr _ (m & Hm). exists (S m). intros [|f] Hf; [lia|]. cbn [c2d]. rewrite Hp, Ha. unfold gate_to_device. rewrite Hg, He. unfold index at 1. rewrite H1. cbn [bind]. unfold has at 1. rewrite H2. unfold two.
    pose proof (single_represented _ _ _ _ _ Hu (on_edge_configured _ _ _ _ _ Hon) Hr) as Er. destruct (edge_complete _ _ _ _ _ Hon) as (e & ed & E1 & E2 & E3). rewrite E1. cbn [bind]. unfold index. rewrite E2. cbn [bind]. rewrite E3. cbn [bind]. rewrite Er. cbn [bind]. rewrite Hm by lia. reflexivity.
  - intros over id l g plain subs [Hp Ha] Hg Hn H2 _ (m & Hm). exists (S m). intros [|f] Hf; [lia|]. cbn [c2d]. rewrite Hp, Ha. unfold gate_to_device. rewrite Hg.
    assert (Hx : multiplexed (c2d f cfg) cfg (merged (own_overrides g) over) id l g = Ok (match subs with [] => GLeaf id (extended l plain) | _ => inner_schedule ((if match plain with [] => true | _ => false end then [] else [GLeaf id (extended l plain)]) ++ subs) end, extended l plain)).
    { unfold multiplexed. rewrite Hm by lia. cbn [bind app]. destruct subs, plain; reflexivity. }
    destruct (elems g) as [|a [|b [|c rest]]] eqn:Ee.
    + rewrite Hx. reflexivity.
    + exfalso. apply Hn. reflexivity.
    + destruct (H2 a b eq_refl) as (c & el & Hc1 & Hc2). unfold index at 1. rewrite Hc1. cbn [bind]. unfold has. rewrite Hc2, Hx. reflexivity.
    + rewrite Hx. reflexivity.
  - intros over. exists 0%nat. reflexivity.
  - intros over k x x' r r' _ (m1 & H1) _ (m2 & H2). exists (m1 + m2)%nat. intros f Hf. cbn [mapM]. rewrite H1 by lia. cbn [bind]. rewrite H2 by lia. reflexivity.
  - intros over id l g dev o' Hs _ (m & Hm). exists m. intros f Hf. unfold attach. apply sched_dec in Hs. rewrite Hs. apply Hm, Hf.
  - intros over id l g dev Hs. exists 0%nat. intros f _. unfold attach. destruct (is_sched dev) eqn:E; [exfalso; apply Hs, sched_dec, E|]. rewrite represent_extended. reflexivity.
  - intros over g i. exists 0%nat. intros f _ l flag subs0. cbn [mux]. rewrite extended_nil, orb_false_r, app_nil_r. reflexivity.
  - intros over g i q qs c dev plain subs Hon Hr Hs _ (m & Hm). exists m. intros f Hf l flag subs0. cbn [mux]. pose proof (mux_represented _ _ _ _ _ _ Hu (on_element_configured _ _ _ _ Hon) Hr) as Er. destruct Hon as (el & H1 & H2). unfold index. rewrite H1. cbn [bind]. rewrite H2. cbn [bind]. rewrite Er. cbn [bind]. destruct (is_sched dev) eqn:E; [exfalso; apply Hs, sched_dec, E|]. rewrite Hm by lia. rewrite represent_extended, extended_app, orb_true_r. reflexivity.
  - intros over g i q qs c dev o' plain subs Hon Hr Hs _ (m1 & H1) _ (m2 & H2). exists (m1 + m2)%nat. intros f Hf l flag subs0. cbn [mux]. pose proof (mux_represented _ _ _ _ _ _ Hu (on_element_configured _ _ _ _ Hon) Hr) as Er. destruct Hon as (el & G1 & G2). unfold index. rewrite G1. cbn [bind]. rewrite G2. cbn [bind]. rewrite Er. cbn [bind]. apply sched_dec in Hs. rewrite Hs. unfold inside in H1. rewrite H1 by lia. cbn [bind]. rewrite H2 by lia. rewrite <- app_assoc. reflexivity.
Qed.
(** the compiled circuit is unique *)
Theorem C40_unique : forall cfg over o o1 o2, unordered cfg -> Device cfg over o o1 -> Device cfg over o o2 -> o1 = o2.
Proof.
  intros cfg over o o1 o2 Hu H1 H2. destruct (C40_complete _ _ _ _ Hu H1) as (n1 & E1). destruct (C40_complete _ _ _ _ Hu H2) as (n2 & E2). specialize (E1 (n1 + n2)%nat). specialize (E2 (n1 + n2)%nat). rewrite E1 in E2 by lia. assert (E : Ok o1 = Ok o2) by (apply E2; lia). congruence.
Qed.
