(** C64: what is accepted, and what is not noticed. *)
From Coq Require Import Lqa Permutation.
From Verif Require Import Base DevModel DevProps ZiFreqModel ZiFreqSpec ZiFreqProps ZiFreqProps2 ZiFreqThms.
Local Open Scope string_scope.

(** every option that is used is for a channel with a known oscillator and has an intermediate frequency; every oscillator of a channel is mentioned by an option; names do not clash *)
Definition acceptable (mods : list (string * modfreq)) (pcs : list (string * string)) (devices : list (string * list channel)) (oscs : list losc) : Prop :=
  (forall pc m, In pc pcs -> lookup (fst pc ++ "-" ++ snd pc) mods = Some m -> exists ch n i, In ch (chans devices) /\ (cport ch, cclock ch) = pc /\ clo ch = Some n /\ In n (map lname oscs) /\ m_if m = Some i) /\
  (forall ch n, In ch (chans devices) -> clo ch = Some n -> exists pc m, In pc pcs /\ gives mods (chans devices) n pc m) /\
  (forall n, In n (map lname oscs) -> n <> "generic" /\ ~ In n (map fst devices)).
Lemma gen_accepts : forall mods cs os pcs v w, distinct cs -> (forall pc m, In pc pcs -> lookup (fst pc ++ "-" ++ snd pc) mods = Some m -> exists ch n, In ch cs /\ (cport ch, cclock ch) = pc /\ clo ch = Some n /\ In n (map lname os)) ->
  exists h, foldM (set_freqs mods) pcs {| ifs := Ifs v cs; los := Los w os |} = Ok h.
Proof.
  intros mods cs os pcs v w D. revert v w. induction pcs as [|pc pcs IH]; intros v w A; cbn [foldM]; [eauto|].
  unfold set_freqs at 1. destruct (lookup _ mods) as [m|] eqn:L; cbn [bind ifs los]; [|apply IH; intros pc2 m2 I2 L2; apply (A pc2 m2); [now right | auto]].
  destruct (A pc m (or_introl eq_refl) L) as [ch [n [I [Pc [C N]]]]]. rewrite (set_if_spec _ _ _ _ _ D).
  destruct (find (here (fst pc) (snd pc)) cs) as [ch'|] eqn:F.
  - apply find_some in F as [I' H']. assert (ch' = ch) as ->.
    { apply here_spec in H'. destruct pc as [p c]. cbn in H'. rewrite <- Pc in H'. clear - D I I' H'. unfold distinct in D. induction cs as [|a r IH]; [easy|]. inversion D as [|? ? N D']; subst.
      destruct I as [->|I], I' as [->|I']; auto; exfalso; apply N; [rewrite <- H' | rewrite H']; now apply (in_map (fun ch => (cport ch, cclock ch))). }
    rewrite C. assert (existsb (fun lx => lname (fst lx) =? n) (Los w os) = true) as ->.
    { apply existsb_exists. apply in_map_iff in N as [o [<- Io]]. exists (o, w o). split; [now apply (in_map (fun o => (o, w o))) | apply String.eqb_refl]. }
    cbn [bind]. rewrite set_lo_spec. apply IH. intros pc2 m2 I2 L2; apply (A pc2 m2); [now right | auto].
  - exfalso. pose proof (find_none _ _ F ch I) as X. destruct pc as [p c]. assert (here p c ch = true) by (now apply here_spec). cbn in X. congruence.
Qed.
Lemma parse_ifs_accepts : forall v cs, (forall ch, In ch cs -> v ch <> Some None) -> exists r, mapM parse_if (Ifs v cs) = Ok r.
Proof.
  induction cs as [|ch cs IH]; intros A; [cbn; eauto|]. cbn [Ifs map mapM]. unfold parse_if at 1. cbn [snd fst]. pose proof (A ch (or_introl eq_refl)) as X. destruct (IH (fun c I => A c (or_intror I))) as [r R]. unfold Ifs in R.
  destruct (v ch) as [[q|]|]; [| congruence |]; cbn [bind]; rewrite R; cbn [bind]; eauto.
Qed.
Lemma parse_los_accepts : forall w os, NoDup (map lname os) -> exists r, parse_los (Los w os) = Ok r.
Proof.
  induction os as [|o os IH]; intros N; [cbn; eauto|]. inversion N as [|? ? N1 N2]; subst. destruct (IH N2) as [r R]. cbn [Los map parse_los]. unfold Los in R. rewrite R. cbn [bind fst]. destruct (parse_los_spec _ _ _ R) as [-> _].
  destruct (mem _ _) eqn:M; [|eauto]. apply mem_in in M. rewrite map_map in M. cbn in M. contradiction.
Qed.
(** no state on the way has an entry with the name of an oscillator, and every oscillator that is used has a frequency *)
Definition ready (names : list string) (st : state) : Prop :=
  (forall n, In n names -> lookup n (configs st) = None) /\ lookup "generic" (configs st) <> Some EDev /\ (forall n, In n names -> exists l lo, lookup n (freqs st) = Some (l, Some lo)).
Lemma step_accepts : forall res names st ch i, ~ In "generic" names -> ready names st -> (forall n, clo ch = Some n -> In n names) -> exists st', add_lo_config res st (ch, Some i) = Ok st' /\ ready names st'.
Proof.
  intros res names st ch i Ng [R1 [R2 R3]] C. unfold add_lo_config. destruct (clo ch) as [n|] eqn:Cl; [|exists st; split; [reflexivity|]; unfold ready; auto].
  specialize (C n eq_refl). destruct (R3 n C) as [l [lo L]]. rewrite L, (R1 n C). cbn [bind].
  assert (K : forall fr e, (forall k, In k names -> exists l lo, lookup k fr = Some (l, Some lo)) -> ready names {| freqs := fr; chs := chs st; configs := insert default_icc (ESet e) (configs st) |}).
  { intros fr e Fr. split; [|split; [|exact Fr]]; cbn [configs].
    - intros k Ik. rewrite lookup_insert. destruct (k =? default_icc) eqn:E; [|auto]. apply String.eqb_eq in E. subst k. contradiction.
    - rewrite lookup_insert. discriminate. }
  assert (Fi : forall f, forall k, In k names -> exists l' lo', lookup k (insert n (l, Some (Some f)) (freqs st)) = Some (l', Some lo')).
  { intros f k Ik. rewrite lookup_insert. destruct (k =? n); eauto. }
  change default_icc with "generic" in *.
  destruct lo as [f|]; [|destruct (lookup (cclock ch) res) as [rf|]; [|exists st; split; [reflexivity|]; unfold ready; auto]]; cbn [bind];
    (destruct (lookup "generic" (configs st)) as [[|s]|]; [congruence | |]); eexists; (split; [reflexivity|]); apply K; auto.
Qed.
Lemma steps_accept : forall res names, ~ In "generic" names -> forall q cs st, ready names st -> (forall ch n, In ch cs -> clo ch = Some n -> In n names) ->
  exists st', foldM (add_lo_config res) (map (fun ch => (ch, Some (q ch))) cs) st = Ok st' /\ ready names st'.
Proof.
  intros res names Ng q. induction cs as [|ch cs IH]; intros st R C; cbn [map foldM]; [eauto|].
  destruct (step_accepts res names st ch (q ch) Ng R (fun n => C ch n (or_introl eq_refl))) as [st1 [E R1]]. rewrite E. cbn [bind]. apply IH; auto. intros c n I. apply C. now right.
Qed.
Lemma devices_accept : forall res names, ~ In "generic" names -> forall q ds st, ~ In "generic" (map fst ds) -> (forall n, In n names -> ~ In n (map fst ds)) -> ready names st -> (forall ch n, In ch (chans ds) -> clo ch = Some n -> In n names) ->
  exists st', foldM (add_device res) (map (fun d => (fst d, map (fun ch => (ch, Some (q ch))) (snd d))) ds) st = Ok st' /\ ready names st'.
Proof.
  intros res names Ng q. induction ds as [|[d cs] ds IH]; intros st G Nd [R1 [R2 R3]] C; cbn [map foldM]; [exists st; split; [reflexivity | unfold ready; auto]|].
  unfold add_device at 1. cbn [fst snd]. cbn [map fst In] in G, Nd.
  assert (R0 : ready names {| freqs := freqs st; chs := chs st; configs := insert d EDev (configs st) |}).
  { split; [|split; [|exact R3]]; cbn [configs].
    - intros n I. rewrite lookup_insert. destruct (n =? d) eqn:E; [|auto]. apply String.eqb_eq in E. subst d. exfalso. apply (Nd n I). now left.
    - rewrite lookup_insert. destruct ("generic" =? d) eqn:E; [|auto]. apply String.eqb_eq in E. subst d. exfalso. tauto. }
  destruct (steps_accept res names Ng q cs _ R0) as [st1 [E R4]].
  { intros ch n I. apply C. unfold chans. cbn [flat_map snd]. apply in_or_app. now left. }
  rewrite E. cbn [bind]. refine (IH st1 _ _ R4 _); [intros J; apply G; now right | intros n I J; apply (Nd n I); now right|]. intros ch n I. apply C. unfold chans. cbn [flat_map snd]. apply in_or_app. now right.
Qed.
(** Whether a setup is accepted does not depend on the frequencies of the clocks, nor on the frequencies of oscillators: with options as they should be, every combination is accepted, contradictory ones included. *)
Theorem C64_accepts : forall mods pcs devices oscs res, distinct (chans devices) -> separate oscs -> ~ In "generic" (map fst devices) -> acceptable mods pcs devices oscs -> exists st, compile_freqs mods pcs devices oscs res = Ok st.
Proof.
  intros mods pcs devices oscs res D Se G [A1 [A2 A3]]. unfold compile_freqs, generate.
  destruct (gen_accepts mods (chans devices) oscs pcs (fun _ => None) (fun _ => None) D) as [h E].
  { intros pc m I L. destruct (A1 pc m I L) as [ch [n [i [X1 [X2 [X3 [X4 _]]]]]]]. exists ch, n. auto. }
  unfold Ifs, Los in E. unfold chans in E at 1. rewrite E. cbn [bind]. destruct (gen_spec _ _ _ D _ _ _ _ E) as [v [w [-> [V [W1 [W2 K]]]]]]. cbn [ifs los].
  destruct (parse_ifs_accepts v (chans devices)) as [r R].
  { intros ch I. rewrite (V ch I). destruct (existsb _ _) eqn:X; [|discriminate]. destruct (options mods ch) as [m|] eqn:O; [|discriminate]. apply existsb_exists in X as [[p c] [Ip Hp]]. apply here_spec in Hp.
    destruct (A1 (p, c) m Ip) as [ch' [n [i [_ [_ [_ [_ M]]]]]]]; [|rewrite M; discriminate]. cbn in Hp. injection Hp as E1 E2. unfold options in O. rewrite E1, E2 in O. exact O. }
  rewrite R. cbn [bind]. destruct (parse_los_accepts w oscs (proj1 Se)) as [ls L]. rewrite L. cbn [bind]. destruct (parse_ifs_spec _ _ _ R) as [-> _]. destruct (parse_los_spec _ _ _ L) as [-> _]. rewrite regroup_spec.
  pose (names := filter (fun n => existsb (fun ch => match clo ch with Some n' => n' =? n | None => false end) (chans devices)) (map lname oscs)).
  assert (Kn : forall ch n, In ch (chans devices) -> clo ch = Some n -> In n names).
  { intros ch n I C. apply filter_In. split.
    - destruct (A2 ch n I C) as [pc [m [Ip [ch' [I' [P' [C' O']]]]]]]. rewrite <- P' in Ip. destruct (K ch' m I' Ip O') as [n' [C'' Io]]. congruence.
    - apply existsb_exists. exists ch. split; auto. rewrite C. apply String.eqb_refl. }
  destruct (devices_accept res names) with (q := fun ch => val (v ch)) (ds := devices) (st := {| freqs := map (fun o => (lname o, (o, w o))) oscs; chs := map (fun ch => (ch, Some (val (v ch)))) (chans devices); configs := [] |}) as [st [Hs _]]; auto.
  - intros I. apply filter_In in I as [I _]. destruct (A3 _ I) as [N _]. now apply N.
  - intros n I. apply filter_In in I as [I _]. apply (A3 _ I).
  - split; [reflexivity|]. split; [discriminate|]. intros n I. apply filter_In in I as [I X]. apply in_map_iff in I as [o [<- Io]]. cbn [freqs].
    apply existsb_exists in X as [ch [Ic X]]. destruct (clo ch) as [n'|] eqn:C; [|discriminate X]. apply String.eqb_eq in X. subst n'. destruct (A2 ch _ Ic C) as [pc [m [Ip Gv]]].
    assert (exists lo, w o = Some lo) as [lo Hl].
    { clear - Ip Gv W2. assert (exists pre pc' post m', pcs = (pre ++ pc' :: post)%list /\ gives mods (chans devices) (lname o) pc' m' /\ forall p q, In p post -> ~ gives mods (chans devices) (lname o) p q) as [pre [pc' [post [m' [E [Gv' N]]]]]].
      { clear W2.
        revert pc m Ip Gv. induction pcs as [|p r IH]; intros pc m Ip Gv; [easy|].
        destruct (existsb (fun p => existsb (fun c => (cport c =? fst p) && (cclock c =? snd p) && match clo c with Some n => n =? lname o | None => false end && match options mods c with Some _ => true | None => false end) (chans devices)) r) eqn:X.
        - apply existsb_exists in X as [p' [Ip' X]]. apply existsb_exists in X as [c [Ic X]]. rewrite !andb_true_iff in X. destruct X as [[[X1 X2] X3] X4]. apply String.eqb_eq in X1, X2. destruct (clo c) as [n|] eqn:C; [|discriminate X3]. apply String.eqb_eq in X3. subst n.
          destruct (options mods c) as [q|] eqn:O; [|discriminate X4].
          destruct (IH p' q Ip') as [pre [pc' [post [m' [-> R]]]]]; [exists c; split; auto; split; [rewrite X1, X2; now destruct p' | auto]|]. exists (p :: pre), pc', post, m'. auto.
        - assert (No : forall p' q, In p' r -> ~ gives mods (chans devices) (lname o) p' q).
          { intros p' q Ip' [c [Ic [<- [C O]]]]. assert (Y : existsb (fun p => existsb (fun c => (cport c =? fst p) && (cclock c =? snd p) && match clo c with Some n => n =? lname o | None => false end && match options mods c with Some _ => true | None => false end) (chans devices)) r = true); [|congruence].
            apply existsb_exists. eexists. split; [exact Ip'|]. apply existsb_exists. exists c. split; auto. cbn [fst snd]. now rewrite !String.eqb_refl, C, O, String.eqb_refl. }
          destruct Ip as [->|Ip]; [exists [], pc, r, m; auto | exfalso; eapply No; eauto]. }
      exists (m_lo m'). eapply W2; eauto. }
    exists o, lo. rewrite <- Hl. apply in_lookup; [rewrite map_map; exact (proj1 Se) | now apply (in_map (fun o => (lname o, (o, w o))))].
  - exists st. exact Hs.
Qed.
