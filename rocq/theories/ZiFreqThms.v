(** C64 *)
From Coq Require Import Lqa Permutation.
From Verif Require Import Base DevModel DevProps ZiFreqModel ZiFreqSpec ZiFreqProps ZiFreqProps2.
Local Open Scope string_scope.

Lemma chan_steps : forall res oscs, separate oscs -> forall q cs st st', WF oscs st -> foldM (add_lo_config res) (map (fun ch => (ch, Some (q ch))) cs) st = Ok st' ->
  WF oscs st' /\ chs st' = chs st /\ forall l, In l oscs -> P res l (map (fun ch => (ch, Some (q ch))) cs) st st'.
Proof.
  intros res oscs Se q. induction cs as [|ch cs IH]; intros st st' W H; cbn [map foldM] in H.
  - injection H as <-. split; auto. split; auto. intros. apply P_nil.
  - apply bindE in H as [st1 [E H]]. destruct (chan_step _ _ _ _ _ _ Se W E) as [W1 [C1 P1]]. destruct (IH _ _ W1 H) as [W2 [C2 P2]]. split; auto. split; [congruence|]. intros l I. apply (P_app res l [(ch, Some (q ch))] _ st st1 st'); auto.
Qed.
Lemma device_steps : forall res oscs, separate oscs -> forall q ds st st', ~ In "generic" (map fst ds) -> WF oscs st -> foldM (add_device res) (map (fun d => (fst d, map (fun ch => (ch, Some (q ch))) (snd d))) ds) st = Ok st' ->
  WF oscs st' /\ chs st' = chs st /\ forall l, In l oscs -> P res l (map (fun ch => (ch, Some (q ch))) (chans ds)) st st'.
Proof.
  intros res oscs Se q. induction ds as [|[n cs] ds IH]; intros st st' N W H; cbn [map foldM] in H.
  - injection H as <-. split; auto. split; auto. intros. apply P_nil.
  - apply bindE in H as [st1 [E H]]. unfold add_device in E. cbn [fst snd] in E, H. cbn [map fst In] in N.
    assert (W0 : WF oscs {| freqs := freqs st; chs := chs st; configs := insert n EDev (configs st) |}) by (apply (dev_step res oscs {| lname := ""; linstr := ""; lparam := ""; lpower_param := ""; lpower := None |}); auto).
    destruct (chan_steps _ _ Se _ _ _ _ W0 E) as [W1 [C1 P1]].
    destruct (IH _ _ ltac:(tauto) W1 H) as [W2 [C2 P2]]. split; auto. split; [cbn in C1; congruence|]. intros l I.
    unfold chans. cbn [flat_map snd]. rewrite map_app. eapply P_app; [|apply P2; auto].
    change (map (fun ch => (ch, Some (q ch))) cs) with ([] ++ map (fun ch => (ch, Some (q ch))) cs)%list. eapply P_app; [|apply P1; auto]. apply (dev_step res oscs); auto.
Qed.
(** the compilation in one piece *)
Lemma compiled : forall mods pcs devices oscs res st, compile_freqs mods pcs devices oscs res = Ok st -> distinct (chans devices) -> separate oscs -> ~ In "generic" (map fst devices) ->
  exists v w, chs st = map (fun ch => (ch, Some (val (v ch)))) (chans devices) /\ (forall ch, In ch (chans devices) -> v ch <> Some None) /\
    (forall ch, In ch (chans devices) -> v ch = if existsb (fun pc => here (fst pc) (snd pc) ch) pcs then option_map m_if (options mods ch) else None) /\
    (forall o, (forall pc m, In pc pcs -> ~ gives mods (chans devices) (lname o) pc m) -> w o = None) /\
    (forall o pre pc post m, pcs = (pre ++ pc :: post)%list -> gives mods (chans devices) (lname o) pc m -> (forall pc' m', In pc' post -> ~ gives mods (chans devices) (lname o) pc' m') -> w o = Some (m_lo m)) /\
    exists st0, (forall l, In l oscs -> lookup (lname l) (freqs st0) = Some (l, w l)) /\ (forall k, settings st0 k = None) /\
      forall l, In l oscs -> P res l (map (fun ch => (ch, Some (val (v ch)))) (chans devices)) st0 st.
Proof.
  intros mods pcs devices oscs res st H D Se G. unfold compile_freqs in H. apply bindE in H as [h [E H]]. unfold generate in E.
  destruct (gen_spec mods (chans devices) oscs D pcs (fun _ => None) (fun _ => None) h E) as [v [w [-> [V [W1 [W2 _]]]]]]. cbn [ifs los] in H.
  apply bindE in H as [cs [Ec H]]. apply bindE in H as [ls [El H]]. destruct (parse_ifs_spec _ _ _ Ec) as [-> Nn]. destruct (parse_los_spec _ _ _ El) as [-> Nd].
  rewrite regroup_spec in H. cbn [fst snd] in H.
  exists v, w. set (st0 := {| freqs := map (fun o => (lname o, (o, w o))) oscs; chs := map (fun ch => (ch, Some (val (v ch)))) (chans devices); configs := [] |}) in *.
  assert (WF oscs st0).
  { split; [|discriminate]. intros n l x K. apply lookup_in in K. unfold st0 in K. cbn [freqs] in K. apply in_map_iff in K as [o [Eo Io]]. injection Eo as <- <- <-. auto. }
  destruct (device_steps _ _ Se (fun ch => val (v ch)) devices st0 st G H0 H) as [_ [Cs Pl]].
  split; [exact Cs|]. split; [exact Nn|]. split; [intros ch I; rewrite (V ch I); destruct (existsb _ _); [destruct (options mods ch); reflexivity | reflexivity]|]. split; [intros o Ho; now apply W1|]. split; [exact W2|].
  exists st0. split; [|split; [reflexivity | exact Pl]]. intros l I. apply in_lookup.
  - unfold st0. cbn [freqs]. rewrite map_map. cbn. exact Nd.
  - unfold st0. cbn [freqs]. now apply (in_map (fun o => (lname o, (o, w o)))).
Qed.
(** The intermediate frequency of a channel is the one in its options; without options it is 0. *)
Theorem C64_interm : forall mods pcs devices oscs res st ch, compile_freqs mods pcs devices oscs res = Ok st -> distinct (chans devices) -> separate oscs -> ~ In "generic" (map fst devices) ->
  In ch (chans devices) -> In (cport ch, cclock ch) pcs -> exists i, In (ch, Some i) (chs st) /\ (forall i', In (ch, i') (chs st) -> i' = Some i) /\
    match options mods ch with Some m => m_if m = Some i | None => i = 0 end.
Proof.
  intros mods pcs devices oscs res st ch H D Se G I Ip. destruct (compiled _ _ _ _ _ _ H D Se G) as [v [w [C [Nn [V _]]]]]. exists (val (v ch)). rewrite C. split; [now apply (in_map (fun ch => (ch, Some (val (v ch)))))|]. split.
  - intros i' J. apply in_map_iff in J as [c [E _]]. injection E as <- <-. reflexivity.
  - specialize (V ch I). assert (X : existsb (fun pc => here (fst pc) (snd pc) ch) pcs = true) by (apply existsb_exists; eexists; split; [exact Ip | now apply here_spec]). rewrite X in V.
    specialize (Nn ch I). rewrite V in *. destruct (options mods ch) as [m|]; cbn in *; [|reflexivity]. destruct (m_if m); [reflexivity | congruence].
Qed.
(** the last of the used ports and clocks whose options say something about the oscillator [n] *)
Definition last_options (mods : list (string * modfreq)) (cs : list channel) (pcs : list (string * string)) (n : string) (m : modfreq) : Prop :=
  exists pre pc post, pcs = (pre ++ pc :: post)%list /\ gives mods cs n pc m /\ forall pc' m', In pc' post -> ~ gives mods cs n pc' m'.
(** the first channel of the oscillator [n] with a clock that the schedule knows *)
Definition first_channel (cs : list channel) (res : list (string * Q)) (n : string) (ch : channel) (f : Q) : Prop :=
  exists pre post, cs = (pre ++ ch :: post)%list /\ clo ch = Some n /\ lookup (cclock ch) res = Some f /\ forall ch', In ch' pre -> clo ch' = Some n -> lookup (cclock ch') res = None.
(** What is set on an oscillator: the frequency in its (last) options; and if that is left open, the one that puts the first of its channels on the frequency of the clock. *)
Theorem C64_setting : forall mods pcs devices oscs res st l m, compile_freqs mods pcs devices oscs res = Ok st -> distinct (chans devices) -> separate oscs -> ~ In "generic" (map fst devices) ->
  In l oscs -> last_options mods (chans devices) pcs (lname l) m ->
  (forall f, m_lo m = Some f -> settings st (key l) = Some (Some f)) /\
  (m_lo m = None -> forall ch f, first_channel (chans devices) res (lname l) ch f -> plays_at st oscs ch f).
Proof.
  intros mods pcs devices oscs res st l m H D Se G I [pre [pc [post [Ep [Gv Np]]]]]. destruct (compiled _ _ _ _ _ _ H D Se G) as [v [w [C [Nn [V [_ [W2 [st0 [L0 [S0 Pl]]]]]]]]]].
  pose proof (W2 l pre pc post m Ep Gv Np) as Wl. specialize (Pl l I). specialize (Pl _ (L0 l I)). rewrite Wl in Pl. split.
  - intros f Ef. rewrite Ef in Pl. destruct Pl as [_ Pl]. rewrite Pl. destruct Gv as [ch [Ic [_ [Cl _]]]].
    assert (X : existsb (used (lname l)) (map (fun ch => (ch, Some (val (v ch)))) (chans devices)) = true).
    { apply existsb_exists. exists (ch, Some (val (v ch))). split; [now apply (in_map (fun ch => (ch, Some (val (v ch)))))|]. unfold used. cbn. rewrite Cl. apply String.eqb_refl. }
    now rewrite X.
  - intros En ch f [pr [po [Ec [Cl [Cf Fi]]]]]. rewrite En in Pl.
    assert (F : first_eff res (lname l) (map (fun ch => (ch, Some (val (v ch)))) (chans devices)) = Some (f - val (v ch))).
    { rewrite Ec, map_app, first_eff_app. cbn [map first_eff]. assert (first_eff res (lname l) (map (fun ch => (ch, Some (val (v ch)))) pr) = None) as ->.
      { clear - Fi. induction pr as [|c pr IH]; [reflexivity|]. cbn [map first_eff]. unfold eff at 1. unfold used. cbn [fst snd]. destruct (clo c) as [n|] eqn:E; [|apply IH; intros; apply Fi; [now right | auto]].
        destruct (n =? lname l) eqn:En; [|apply IH; intros; apply Fi; [now right | auto]]. apply String.eqb_eq in En. subst n. rewrite (Fi c (or_introl eq_refl) E). apply IH; intros; apply Fi; [now right | auto]. }
      unfold eff, used. cbn [fst snd]. rewrite Cl, String.eqb_refl, Cf. reflexivity. }
    rewrite F in Pl. destruct Pl as [_ Pl]. exists l, (val (v ch)), (f - val (v ch)). split; auto. split; auto. split; [|split; [exact Pl | ring]].
    rewrite C. apply (in_map (fun ch => (ch, Some (val (v ch))))). rewrite Ec. apply in_or_app. right. now left.
Qed.
(** So a channel that has an oscillator of its own, and options with an intermediate frequency only, plays at the frequency of its clock. *)
Theorem C64_own_oscillator : forall mods pcs devices oscs res st ch l i f, compile_freqs mods pcs devices oscs res = Ok st -> distinct (chans devices) -> separate oscs -> ~ In "generic" (map fst devices) ->
  In ch (chans devices) -> In (cport ch, cclock ch) pcs -> In l oscs -> clo ch = Some (lname l) -> (forall ch', In ch' (chans devices) -> clo ch' = Some (lname l) -> ch' = ch) ->
  options mods ch = Some {| m_if := Some i; m_lo := None |} -> lookup (cclock ch) res = Some f -> plays_at st oscs ch f.
Proof.
  intros mods pcs devices oscs res st ch l i f H D Se G I Ip Il C Al O F.
  assert (La : exists pre post, pcs = (pre ++ (cport ch, cclock ch) :: post)%list /\ ~ In (cport ch, cclock ch) post).
  { clear - Ip. induction pcs as [|pc r IH]; [easy|]. destruct (in_dec (fun a b : string * string => ltac:(decide equality; apply string_dec)) (cport ch, cclock ch) r) as [J|J].
    - destruct (IH J) as [pre [post [-> N]]]. exists (pc :: pre), post. auto.
    - destruct Ip as [->|Ip]; [|easy]. exists [], r. auto. }
  destruct La as [pre [post [Ep Np]]].
  refine (proj2 (C64_setting _ _ _ _ _ _ l {| m_if := Some i; m_lo := None |} H D Se G Il _) eq_refl ch f _).
  - exists pre, (cport ch, cclock ch), post. split; [exact Ep|]. split; [exists ch; split; [exact I|]; split; [reflexivity|]; split; [exact C | exact O]|].
    intros pc' m' I' [ch' [Ic' [Pc' [Cl' _]]]]. apply Np. rewrite <- (Al ch' Ic' Cl'). now rewrite Pc'.
  - destruct (in_split _ _ I) as [pr [po Ec]]. exists pr, po. split; [exact Ec|]. split; [exact C|]. split; [exact F|].
    intros ch' I' C'. exfalso. assert (In ch' (chans devices)) by (rewrite Ec; apply in_or_app; now left). assert (ch' = ch) by auto. subst ch'. clear - D Ec I'. unfold distinct in D. rewrite Ec, map_app in D. cbn [map] in D. apply NoDup_remove_2 in D. apply D. apply in_or_app. left. now apply (in_map (fun ch => (cport ch, cclock ch))).
Qed.
(** The intermediate frequency cannot be left open: options with interm_freq None (and, say, lo_freq 6 GHz) for a port and clock that are used are never accepted. *)
Theorem C64_no_interm_rejected : forall mods pcs devices oscs res ch m, distinct (chans devices) -> In ch (chans devices) -> In (cport ch, cclock ch) pcs -> options mods ch = Some m -> m_if m = None ->
  forall st, compile_freqs mods pcs devices oscs res <> Ok st.
Proof.
  intros mods pcs devices oscs res ch m D I Ip O M st H. unfold compile_freqs in H. apply bindE in H as [h [E H]].
  destruct (gen_spec mods (chans devices) oscs D pcs (fun _ => None) (fun _ => None) h E) as [v [w [-> [V _]]]]. cbn [ifs los] in H. apply bindE in H as [cs [Ec H]]. destruct (parse_ifs_spec _ _ _ Ec) as [_ Nn].
  apply (Nn ch I). rewrite (V ch I). assert (X : existsb (fun pc => here (fst pc) (snd pc) ch) pcs = true) by (apply existsb_exists; eexists; split; [exact Ip | now apply here_spec]). now rewrite X, O, M.
Qed.
