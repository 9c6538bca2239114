(** C59: the device configuration. *)
From Coq Require Import Ascii.
From Verif Require Import Base DevModel DevSpec DevProps DevProps2 DevProps3 DevThms DevThms2 DevConf DevConfSpec DevConfProps.
Local Open Scope string_scope.

Lemma get_param_value : forall x s p v, get_param x s p = Ok v <-> value x s p = Some v.
Proof. intros. unfold get_param, value. destruct (lookup s (isubs x)); [|split; discriminate]. destruct (lookup p (direct s0)); split; congruence. Qed.
Lemma lookup_map_name : forall ps p, NoDup (map pt_name ps) -> In p ps -> lookup (pt_name p) (map (fun p => (pt_name p, pt_ops p)) ps) = Some (pt_ops p).
Proof. intros ps p N H. apply in_lookup; [rewrite map_map; exact N|]. apply in_map_iff. now exists p. Qed.

(** C59. The configuration has one entry per element and per edge, in order, made from that element or edge; and the frequency of every
    clock of every element, and no other clock. *)
Theorem C59_config : forall n ops w d cfg, session n ops = (w, d) -> device_config w d = Ok cfg ->
  map fst (celements cfg) = elements d /\ map fst (cedges cfg) = edges d /\ cstrategy cfg = strategy d /\
  (forall m, In m (elements d) -> exists x o, find_instrument w m = Ok x /\ operations w x = Ok o /\ lookup m (celements cfg) = Some o) /\
  (forall m, In m (edges d) -> exists x o, find_instrument w m = Ok x /\ operations w x = Ok o /\ lookup m (cedges cfg) = Some o) /\
  (forall m x suffix p, In m (elements d) -> find_instrument w m = Ok x -> In (suffix, p) (clocks_spec (icls x)) ->
     exists v, value x "clock_freqs" p = Some v /\ lookup (m ++ "." ++ suffix) (cclocks cfg) = Some v) /\
  (forall c v, lookup c (cclocks cfg) = Some v -> exists m x suffix p, In m (elements d) /\ find_instrument w m = Ok x /\
     In (suffix, p) (clocks_spec (icls x)) /\ c = m ++ "." ++ suffix /\ value x "clock_freqs" p = Some v).
Proof.
  intros n ops w d cfg Sn H. pose proof (session_sane n ops) as [Sw Sd]. rewrite Sn in Sw, Sd. cbn [fst snd] in *.
  destruct (config_parts _ _ _ Sw Sd H) as [ps [gs [Np [Fp [Ng [Fg [Ce [Cc [Cg Cs]]]]]]]]]. pose proof Sd as [N1 [N2 _]].
  assert (Nps : NoDup (map pt_name ps)) by now rewrite Np. assert (Ngs : NoDup (map pt_name gs)) by now rewrite Ng.
  pose proof (clocks_nodup _ _ Sw Fp Nps) as Nc. rewrite Forall_forall in Fp, Fg.
  assert (CS : forall c, clocks_spec c = clock_table c) by (intros []; reflexivity).
  rewrite Ce, Cc, Cg. split; [rewrite map_map; exact Np|]. split; [rewrite map_map; exact Ng|]. split; [exact Cs|]. split; [|split; [|split]].
  - intros m Hm. rewrite <- Np in Hm. apply in_map_iff in Hm. destruct Hm as [p [<- Ip]]. destruct (Fp _ Ip) as [A [B [C D]]]. exists (pt_instr p), (pt_ops p).
    repeat split; auto. now apply lookup_map_name.
  - intros m Hm. rewrite <- Ng in Hm. apply in_map_iff in Hm. destruct Hm as [p [<- Ip]]. destruct (Fg _ Ip) as [A [B C]]. exists (pt_instr p), (pt_ops p).
    repeat split; auto. now apply lookup_map_name.
  - intros m x sfx q Hm Hx Hs. rewrite CS in Hs. rewrite <- Np in Hm. apply in_map_iff in Hm. destruct Hm as [p [<- Ip]]. destruct (Fp _ Ip) as [A [B [C D]]].
    assert (x = pt_instr p) by congruence. subst x. destruct (find_sane _ _ _ Sw A) as [En _]. apply clock_keys in D. destruct (f2_in_l _ _ _ _ _ _ D Hs) as [[k v] [I [Ek Ev]]]. cbn [fst snd] in *.
    exists v. split; [now apply get_param_value|]. apply in_lookup; [exact Nc|]. apply in_concat. exists (pt_clocks p). split; [now apply in_map|]. rewrite En, <- Ek. exact I.
  - intros c v Hc. apply lookup_in in Hc. apply in_concat in Hc. destruct Hc as [l [Il Ic]]. apply in_map_iff in Il. destruct Il as [p [<- Ip]]. destruct (Fp _ Ip) as [A [B [C D]]].
    apply clock_keys in D. destruct (f2_in_r _ _ _ _ _ _ D Ic) as [[s q] [I [Ek Ev]]]. cbn [fst snd] in *. exists (pt_name p), (pt_instr p), s, q.
    destruct (find_sane _ _ _ Sw A) as [En _]. rewrite CS. repeat split; auto.
    + rewrite <- Np. now apply in_map.
    + now rewrite En.
    + now apply get_param_value.
Qed.

Lemma eval_op_kw : forall w x t o k s, eval_op w x t = Ok o -> NoDup (map fst (tkws t)) -> In (k, s) (tkws t) -> exists v, eval w x s = Ok v /\ lookup k (factory_kwargs o) = Some v.
Proof.
  intros w x t o k s H N I. unfold eval_op in H. inv H. injection H as <-. cbn. apply mapM_f2 in E. destruct (f2_in_l _ _ _ _ _ _ E I) as [[k' v] [Iv Ev]]. cbn [fst snd] in Ev.
  inv Ev. injection Ev as <- <-. exists a0. split; [easy|]. apply in_lookup; [|exact Iv].
  assert (M : map fst a = map fst (tkws t)).
  { clear - E. induction E as [|[k1 s1] [k2 v2] l m Q F IH]; cbn; [easy|]. cbn in Q. inv Q. injection Q as -> _. now rewrite IH. }
  now rewrite M.
Qed.
Lemma operations_kw : forall w x o name t k s, operations w x = Ok o -> In (name, t) (templates (icls x)) -> In (k, s) (tkws t) ->
  exists c v, lookup name o = Some c /\ eval w x s = Ok v /\ lookup k (factory_kwargs c) = Some v.
Proof.
  intros w x o name t k s H It Ik. apply mapM_f2 in H. destruct (f2_in_l _ _ _ _ _ _ H It) as [[n' c] [Ic Ec]]. cbn [fst snd] in Ec. inv Ec. injection Ec as <- <-.
  assert (NT : NoDup (map fst (templates (icls x))) /\ Forall (fun nt => NoDup (map fst (tkws (snd nt)))) (templates (icls x))).
  { clear. destruct (icls x); (split; [cbn; repeat constructor; cbn; intuition discriminate|]); repeat (apply Forall_cons || apply Forall_nil); cbn; repeat constructor; cbn; intuition discriminate. }
  destruct NT as [NT NK]. rewrite Forall_forall in NK. specialize (NK _ It). cbn in NK. destruct (eval_op_kw _ _ _ _ _ _ E NK Ik) as [v [Ev Lv]]. exists a, v. repeat split; auto.
  apply in_lookup; [|exact Ic].
  assert (M : map fst o = map fst (templates (icls x))).
  { clear - H. induction H as [|[k1 s1] [k2 v2] l m Q F IH]; cbn; [easy|]. cbn in Q. inv Q. injection Q as -> _. now rewrite IH. }
  now rewrite M.
Qed.

(** Every keyword of the table is the value of the parameter it is said to be, for elements and edges *)
Theorem C59_settings : forall n ops w d cfg m x operation keyword s p, session n ops = (w, d) -> device_config w d = Ok cfg ->
  In m (members d) -> find_instrument w m = Ok x -> In (operation, keyword, s, p) (settings_of (icls x)) ->
  exists v, value x s p = Some v /\ setting_in (celements cfg ++ cedges cfg) m operation keyword = Some (CV v).
Proof.
  intros n ops w d cfg m x op kw s p Sn H Hm Hx Ht. pose proof (C59_config n ops w d cfg Sn H) as [Ke [Kg [_ [He [Hg _]]]]].
  assert (E : exists t, In (op, t) (templates (icls x)) /\ In (kw, Pm s p) (tkws t)).
  { assert (A : Forall (fun r => let '(op, kw, s, p) := r in exists t, In (op, t) (templates (icls x)) /\ In (kw, Pm s p) (tkws t)) (settings_of (icls x))).
    { clear. destruct (icls x); cbn [settings_of];
        repeat (apply Forall_cons || apply Forall_nil); cbn [templates]; eexists; (split; [cbn [In]; repeat (first [left; reflexivity | right]) | cbn; repeat (first [left; reflexivity | right])]). }
    rewrite Forall_forall in A. exact (A _ Ht). }
  destruct E as [t [It Ik]].
  assert (L : exists o, operations w x = Ok o /\ lookup m (celements cfg ++ cedges cfg) = Some o).
  { unfold members in Hm. pose proof (session_sane n ops) as [_ [N1 [N2 [U1 [U2 _]]]]]. rewrite Sn in N1, N2, U1, U2. cbn [snd] in *.
    assert (ND : NoDup (map fst (celements cfg ++ cedges cfg))).
    { rewrite map_app, Ke, Kg. apply nodup_app; auto. intros a A B. specialize (U1 _ A). specialize (U2 _ B). congruence. }
    apply in_app_or in Hm. destruct Hm as [Hm|Hm].
    - destruct (He m Hm) as [x' [o [A [B C]]]]. assert (x' = x) by congruence. subst x'. exists o. split; [easy|]. apply in_lookup; [exact ND|]. apply in_or_app. left. now apply lookup_in.
    - destruct (Hg m Hm) as [x' [o [A [B C]]]]. assert (x' = x) by congruence. subst x'. exists o. split; [easy|]. apply in_lookup; [exact ND|]. apply in_or_app. right. now apply lookup_in. }
  destruct L as [o [Ho Lo]]. destruct (operations_kw _ _ _ _ _ _ _ Ho It Ik) as [c [v [Lc [Ev Lv]]]]. cbn in Ev. inv Ev. injection Ev as <-.
  exists a. split; [now apply get_param_value|]. unfold setting_in. now rewrite Lo, Lc.
Qed.
