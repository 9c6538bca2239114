(** The device configuration, for C59. *)
From Coq Require Import Ascii.
From Verif Require Import Base DevModel DevSpec DevProps DevProps2 DevProps3 DevThms DevConf.
Local Open Scope string_scope.

(** a clock name is read back from its last dot *)
Lemma dot_split : forall a b s t, a ++ "." ++ s = b ++ "." ++ t -> contains_char "."%char s = false -> contains_char "."%char t = false -> a = b /\ s = t.
Proof.
  induction a as [|c a IH]; intros [|c' b] s t E Hs Ht; cbn in E.
  - injection E as ->. auto.
  - injection E as <- ->. change (contains_char "."%char (b ++ "." ++ t) = false) in Hs. rewrite contains_app in Hs. cbn in Hs. rewrite orb_true_r in Hs. discriminate Hs.
  - injection E as -> E. subst. change (contains_char "."%char (a ++ "." ++ s) = false) in Ht. rewrite contains_app in Ht. cbn in Ht. rewrite orb_true_r in Ht. discriminate Ht.
  - injection E as -> E. destruct (IH _ _ _ E Hs Ht) as [-> ->]. auto.
Qed.
Lemma suffix_no_dot : forall c s p, In (s, p) (clock_table c) -> contains_char "."%char s = false.
Proof. intros c s p H. destruct c; cbn in H; repeat (destruct H as [H|H]; [injection H as <- _; reflexivity|]); destruct H. Qed.
Lemma suffix_nodup : forall c, NoDup (map fst (clock_table c)).
Proof. intros []; cbn; repeat constructor; cbn; intuition discriminate. Qed.

(** the element [n] with its instrument, operations and clocks *)
Record part := { pt_name : string; pt_instr : instr; pt_ops : list (string * opcfg); pt_clocks : list (string * val) }.
Definition part_ok (w : registry) (p : part) : Prop :=
  find_instrument w (pt_name p) = Ok (pt_instr p) /\ is_edge (icls (pt_instr p)) = false /\ operations w (pt_instr p) = Ok (pt_ops p) /\ clocks_of (pt_instr p) = Ok (pt_clocks p).
Definition edge_part_ok (w : registry) (p : part) : Prop :=
  find_instrument w (pt_name p) = Ok (pt_instr p) /\ is_edge (icls (pt_instr p)) = true /\ operations w (pt_instr p) = Ok (pt_ops p).

Lemma clock_keys : forall x c, clocks_of x = Ok c ->
  Forall2 (fun sp kv => fst kv = iname (iid x) ++ "." ++ fst sp /\ get_param x "clock_freqs" (snd sp) = Ok (snd kv)) (clock_table (icls x)) c.
Proof.
  intros x c H. apply mapM_f2 in H. revert H. apply f2_impl_in. intros [s p] [k v] _ _ E. cbn [fst snd] in *. inv E. injection E as <- <-. auto.
Qed.
Lemma clock_key_in : forall x c k, clocks_of x = Ok c -> In k (map fst c) -> exists s p, In (s, p) (clock_table (icls x)) /\ k = iname (iid x) ++ "." ++ s.
Proof.
  intros x c k H Hk. apply clock_keys in H. apply in_map_iff in Hk. destruct Hk as [kv [<- Hk]]. destruct (f2_in_r _ _ _ _ _ _ H Hk) as [[s p] [I [E _]]]. eauto.
Qed.
Lemma str_app_inj : forall a s t : string, a ++ s = a ++ t -> s = t.
Proof. induction a; cbn; intros s t E; [easy|]. injection E as E. auto. Qed.
Lemma clock_keys_nodup : forall x c, clocks_of x = Ok c -> NoDup (map fst c).
Proof.
  intros x c H. apply clock_keys in H. assert (N := suffix_nodup (icls x)). revert N. induction H as [|[s p] [k v] l c [E _] F IH]; cbn; intros N; [constructor|].
  inversion N as [|a b Na Nb]; subst. constructor; [|auto]. cbn in E. subst k. intros Q. apply in_map_iff in Q. destruct Q as [[k' v'] [Ek Q]]. cbn in Ek. subst k'.
  destruct (f2_in_r _ _ _ _ _ _ F Q) as [[s' p'] [I [E' _]]]. cbn in E'. apply str_app_inj in E'. injection E' as E'. subst s'. apply Na. change s with (fst (s, p')). now apply in_map.
Qed.

Lemma nodup_app : forall A (l m : list A), NoDup l -> NoDup m -> (forall a, In a l -> ~ In a m) -> NoDup (l ++ m).
Proof.
  induction l as [|a l IH]; cbn; intros m N M H; [easy|]. inversion N; subst. constructor; [|apply IH; auto]. rewrite in_app_iff. intros [Q|Q]; [auto | apply (H a); auto].
Qed.

Lemma clocks_nodup : forall w ps, sane_registry w -> Forall (part_ok w) ps -> NoDup (map pt_name ps) -> NoDup (map fst (List.concat (map pt_clocks ps))).
Proof.
  induction ps as [|p ps IH]; cbn; intros Sw F N; [constructor|]. inversion F as [|a b [Hf [_ [_ Hc]]] F']; subst. inversion N as [|a b Na Nb]; subst.
  rewrite map_app. apply nodup_app; [eapply clock_keys_nodup; eauto | auto |]. intros k Hk Q.
  destruct (clock_key_in _ _ _ Hc Hk) as [s [q [I E]]]. apply in_map_iff in Q. destruct Q as [[k' v] [Ek Q]]. cbn in Ek. subst k'.
  apply in_concat in Q. destruct Q as [c [Ic Q]]. apply in_map_iff in Ic. destruct Ic as [p' [<- Ip]]. rewrite Forall_forall in F'. destruct (F' _ Ip) as [Hf' [_ [_ Hc']]].
  destruct (clock_key_in _ _ k Hc') as [s' [q' [I' E']]]; [change k with (fst (k, v)); now apply in_map|].
  rewrite E in E'. apply dot_split in E'; [|eapply suffix_no_dot; eauto|eapply suffix_no_dot; eauto]. destruct E' as [E' _].
  destruct (find_sane _ _ _ Sw Hf) as [En _]. destruct (find_sane _ _ _ Sw Hf') as [En' _]. apply Na. rewrite En, E', <- En'. now apply in_map.
Qed.

Lemma elements_fold : forall w d l done r, sane_registry w -> sane_device d -> (forall n, In n l -> In n (elements d)) -> NoDup (map pt_name done ++ l) -> Forall (part_ok w) done ->
  foldM (fun (ec : list (string * list (string * opcfg)) * list (string * val)) n =>
                    do x <- get_element w d n;
                    if negb (is_element_instr x) then Err OtherErr else
                    do o <- operations w x; do c <- clocks_of x;
                    Ok (update (fst ec) [(iname (iid x), o)], update (snd ec) c)) l
              (map (fun p => (pt_name p, pt_ops p)) done, List.concat (map pt_clocks done)) = Ok r ->
  exists ps, map pt_name ps = l /\ Forall (part_ok w) ps /\ r = (map (fun p => (pt_name p, pt_ops p)) (done ++ ps), List.concat (map pt_clocks (done ++ ps))).
Proof.
  intros w d. induction l as [|n l IH]; cbn [foldM]; intros dn r Sw Sd Hl N F H.
  - injection H as <-. exists []. rewrite app_nil_r. auto.
  - inv H. inv E. destruct (is_element_instr a0) eqn:K; [|discriminate E]. cbn [negb] in E. inv E. inv E. injection E as <-. cbn [fst snd] in H.
    unfold get_element in E0. rewrite (proj2 (mem_in n (elements d))) in E0 by (apply Hl; now left). destruct (find_sane _ _ _ Sw E0) as [En _].
    set (p := {| pt_name := n; pt_instr := a0; pt_ops := a1; pt_clocks := a2 |}).
    assert (Hp : part_ok w p) by (repeat split; auto; now apply negb_true_iff in K).
    assert (Fp : Forall (part_ok w) (dn ++ [p])) by (apply Forall_app; auto).
    assert (Np : NoDup (map pt_name (dn ++ [p]) ++ l)) by (rewrite map_app, <- app_assoc; exact N).
    assert (Nn : NoDup (map pt_name (dn ++ [p]))).
    { clear - Np. induction (map pt_name (dn ++ [p])) as [|a b I]; [constructor|]. cbn in Np. inversion Np; subst. constructor; auto. intros Q. apply H1. apply in_or_app. now left. }
    assert (Nc := clocks_nodup _ _ Sw Fp Nn). rewrite map_app in Nc. rewrite concat_app in Nc. cbn in Nc. rewrite app_nil_r in Nc.
    rewrite <- En in H.
    change (insert n a1 (map (fun p : part => (pt_name p, pt_ops p)) dn)) with (update (map (fun p : part => (pt_name p, pt_ops p)) dn) [(n, a1)]) in H. rewrite !update_new in H.
    + destruct (IH (dn ++ [p])%list r Sw Sd) as [ps [Hn [Hps Hr]]]; auto.
      * intros; apply Hl; now right.
      * rewrite !map_app, concat_app. cbn [map List.concat pt_name pt_ops pt_clocks p]. rewrite app_nil_r. exact H.
      * exists (p :: ps). cbn. rewrite Hn. rewrite <- app_assoc in Hr. auto.
    + exact Nc.
    + rewrite map_app, map_map. cbn. rewrite map_app in Nn. exact Nn.
Qed.
Lemma edges_fold : forall w d l done r, sane_registry w -> sane_device d -> (forall n, In n l -> In n (edges d)) -> NoDup (map pt_name done ++ l) -> Forall (edge_part_ok w) done ->
  foldM (fun (g : list (string * list (string * opcfg))) n =>
                   do x <- get_edge w d n;
                   if is_element_instr x then Err OtherErr else
                   do o <- operations w x; Ok (update g [(iname (iid x), o)])) l (map (fun p => (pt_name p, pt_ops p)) done) = Ok r ->
  exists ps, map pt_name ps = l /\ Forall (edge_part_ok w) ps /\ r = map (fun p => (pt_name p, pt_ops p)) (done ++ ps).
Proof.
  intros w d. induction l as [|n l IH]; cbn [foldM]; intros dn r Sw Sd Hl N F H.
  - injection H as <-. exists []. rewrite app_nil_r. auto.
  - inv H. inv E. destruct (is_element_instr a0) eqn:K; [discriminate E|]. inv E. injection E as <-.
    unfold get_edge in E0. rewrite (proj2 (mem_in n (edges d))) in E0 by (apply Hl; now left). destruct (find_sane _ _ _ Sw E0) as [En _].
    set (p := {| pt_name := n; pt_instr := a0; pt_ops := a1; pt_clocks := [] |}).
    assert (Hp : edge_part_ok w p) by (repeat split; auto; now apply negb_false_iff in K).
    assert (Fp : Forall (edge_part_ok w) (dn ++ [p])) by (apply Forall_app; auto).
    assert (Np : NoDup (map pt_name (dn ++ [p]) ++ l)) by (rewrite map_app, <- app_assoc; exact N).
    assert (Nn : NoDup (map pt_name (dn ++ [p]))).
    { clear - Np. induction (map pt_name (dn ++ [p])) as [|a b I]; [constructor|]. cbn in Np. inversion Np; subst. constructor; auto. intros Q. apply H1. apply in_or_app. now left. }
    rewrite <- En in H.
    change (insert n a1 (map (fun p : part => (pt_name p, pt_ops p)) dn)) with (update (map (fun p : part => (pt_name p, pt_ops p)) dn) [(n, a1)]) in H. rewrite update_new in H.
    + destruct (IH (dn ++ [p])%list r Sw Sd) as [ps [Hn [Hps Hr]]]; auto.
      * intros; apply Hl; now right.
      * rewrite !map_app. exact H.
      * exists (p :: ps). cbn. rewrite Hn. rewrite <- app_assoc in Hr. auto.
    + rewrite map_app, map_map. cbn. rewrite map_app in Nn. exact Nn.
Qed.

Lemma config_parts : forall w d cfg, sane_registry w -> sane_device d -> device_config w d = Ok cfg ->
  exists ps gs, map pt_name ps = elements d /\ Forall (part_ok w) ps /\ map pt_name gs = edges d /\ Forall (edge_part_ok w) gs /\
    celements cfg = map (fun p => (pt_name p, pt_ops p)) ps /\ cclocks cfg = List.concat (map pt_clocks ps) /\ cedges cfg = map (fun p => (pt_name p, pt_ops p)) gs /\
    cstrategy cfg = strategy d.
Proof.
  intros w d cfg Sw Sd H. unfold device_config in H. inv H. inv H. injection H as <-. pose proof Sd as [N1 [N2 _]].
  apply (elements_fold w d (elements d) []) in E; auto. apply (edges_fold w d (edges d) []) in E0; auto.
  destruct E as [ps [A [B ->]]]. destruct E0 as [gs [C [D ->]]]. exists ps, gs. cbn. auto 10.
Qed.
