(** Which port-clocks have a path, and which channels it names. *)
From Verif Require Import Base CircModel CircProps CircProps5 PathModel PathStr PathSpec PathProps PathProps2 PathProps3 PathProps4 PathProps5.
From Coq Require Import Ascii Lia Permutation.
Open Scope string_scope.
Open Scope list_scope.
Open Scope Z_scope.

(** ** Ports and their clocks *)
Definition clocks_of (port : string) (used : list (string * string)) : list string := map snd (filter (fun x => String.eqb (fst x) port) used).
Lemma p2c_get used port : get (port_to_clocks used) port = match clocks_of port used with [] => None | l => Some l end.
Proof. unfold port_to_clocks, clocks_of.
  assert (G : forall (l : list (string * string)) (d : dict (list string)), get (fold_left (fun d '(p, c) => put d p (match get d p with Some l => l ++ [c] | None => [c] end)) l d) port
    = match (match get d port with Some l => l | None => [] end) ++ map snd (filter (fun x => String.eqb (fst x) port) l) with [] => get d port | l => Some l end).
  { induction l as [|(q, e) l IH]; cbn [fold_left]; intros d.
    - cbn. destruct (get d port) as [l|]; [|reflexivity]. rewrite app_nil_r. now destruct l.
    - rewrite IH, get_put. cbn [filter fst]. destruct (String.eqb_spec q port) as [->|n]; [|reflexivity]. destruct (get d port) as [l0|]; cbn [map snd]; [|reflexivity]. rewrite <- app_assoc. cbn. destruct l0; reflexivity. }
  rewrite G. reflexivity. Qed.
Lemma p2c_nodup used : NoDup (map fst (port_to_clocks used)).
Proof. unfold port_to_clocks. assert (G : forall (l : list (string * string)) (d : dict (list string)), NoDup (map fst d) -> NoDup (map fst (fold_left (fun d '(p, c) => put d p (match get d p with Some l => l ++ [c] | None => [c] end)) l d))) by (induction l as [|(q, e) l IH]; cbn; auto; intros d h; apply IH, put_nodup, h). apply G. constructor. Qed.
Lemma p2c_spec used port clks : In (port, clks) (port_to_clocks used) <-> clks = clocks_of port used /\ clks <> [].
Proof. split.
  - intros h. apply in_get in h; [|apply p2c_nodup]. rewrite p2c_get in h. destruct (clocks_of port used); [discriminate|]. inversion h. split; auto. discriminate.
  - intros (-> & h). apply get_in. rewrite p2c_get. now destruct (clocks_of port used). Qed.
Lemma clocks_in port used k : In k (clocks_of port used) <-> In (port, k) used.
Proof. unfold clocks_of. rewrite in_map_iff. split.
  - intros ((p, c) & <- & h). apply filter_In in h as (h & e). apply String.eqb_eq in e. cbn in *. now subst.
  - intros h. exists (port, k). split; auto. apply filter_In. split; auto. apply String.eqb_refl. Qed.
Lemma clocks_nodup port used : NoDup used -> NoDup (clocks_of port used).
Proof. unfold clocks_of. intros h. induction used as [|(p, c) used IH]; cbn; [constructor|]. inversion h; subst. destruct (String.eqb_spec p port) as [->|]; [|auto]. cbn. constructor; [|auto]. intros hi. apply in_map_iff in hi as ((p', c') & e & hi). cbn in e; subst. apply filter_In in hi as (hi & e). apply String.eqb_eq in e. cbn in e; subst. auto. Qed.
Lemma distinct_inj used : Distinct used -> UsedInj (port_to_clocks used).
Proof. intros d. split; [apply p2c_nodup|]. intros (p, cs) (p', cs') k k' h h' hk hk' e. cbn [fst snd] in *. apply p2c_spec in h as (-> & _). apply p2c_spec in h' as (-> & _). apply clocks_in in hk, hk'. exact (d _ _ _ _ hk hk' e). Qed.

(** ** Mixers without the special treatment of optical elements *)
Lemma prefix_spec a b : String.prefix a b = true <-> exists t, b = (a ++ t)%string.
Proof. revert b; induction a as [|x a IH]; intros b; cbn.
  - split; [intros _; exists b; auto|]. intros _. now destruct b.
  - destruct b as [|y b]; cbn; [split; [discriminate|intros (t & h); discriminate]|]. destruct (ascii_dec x y) as [->|n].
    + rewrite IH. split; intros (t & h); exists t; [now rewrite h|]. now inversion h.
    + split; [discriminate|]. intros (t & h). inversion h. congruence. Qed.
Lemma contains_spec pat s : contains pat s = true <-> exists a b, s = (a ++ pat ++ b)%string.
Proof. induction s as [|x s IH].
  - cbn [contains]. rewrite orb_false_r, prefix_spec. split; [intros (t & h); exists ""; eauto|]. intros (a & b & h). destruct a; [eauto|discriminate].
  - cbn [contains]. rewrite orb_true_iff, prefix_spec, IH. split.
    + intros [(t & h)|(a & b & ->)]; [exists ""; eauto|]. exists (String x a), b. reflexivity.
    + intros (a & b & h). destruct a as [|y a]; [left; exists b; auto|]. right. inversion h; subst. eauto. Qed.
Lemma plain_optical hw E used port clks : Plain hw E used -> In (port, clks) (port_to_clocks used) -> NoOptical hw E port clks.
Proof. intros pl h n x hn ip bl. apply p2c_in in h as (ne & hu). destruct clks as [|c clks]; [easy|]. destruct (pl port c x (hu c (or_introl eq_refl))) as (a & b & d).
  - exists n. split; [now apply terminal_spec|]. split; [now apply neighbors_in|now apply is_path_false].
  - assert (F : forall pat, ~ Has pat x -> contains pat x = false) by (intros pat hp; apply not_true_iff_false; intros hc; apply hp, contains_spec, hc). unfold optical_clock. cbn [optical_parts flat_map]. now rewrite (F _ a), (F _ b), (F _ d). Qed.

(** ** The final paths *)
Definition locals hw E (used : list (string * string)) : result (list entry) := mapM (fun '(port, clks) => do L <- lport hw E (List.length clks) port; Ok (port, (clks, L))) (port_to_clocks used).
Lemma locals_in hw E used new port clks L : locals hw E used = Ok new -> In (port, (clks, L)) new <-> In (port, clks) (port_to_clocks used) /\ lport hw E (List.length clks) port = Ok L.
Proof. intros h. rewrite (mapM_in _ _ _ h). split.
  - intros ((p, cs) & hi & e). apply bind_inv in e as (L' & e1 & e2). inversion e2; subst. auto.
  - intros (hi & e). exists (port, clks). split; auto. now rewrite e. Qed.
Lemma R_init hw : R hw {| heap := []; pcs := map (fun '(n, _) => (n, [])) (clusters hw); los := map (fun '(n, _) => (n, [])) (clusters hw) |} [] (fun _ _ => 0%nat).
Proof. constructor; cbn [heap pcs los]; try (intros; easy); [|apply empty_keys|apply empty_keys]. intros c key l g. rewrite get2_empty in g. discriminate. Qed.
Theorem all_sim hw E used : WfHw hw -> NoDup used -> Distinct used -> Plain hw E used ->
  match locals hw E used with
  | Ok new => exists st loc, all_paths hw E used = Ok st /\ R hw st (rev new) loc
  | Err _ => exists e, all_paths hw E used = Err e
  end.
Proof. intros wf nu d pl. pose proof (ports_sim hw E (port_to_clocks used) [] _ _ (clusters_nodup _ (proj1 wf)) (R_init hw)) as s. unfold forget_paths in s. cbn [map] in s. rewrite app_nil_r in s. specialize (s (distinct_inj _ d)).
  unfold locals, all_paths. destruct (mapM _ (port_to_clocks used)) as [new|e] eqn:M; [|apply s].
  - destruct s as (st & loc & s1 & s2).
    + intros port clks h. pose proof (plain_optical _ _ _ _ _ pl h) as o. apply p2c_spec in h as (-> & hn). split; [auto|]. split; [now apply clocks_nodup|auto].
    + rewrite app_nil_r in s2. eauto.
  - intros port clks h. pose proof (plain_optical _ _ _ _ _ pl h) as o. apply p2c_spec in h as (-> & hn). split; [auto|]. split; [now apply clocks_nodup|auto]. Qed.
Lemma final_paths hw st new loc c key p : R hw st (rev new) loc -> DictOk (List.length (heap st)) (pcs st) ->
  In (key, p) (paths_of st (pcs st) c) <-> exists port clks L k, In (port, (clks, L)) new /\ In k clks /\ key = pc_key port k /\ get L c = Some p.
Proof. intros r ok. split.
  - intros h. destruct (paths_in _ _ _ _ _ h ok) as (l & g & n). destruct (r_keys _ _ _ _ r _ _ _ g) as ((port, (clks, L)) & k & he & hk & ->). cbn [fst snd] in *. pose proof (r_cells _ _ _ _ r _ he c) as ce. cbn [fst snd] in ce. exists port, clks, L, k. rewrite <- in_rev in he. split; auto. split; auto. split; auto. destruct (get L c) as [q|].
    + destruct ce as (c1 & _ & c3). rewrite (c3 _ hk) in g. inversion g; subst. congruence.
    + rewrite (ce _ hk) in g. discriminate.
  - intros (port & clks & L & k & he & hk & -> & g). rewrite in_rev in he. pose proof (r_cells _ _ _ _ r _ he c) as ce. cbn [fst snd] in ce. rewrite g in ce. destruct ce as (c1 & _ & c3). eapply in_paths; eauto. Qed.

(** ** A port without mixers *)
Lemma iter_add_names n q ch c : (1 <= n)%nat -> Names (iter_add n q ch) c <-> Names q c \/ c = ch.
Proof. revert q; induction n as [|n IH]; intros q h; [lia|]. cbn [iter_add]. destruct n as [|n]; [apply add_meas_names|]. rewrite IH by lia. rewrite add_meas_names. tauto. Qed.
Definition OneModule hw (ns : list string) (L : dict path) : Prop :=
  (L = [] /\ forall n, In n ns -> is_path hw n = false) \/
  exists c q, L = [(c, q)] /\ p_cl q = c /\ py_int (drop_module 0 (p_mod q)) = Ok (p_idx q) /\ (forall n, In n ns -> is_path hw n = true -> exists ch, Channel hw n c (p_mod q) ch) /\ (forall ch, Names q ch <-> exists n, In n ns /\ Channel hw n c (p_mod q) ch) .
Lemma channel_path hw n c m ch : Channel hw n c m ch -> is_path hw n = true /\ split_on "." n = [c; m; ch].
Proof. intros (-> & a & b & d & mods & h). split.
  - apply is_path_spec. exists c, mods. split; auto. split; auto. right. eexists; reflexivity.
  - apply lacks_absent in a, b, d. now apply split_three_of. Qed.
Lemma channel_fun hw n c m ch c' m' ch' : Channel hw n c m ch -> Channel hw n c' m' ch' -> c = c' /\ m = m' /\ ch = ch'.
Proof. intros h h'. apply channel_path in h as (_ & h). apply channel_path in h' as (_ & h'). rewrite h in h'. inversion h'. auto. Qed.
Lemma direct_local hw E n ns : (1 <= n)%nat -> (forall x, In x ns -> is_path hw x = true \/ before_last x = None) -> forall L, foldM (lstep hw E n) ns [] = Ok L -> OneModule hw ns L.
Proof. intros hn. induction ns as [|x ns IH] using rev_ind; intros hx L h.
  - cbn in h. inversion h. left. split; auto. intros ? [].
  - rewrite foldM_app' in h. apply bind_inv in h as (L0 & h0 & h1). cbn [foldM] in h1. apply bind_inv in h1 as (L1 & h1 & h2). inversion h2; subst L1; clear h2.
    assert (O : OneModule hw ns L0) by (apply IH; auto; intros; apply hx; apply in_or_app; auto). clear IH h0. unfold lstep in h1. destruct (is_path hw x) eqn:IP.
    + apply bind_inv in h1 as (p & FP & h1). pose proof (from_path_channel _ _ _ IP FP) as ch. pose proof (from_path_inv _ _ FP) as (_ & fm & fi). destruct O as [(-> & O)|(c & q & -> & O1 & O2 & O3 & O4)].
      * inversion h1; subst L. right. exists (p_cl p), p. split; auto. split; auto. split; auto. split.
        -- intros y hy ip. apply in_app_or in hy as [hy|[<-|[]]]; [rewrite (O _ hy) in ip; discriminate|eauto].
        -- intros c. unfold Names. rewrite fm. split.
           ++ intros [->|(l & e & _)]; [|discriminate]. exists x. split; [apply in_or_app; cbn; auto|auto].
           ++ intros (y & hy & hc). left. apply in_app_or in hy as [hy|[<-|[]]]; [apply channel_path in hc as (hc & _); rewrite (O _ hy) in hc; discriminate|]. eapply channel_fun; eauto.
      * destruct (_ && _)%bool eqn:B; [|discriminate]. inversion h1; subst L. apply andb_prop in B as (B1 & B2). apply String.eqb_eq in B1, B2. pose proof (iter_add_same n q (p_ch p)) as (i1 & i2 & i3). right. exists c, (iter_add n q (p_ch p)). rewrite i1, i2, i3. rewrite B1, B2 in ch. split; auto. split; auto. split; auto. split.
        -- intros y hy ip. apply in_app_or in hy as [hy|[<-|[]]]; eauto.
        -- intros c1. rewrite iter_add_names, O4 by auto. split.
           ++ intros [(y & hy & hc)| ->]; [exists y; split; [apply in_or_app; auto|auto]|]. exists x. split; [apply in_or_app; cbn; auto|auto].
           ++ intros (y & hy & hc). apply in_app_or in hy as [hy|[<-|[]]]; [left; eauto|right]. eapply channel_fun; eauto.
    + destruct (hx x) as [hh|hh]; [apply in_or_app; cbn; auto|congruence|]. rewrite hh in h1. inversion h1; subst L. destruct O as [(-> & O)|(c & q & -> & O1 & O2 & O3 & O4)].
      * left. split; auto. intros y hy. apply in_app_or in hy as [hy|[<-|[]]]; auto.
      * right. exists c, q. split; auto. split; auto. split; auto. split.
        -- intros y hy ip. apply in_app_or in hy as [hy|[<-|[]]]; [auto|congruence].
        -- intros ch. rewrite O4. split; intros (y & hy & hc).
           ++ exists y. split; [apply in_or_app; auto|auto].
           ++ apply in_app_or in hy as [hy|[<-|[]]]; [eauto|]. apply channel_path in hc as (hc & _). congruence. Qed.
Lemma nomixer_nbrs hw E port : (forall x, ~ AtMixer hw E port x) -> forall n, In n (neighbors E port) -> is_path hw n = true \/ before_last n = None.
Proof. intros h n hn. destruct (is_path hw n) eqn:IP; [auto|right]. destruct (before_last n) as [x|] eqn:B; auto. exfalso. apply (h x). exists n. split; [now apply terminal_spec|]. split; [now apply neighbors_in|now apply is_path_false]. Qed.
