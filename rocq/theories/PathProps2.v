(** From the paths of the port-clocks to the sequencers of the modules. *)
From Verif Require Import Base CircModel CircProps CircProps5 PathModel PathStr PathSpec PathProps.
From Verif Require DistModel.
From Coq Require Import Ascii DecimalString Lia Permutation.
Open Scope string_scope.
Open Scope list_scope.
Open Scope Z_scope.

(** ** Dictionaries stay dictionaries and refer to existing objects *)
Definition DictOk (n : nat) (d : dict (dict nat)) : Prop := forall c e, In (c, e) d -> NoDup (map fst e) /\ forall k l, In (k, l) e -> (l < n)%nat.
Definition Shape (st : state) : Prop := DictOk (List.length (heap st)) (pcs st) /\ DictOk (List.length (heap st)) (los st).
Lemma put_nodup {A} (d : dict A) k v : NoDup (map fst d) -> NoDup (map fst (put d k v)).
Proof. induction d as [|(k', w) d IH]; cbn [put]; intros n; [repeat constructor; auto|]. destruct (String.eqb_spec k' k) as [->|ne]; [exact n|]. inversion n; subst. cbn. constructor; [|auto].
  intros h. apply in_map_iff in h as ((q, x) & e & h). cbn in e; subst q. apply put_in in h as [(-> & _)|h]; [auto|]. apply H1. apply in_map_iff. now exists (k', x). Qed.
Lemma put2_ok n d c k v d' : (v < n)%nat -> DictOk n d -> put2 d c k v = Ok d' -> DictOk n d'.
Proof. unfold put2. destruct (get d c) eqn:D; [|discriminate]. intros hv hd h; inversion h; subst. apply get_in in D. destruct (hd _ _ D) as (a & b). intros c' e he. apply put_in in he as [(-> & ->)|he]; [|eapply hd; eauto].
  split; [now apply put_nodup|]. intros k' l hl. apply put_in in hl as [(_ & ->)|hl]; [auto|eauto]. Qed.
Lemma dictok_le n m d : (n <= m)%nat -> DictOk n d -> DictOk m d.
Proof. intros le h c e he. destruct (h _ _ he) as (a & b). split; auto. intros k l hl. specialize (b _ _ hl). lia. Qed.
Lemma direct_clock_shape port loc st clock st' : (loc < List.length (heap st))%nat -> Shape st -> direct_clock port loc st clock = Ok st' -> Shape st' /\ List.length (heap st') = List.length (heap st).
Proof. intros hl (s1 & s2) h. unfold direct_clock in h. apply bind_inv in h as ((hh, rep) & h1 & h2).
  assert (L : List.length hh = List.length (heap st)).
  { refine (foldM_inv (fun hr => List.length (fst hr) = List.length (heap st)) _ _ _ _ h1 _ _); [reflexivity|]. intros (g, r) (c, d) (g', r') _ b e. cbn [fst] in *. destruct (get d _); [|inversion e; now subst].
    destruct (nth_error g loc); [|discriminate]. destruct (nth_error g n); [|discriminate]. destruct (_ && _)%bool; [|discriminate]. inversion e; subst. now rewrite set_nth_length. }
  destruct rep; [inversion h2; subst; unfold Shape; cbn; rewrite L; auto|]. destruct (nth_error hh loc); [|discriminate]. apply bind_inv in h2 as (d & h2 & h3). inversion h3; subst. unfold Shape; cbn. rewrite L. split; [split; [exact (put2_ok _ _ _ _ _ _ hl s1 h2)|exact s2]|reflexivity]. Qed.
Lemma nbr_step_shape hw E port clks st n st' : Shape st -> nbr_step hw E port clks st n = Ok st' -> Shape st'.
Proof. unfold nbr_step. intros (s1 & s2) h. destruct (is_path hw n).
  - apply bind_inv in h as (p & _ & h). refine (proj1 (foldM_inv (fun s => Shape s /\ List.length (heap s) = S (List.length (heap st))) _ _ _ _ h _ _)).
    + unfold Shape; cbn. rewrite app_length; cbn. rewrite Nat.add_1_r. split; [|reflexivity]. split; [exact (dictok_le _ _ _ (Nat.le_succ_diag_r _) s1)|exact (dictok_le _ _ _ (Nat.le_succ_diag_r _) s2)].
    + intros b x b' _ (sb & lb) e. apply direct_clock_shape in e as (e1 & e2); [|lia|auto]. split; auto; lia.
  - destruct (before_last n); [|inversion h; subst; split; auto]. apply bind_inv in h as ((mp, ml) & _ & h). apply bind_inv in h as (p & _ & h). apply bind_inv in h as (lo & h1 & h). apply bind_inv in h as (d & h & h'). inversion h'; subst.
    unfold Shape; cbn. rewrite app_length; cbn. rewrite Nat.add_1_r. split; [|eapply put2_ok; [|eapply dictok_le; [|exact s2]|exact h1]; lia].
    refine (foldM_inv (DictOk (S (List.length (heap st)))) _ _ _ _ h _ _); [eapply dictok_le; [|exact s1]; lia|]. intros b x b' _ hb e. eapply put2_ok; [|exact hb|exact e]. lia. Qed.
Lemma all_paths_shape hw E used st : all_paths hw E used = Ok st -> Shape st.
Proof. intros h. refine (foldM_inv Shape _ _ _ _ h _ _).
  - split; intros c e he; cbn in he; apply in_map_iff in he as ((n, x) & q & _); inversion q; subst; split; [constructor|intros ? ? []|constructor|intros ? ? []].
  - intros b (port, clks) b' _ sb e. unfold port_step in e. destruct (memb port (nodes E)); [|discriminate]. refine (foldM_inv Shape _ _ _ _ e sb _). intros; eapply nbr_step_shape; eauto. Qed.
Lemma deref_in h d k p : In (k, p) (deref h d) <-> exists l, In (k, l) d /\ nth_error h l = Some p.
Proof. unfold deref. rewrite in_flat_map. split.
  - intros ((k', l) & hi & e). destruct (nth_error h l) eqn:N; [|destruct e]. destruct e as [e|[]]. inversion e; subst. eauto.
  - intros (l & hi & e). exists (k, l). split; auto. rewrite e. cbn; auto. Qed.
Lemma deref_keys h d : (forall k l, In (k, l) d -> (l < List.length h)%nat) -> map fst (deref h d) = map fst d.
Proof. unfold deref. induction d as [|(k, l) d IH]; cbn; auto. intros hd. destruct (nth_error h l) eqn:N; [|apply nth_error_None in N; specialize (hd k l (or_introl eq_refl)); lia]. cbn. rewrite IH; auto. intros; eapply hd; right; eauto. Qed.

(** ** Sorting *)
Lemma insert_perm {A} (le : A -> A -> bool) x l : Permutation (DistModel.insertb le x l) (x :: l).
Proof. induction l as [|y l IH]; cbn; auto. destruct (le x y); auto. rewrite IH. apply perm_swap. Qed.
Lemma isort_perm {A} (le : A -> A -> bool) (l : list A) : Permutation (DistModel.isort le l) l.
Proof. induction l as [|x l IH]; cbn; auto. rewrite insert_perm. now constructor. Qed.
Lemma filter_perm {A} (f : A -> bool) (l : list A) : Permutation (filter f l ++ filter (fun x => negb (f x)) l) l.
Proof. induction l as [|x l IH]; cbn; auto. destruct (f x); cbn; [now constructor|]. rewrite <- Permutation_middle. now constructor. Qed.

(** ** Reservation of sequencers *)
Lemma reserve_fold tab paths l : forall t t', foldM (reserve tab paths) l t = Ok t' ->
  map snd t' = map snd t ++ l /\ (NoDup (map fst t) -> NoDup (map fst t')) /\
  ((forall i pc, In (i, pc) t -> exists p a, get paths pc = Some p /\ In (i, a) tab /\ fits p a = true) -> forall i pc, In (i, pc) t' -> exists p a, get paths pc = Some p /\ In (i, a) tab /\ fits p a = true).
Proof. induction l as [|pc l IH]; cbn; intros t t' h.
  - inversion h; subst. rewrite app_nil_r. auto.
  - apply bind_inv in h as (t1 & h1 & h2). apply IH in h2 as (a & b & c). unfold reserve in h1. apply bind_inv in h1 as (p & h1 & h3). apply bind_inv in h3 as (i & h3 & h4). inversion h4; subst t1; clear h4. apply index_ok in h1.
    unfold find_seq in h3. destruct (filter _ tab) as [|(i', al) r] eqn:F; [discriminate|]. inversion h3; subst i'; clear h3. assert (FI : In (i, al) ((i, al) :: r)) by (left; auto). rewrite <- F in FI. apply filter_In in FI as (F1 & F2). apply andb_prop in F2 as (F2 & F3).
    rewrite map_app in a, b. cbn in a, b. rewrite <- app_assoc in a. cbn in a. split; [exact a|]. split.
    + intros nd. apply b. apply (NoDup_Add (a := i) (l := map fst t)); [|split; auto].
      * rewrite <- (app_nil_r (map fst t)) at 1. apply Add_app.
      * intros hi. apply in_map_iff in hi as ((j, q) & e & hi). cbn in e; subst. apply negb_true_iff in F2. rewrite <- not_true_iff_false, existsb_exists in F2. apply F2. exists (i, q). split; auto. apply Z.eqb_refl.
    + intros ht. apply c. intros j q hq. apply in_app_or in hq as [hq|[e|[]]]; [auto|]. inversion e; subst. exists p, al. auto. Qed.
Lemma sequencers_spec tab paths t : NoDup (map fst paths) -> sequencer_to_portclock tab paths = Ok t ->
  Permutation (map snd t) (map fst paths) /\ NoDup (map fst t) /\ NoDup (map snd t) /\ (forall i pc, In (i, pc) t -> exists p a, In (pc, p) paths /\ In (i, a) tab /\ fits p a = true).
Proof. unfold sequencer_to_portclock. intros nd h. apply bind_inv in h as (t1 & h1 & h2). apply reserve_fold in h1 as (a1 & a2 & a3). apply reserve_fold in h2 as (b1 & b2 & b3). cbn in a1.
  assert (P : Permutation (map snd t) (map fst paths)) by (rewrite b1, a1, filter_perm; apply isort_perm). split; auto. split; [apply b2, a2; constructor|]. split; [eapply Permutation_NoDup; [symmetry; exact P|auto]|].
  intros i pc h. destruct (b3 (a3 (fun i pc (h : In (i, pc) []) => False_ind _ h)) _ _ h) as (p & a & c1 & c2 & c3). apply get_in in c1. eauto. Qed.

Lemma mapM_in {A B} (f : A -> result B) l r : mapM f l = Ok r -> forall y, In y r <-> exists x, In x l /\ f x = Ok y.
Proof. revert r; induction l as [|x l IH]; cbn; intros r h; [inversion h; subst; cbn; intros y; split; [easy|intros (? & [] & _)]|]. apply bind_inv in h as (y0 & h1 & h). apply bind_inv in h as (ys & h2 & h). inversion h; subst. intros y. cbn. rewrite (IH _ h2). split.
  - intros [->|(z & a & b)]; eauto.
  - intros (z & [->|a] & b); [left; congruence|right; eauto]. Qed.
Lemma mapM_ok_in {A B} (f : A -> result B) l r x : mapM f l = Ok r -> In x l -> exists y, f x = Ok y /\ In y r.
Proof. intros h hx. revert r h; induction l as [|z l IH]; cbn; intros r h; [destruct hx|]. apply bind_inv in h as (y0 & h1 & h). apply bind_inv in h as (ys & h2 & h). inversion h; subst. destruct hx as [->|hx]; [exists y0; cbn; auto|]. destruct (IH hx _ h2) as (y & a & b). exists y; cbn; auto. Qed.
Lemma mapM_map {A B C} (f : A -> result B) (g : B -> C) (g' : A -> C) l r : (forall x y, f x = Ok y -> g y = g' x) -> mapM f l = Ok r -> map g r = map g' l.
Proof. intros hf. revert r; induction l as [|x l IH]; cbn; intros r h; [inversion h; auto|]. apply bind_inv in h as (y0 & h1 & h). apply bind_inv in h as (ys & h2 & h). inversion h; subst. cbn. f_equal; auto. Qed.

Lemma mapM_ext {A B} (f g : A -> result B) l : (forall x, f x = g x) -> mapM f l = mapM g l.
Proof. intros h. induction l as [|x l IH]; cbn; auto. now rewrite h, IH. Qed.
Definition lo_map (lo : dict path) : dict string := fold_left (fun d '(n, p) => put d (p_ch p) n) lo [].
Lemma lo_map_get lo ch n : get (lo_map lo) ch = Some n -> exists p, In (n, p) lo /\ p_ch p = ch.
Proof. unfold lo_map. assert (G : forall l d, get (fold_left (fun d '(n, p) => put d (p_ch p) n) l d) ch = Some n -> get d ch = Some n \/ exists p, In (n, p) l /\ p_ch p = ch).
  { induction l as [|(m, p) l IH]; cbn; intros d h; [auto|]. apply IH in h as [h|(q & a & b)]; [|right; eauto]. rewrite get_put in h. destruct (String.eqb_spec (p_ch p) ch); [|auto]. inversion h; subst. right; exists p; auto. }
  intros h. apply G in h as [h|h]; [discriminate|auto]. Qed.
(** what a sequencer configuration is, on a module with paths [ps] *)
Definition SeqOk (tab : list (Z * (list string * list string))) (ps lo : dict path) (opts : dict (dict Z)) (s : seqcfg) : Prop :=
  exists p a, In (q_pc s, p) ps /\ In (q_idx s, a) tab /\ fits p a = true /\ q_ch s = p_ch p /\ q_meas s = p_meas p /\ q_lo s = get (lo_map lo) (p_ch p) /\ q_opts s = options_of opts (q_pc s) /\ exists x y, split_on "-" (q_pc s) = [x; y].
Lemma cfgs_spec tab ps lo opts ss : NoDup (map fst ps) -> sequencer_cfgs tab ps lo opts = Ok ss ->
  Permutation (map q_pc ss) (map fst ps) /\ NoDup (map q_idx ss) /\ NoDup (map q_pc ss) /\ Forall (SeqOk tab ps lo opts) ss.
Proof. unfold sequencer_cfgs. intros nd h. apply bind_inv in h as (t & h1 & h2). destruct (sequencers_spec _ _ _ nd h1) as (a & b & c & d).
  assert (F : forall x y, (do p <- index ps (snd x); match split_on "-" (snd x) with [_; _] => Ok {| q_idx := fst x; q_pc := snd x; q_ch := p_ch p; q_meas := p_meas p; q_lo := get (lo_map lo) (p_ch p); q_opts := options_of opts (snd x) |} | _ => Err ValueError end) = Ok y ->
    q_idx y = fst x /\ q_pc y = snd x /\ exists p, get ps (snd x) = Some p /\ q_ch y = p_ch p /\ q_meas y = p_meas p /\ q_lo y = get (lo_map lo) (p_ch p) /\ q_opts y = options_of opts (snd x) /\ exists u v, split_on "-" (snd x) = [u; v]).
  { intros x y e. apply bind_inv in e as (p & e1 & e2). apply index_ok in e1. destruct (split_on "-" (snd x)) as [|u [|v [|]]] eqn:S; try discriminate. inversion e2; subst; cbn. split; auto. split; auto. exists p. repeat (split; [auto; fail|]). eauto. }
  assert (h3 : mapM (fun x => do p <- index ps (snd x); match split_on "-" (snd x) with [_; _] => Ok {| q_idx := fst x; q_pc := snd x; q_ch := p_ch p; q_meas := p_meas p; q_lo := get (lo_map lo) (p_ch p); q_opts := options_of opts (snd x) |} | _ => Err ValueError end) t = Ok ss).
  { rewrite <- h2. apply mapM_ext. intros (i, pc). reflexivity. }
  rewrite (mapM_map _ q_pc snd _ _ (fun x y e => proj1 (proj2 (F x y e))) h3). rewrite (mapM_map _ q_idx fst _ _ (fun x y e => proj1 (F x y e)) h3). repeat (split; auto). apply Forall_forall. intros s hs.
  apply (mapM_in _ _ _ h3) in hs as ((i, pc) & hs & e). apply F in e as (e1 & e2 & p & e3 & e4 & e5 & e6 & e7 & e8). cbn in *. subst. destruct (d _ _ hs) as (p' & al & d1 & d2 & d3).
  assert (p' = p) by (apply in_get in d1; congruence). subst. exists p, al. rewrite e4, e5. repeat (split; [auto|]); auto. Qed.

(** ** Modules of a cluster *)
Definition on (i : Z) (d : dict path) : dict path := filter (fun '(_, p) => Z.eqb (p_idx p) i) d.
Lemma on_in i d k p : In (k, p) (on i d) <-> In (k, p) d /\ p_idx p = i.
Proof. unfold on. rewrite filter_In, Z.eqb_eq. tauto. Qed.
Lemma filter_nodup {A} (f : string * A -> bool) (d : dict A) : NoDup (map fst d) -> NoDup (map fst (filter f d)).
Proof. induction d as [|(k, v) d IH]; cbn; auto. intros n; inversion n; subst. destruct (f (k, v)); cbn; auto. constructor; auto. intros h. apply H1. apply in_map_iff in h as (x & e & h). apply filter_In in h as (h & _). apply in_map_iff; eauto. Qed.
Lemma cluster_spec mods ps lo opts ms : NoDup (map fst ps) -> cluster_cfg mods ps lo opts = Ok ms ->
  (forall k p, In (k, p) (ps ++ lo) -> exists ss, In (p_idx p, ss) ms) /\
  (forall i ss, In (i, ss) ms -> exists kd, In (i, kd) mods /\ sequencer_cfgs (allowed kd) (on i ps) (on i lo) (restrict_options opts (on i ps)) = Ok ss /\ (forall k p, In (k, p) (on i ps) -> validate kd p = Ok tt)) /\
  (NoDup (map fst mods) -> NoDup (map fst ms)).
Proof. unfold cluster_cfg. intros nd h. set (ms0 := filter _ mods) in *. apply bind_inv in h as (u & h1 & h). apply bind_inv in h as (v & h2 & h3). split; [|split].
  - intros k p hp. destruct (mapM_ok_in _ _ _ _ h1 hp) as (y & e & _). destruct (existsb _ ms0) eqn:X; [|discriminate]. apply existsb_exists in X as ((i, kd) & hi & ei). apply Z.eqb_eq in ei. subst i.
    destruct (mapM_ok_in _ _ _ _ h3 hi) as ((i, ss) & e3 & e4). apply bind_inv in e3 as (s & _ & e3). inversion e3; subst. eauto.
  - intros i ss hi. apply (mapM_in _ _ _ h3) in hi as ((i', kd) & hi & e). apply bind_inv in e as (s & e1 & e). inversion e; subst. exists kd. pose proof hi as hi'. apply filter_In in hi as (hi & _). split; auto. split; [exact e1|].
    intros k p hp. destruct (mapM_ok_in _ _ _ _ h2 hi') as (y & e2 & _). destruct (mapM_ok_in _ _ _ _ e2 hp) as ([] & e3 & _). exact e3.
  - intros nm. erewrite (mapM_map _ fst fst _ _ _ h3).
    + subst ms0. clear - nm. induction mods as [|(i, k) m IH]; cbn; auto. inversion nm; subst. destruct (existsb _ ps); cbn; auto. constructor; auto. intros q. apply H1. apply in_map_iff in q as (x & e & q). apply filter_In in q as (q & _). apply in_map_iff; eauto.
    Unshelve. intros (i, k) y e. apply bind_inv in e as (s & _ & e). now inversion e. Qed.
