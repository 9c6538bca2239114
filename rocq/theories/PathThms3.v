(** C43: the result does not depend on the order in which the used port-clock combinations are enumerated. *)
From Verif Require Import Base CircModel CircProps CircProps5 PathModel PathStr PathSpec PathProps PathProps2 PathProps3 PathProps4 PathProps5 PathProps6 PathThms PathThms2.
From Verif Require DistModel.
From Coq Require Import Ascii DecimalString Lia Permutation Sorted.
Open Scope string_scope.
Open Scope list_scope.
Open Scope Z_scope.

(** ** Strings are totally ordered *)
Lemma ascii_lt_trans a b c : Ascii.compare a b = Lt -> Ascii.compare b c = Lt -> Ascii.compare a c = Lt.
Proof. unfold Ascii.compare. rewrite !N.compare_lt_iff. lia. Qed.
Lemma ascii_eq a b : Ascii.compare a b = Eq -> a = b. Proof. apply Ascii.compare_eq_iff. Qed.
Lemma leb_cons a s b t : String.leb (String a s) (String b t) = match Ascii.compare a b with Lt => true | Gt => false | Eq => String.leb s t end.
Proof. unfold String.leb. cbn [String.compare]. destruct (Ascii.compare a b); reflexivity. Qed.
Lemma leb_trans : forall s t u, String.leb s t = true -> String.leb t u = true -> String.leb s u = true.
Proof. induction s as [|a s IH]; intros [|b t] [|c u] h1 h2; try reflexivity; try discriminate. rewrite leb_cons in *. destruct (Ascii.compare a b) eqn:A; try discriminate; destruct (Ascii.compare b c) eqn:B; try discriminate.
  - apply ascii_eq in A; subst b. rewrite B. eauto.
  - apply ascii_eq in A; subst b. now rewrite B.
  - apply ascii_eq in B; subst c. now rewrite A.
  - now rewrite (ascii_lt_trans _ _ _ A B). Qed.
Definition le_s (a b : string) : Prop := String.leb a b = true.
Lemma insert_sorted x l : StronglySorted le_s l -> StronglySorted le_s (DistModel.insertb String.leb x l).
Proof. induction l as [|y l IH]; cbn [DistModel.insertb]; intros h; [repeat constructor|]. inversion h; subst. destruct (String.leb x y) eqn:D.
  - constructor; auto. constructor; [exact D|]. rewrite Forall_forall in *. intros z hz. eapply leb_trans; [exact D|now apply H2].
  - constructor; [now apply IH|]. rewrite Forall_forall in *. intros z hz. apply (Permutation_in _ (insert_perm _ _ _)) in hz. destruct hz as [<-|hz]; [|now apply H2]. destruct (String.leb_total x y) as [t|t]; [congruence|exact t]. Qed.
Lemma isort_sorted l : StronglySorted le_s (DistModel.isort String.leb l).
Proof. induction l as [|x l IH]; [constructor|]. cbn. now apply insert_sorted. Qed.
Lemma sorted_unique l : forall l', StronglySorted le_s l -> StronglySorted le_s l' -> Permutation l l' -> l = l'.
Proof. induction l as [|x l IH]; intros l' h h' p; [now apply Permutation_nil in p|]. destruct l' as [|y l']; [symmetry in p; now apply Permutation_nil in p|]. inversion h; inversion h'; subst.
  assert (x = y). { assert (hx : In x (y :: l')) by (eapply Permutation_in; [exact p|now left]). assert (hy : In y (x :: l)) by (eapply Permutation_in; [symmetry; exact p|now left]). destruct hx as [->|hx]; auto. destruct hy as [->|hy]; auto. rewrite Forall_forall in *. apply String.leb_antisym; [now apply H2|now apply H6]. }
  subst y. f_equal. apply IH; auto. eapply Permutation_cons_inv; eauto. Qed.

(** ** Dictionaries with the same entries *)
Definition Same {A} (d d' : dict A) : Prop := NoDup (map fst d) /\ NoDup (map fst d') /\ forall k v, In (k, v) d <-> In (k, v) d'.
Lemma same_get {A} (d d' : dict A) k : Same d d' -> get d k = get d' k.
Proof. intros (n & n' & h). destruct (get d k) as [v|] eqn:G.
  - apply get_in in G. apply h in G. symmetry. now apply in_get.
  - destruct (get d' k) as [v|] eqn:G'; auto. apply get_in in G'. apply h in G'. apply in_get in G'; auto. congruence. Qed.
Lemma nodup_pairs {A} (d : dict A) : NoDup (map fst d) -> NoDup d. Proof. apply NoDup_map_inv. Qed.
Lemma same_perm {A} (d d' : dict A) : Same d d' -> Permutation d d'.
Proof. intros (n & n' & h). apply NoDup_Permutation; [now apply nodup_pairs..|]. intros (k, v). apply h. Qed.
Lemma same_filter {A} (f : string * A -> bool) (d d' : dict A) : Same d d' -> Same (filter f d) (filter f d').
Proof. intros (n & n' & h). split; [now apply filter_nodup|]. split; [now apply filter_nodup|]. intros k v. rewrite !filter_In, h. reflexivity. Qed.
Lemma same_on i d d' : Same d d' -> Same (on i d) (on i d'). Proof. apply same_filter. Qed.
Lemma same_keys d d' : Same d d' -> sorted_keys d = sorted_keys d'.
Proof. intros h. apply sorted_unique; [apply isort_sorted..|]. unfold sorted_keys. rewrite !isort_perm. apply Permutation_map, same_perm, h. Qed.
Lemma same_reserve tab d d' t k : Same d d' -> reserve tab d t k = reserve tab d' t k.
Proof. intros h. unfold reserve, index. now rewrite (same_get _ _ k h). Qed.
Lemma same_measures d d' k : Same d d' -> measures d k = measures d' k. Proof. intros h. unfold measures. now rewrite (same_get _ _ k h). Qed.
Lemma same_sequencers tab d d' : Same d d' -> sequencer_to_portclock tab d = sequencer_to_portclock tab d'.
Proof. intros h. unfold sequencer_to_portclock. rewrite <- (same_keys _ _ h).
  rewrite (filter_ext (measures d) (measures d')) by (intros; now apply same_measures). rewrite (filter_ext (fun k => negb (measures d k)) (fun k => negb (measures d' k))) by (intros; f_equal; now apply same_measures).
  rewrite (foldM_ext' (reserve tab d) (reserve tab d')) by (intros; now apply same_reserve). destruct (foldM _ _ _); cbn; auto. apply foldM_ext'. intros; now apply same_reserve. Qed.
Lemma same_cfgs tab d d' lo lo' opts : Same d d' -> lo_map lo = lo_map lo' -> sequencer_cfgs tab d lo opts = sequencer_cfgs tab d' lo' opts.
Proof. intros h e. unfold sequencer_cfgs. fold (lo_map lo) (lo_map lo'). rewrite <- e, (same_sequencers _ _ _ h). destruct (sequencer_to_portclock tab d') as [t|]; cbn; auto. apply mapM_ext. intros (i, pc). unfold index. now rewrite (same_get _ _ pc h). Qed.
Lemma same_has {A} (d d' : dict A) k : Same d d' -> has d k = has d' k. Proof. intros h. unfold has. now rewrite (same_get _ _ k h). Qed.
Lemma same_options opts d d' : Same d d' -> restrict_options opts d = restrict_options opts d'.
Proof. intros h. unfold restrict_options. apply map_ext. intros (o, vals). f_equal. apply filter_ext. intros (pc, v). now apply same_has. Qed.
Lemma same_exists {A} (f : string * A -> bool) d d' : Same d d' -> existsb f d = existsb f d'.
Proof. intros (_ & _ & h). apply eq_true_iff_eq. rewrite !existsb_exists. split; intros ((k, v) & a & b); exists (k, v); (split; [now apply h|auto]). Qed.

(** two sequencers that differ at most in the local oscillator *)
Definition SameButLO (s s' : seqcfg) : Prop := q_idx s = q_idx s' /\ q_pc s = q_pc s' /\ q_ch s = q_ch s' /\ q_meas s = q_meas s' /\ q_opts s = q_opts s'.
Lemma cfgs_but_lo tab d d' lo lo' opts ss ss' : Same d d' -> sequencer_cfgs tab d lo opts = Ok ss -> sequencer_cfgs tab d' lo' opts = Ok ss' -> forall s, In s ss -> exists s', In s' ss' /\ SameButLO s s'.
Proof. intros sm h h' s hs. unfold sequencer_cfgs in h, h'. fold (lo_map lo) in h. fold (lo_map lo') in h'. rewrite <- (same_sequencers _ _ _ sm) in h'. apply bind_inv in h as (t & h1 & h2). apply bind_inv in h' as (t' & h1' & h2'). rewrite h1 in h1'. inversion h1'; subst t'; clear h1'.
  apply (mapM_in _ _ _ h2) in hs as ((i, pc) & hi & e). destruct (mapM_ok_in _ _ _ _ h2' hi) as (s' & e' & hs'). exists s'. split; auto. apply bind_inv in e as (p & e1 & e2). apply bind_inv in e' as (p' & e1' & e2'). apply index_ok in e1, e1'. rewrite (same_get _ _ _ sm) in e1. rewrite e1 in e1'. inversion e1'; subst p'.
  destruct (split_on "-" pc) as [|u [|v [|]]]; try discriminate. inversion e2; inversion e2'; subst. repeat split. Qed.

Lemma mapM_all_ok {A B} (f : A -> result B) l : (forall x, In x l -> exists y, f x = Ok y) -> exists r, mapM f l = Ok r.
Proof. induction l as [|x l IH]; cbn; intros h; [eauto|]. destruct (h x (or_introl eq_refl)) as (y & e). rewrite e. cbn. destruct IH as (r & e'); [intros; apply h; now right|]. rewrite e'. cbn. eauto. Qed.
Lemma mapM_ext_in {A B} (f g : A -> result B) l : (forall x, In x l -> f x = g x) -> mapM f l = mapM g l.
Proof. induction l as [|x l IH]; cbn; intros h; auto. rewrite (h x (or_introl eq_refl)). rewrite IH; [reflexivity|]. intros; apply h; now right. Qed.
Lemma same_cluster mods d d' opts r : Same d d' -> cluster_cfg mods d [] opts = Ok r -> cluster_cfg mods d' [] opts = Ok r.
Proof. intros h e. unfold cluster_cfg in *. fold on in *. rewrite !app_nil_r in *.
  assert (F : filter (fun '(i, _) => existsb (fun '(_, p) => Z.eqb (p_idx p) i) d') mods = filter (fun '(i, _) => existsb (fun '(_, p) => Z.eqb (p_idx p) i) d) mods) by (apply filter_ext; intros (i, k); symmetry; now apply same_exists).
  rewrite F. set (ms := filter _ mods) in *. clearbody ms. clear F. apply bind_inv in e as (u & e1 & e). apply bind_inv in e as (v & e2 & e3).
  destruct (mapM_all_ok (fun '(_, p) => if existsb (fun '(i, _) => p_idx p =? i) ms then Ok tt else Err KeyError) d') as (u' & x1).
  { intros (k, p) hk. destruct h as (_ & _ & h). apply h in hk. destruct (mapM_ok_in _ _ _ _ e1 hk) as (y & a & _). cbn in a.
    assert (X : existsb (fun '(i, _) => p_idx p =? i) ms = existsb (fun '(i, _) => i =? p_idx p) ms). { clear. induction ms as [|(j, q) ms IH]; cbn; auto. now rewrite IH, Z.eqb_sym. }
    rewrite X. eauto. }
  assert (x1' : mapM (fun '(_, p) => if existsb (fun '(i, _) => i =? p_idx p) ms then Ok tt else Err KeyError) d' = Ok u').
  { rewrite <- x1. apply mapM_ext. intros (k, p). replace (existsb (fun '(i, _) => i =? p_idx p) ms) with (existsb (fun '(i, _) => p_idx p =? i) ms); auto. clear. induction ms as [|(j, q) ms IH]; cbn; auto. now rewrite IH, Z.eqb_sym. }
  refine (eq_trans (f_equal (fun z => bind z _) x1') _). cbn [bind].
  destruct (mapM_all_ok (fun '(i, k) => mapM (fun '(_, p) => validate k p) (on i d')) ms) as (v' & x2).
  { intros (i, k) hi. destruct (mapM_ok_in _ _ _ _ e2 hi) as (y & a & _). apply mapM_all_ok. intros (key, p) hk. apply (proj2 (proj2 (same_on i _ _ h))) in hk. destruct (mapM_ok_in _ _ _ _ a hk) as (z & b & _). eauto. }
  refine (eq_trans (f_equal (fun z => bind z _) x2) _). cbn [bind]. rewrite <- e3. apply mapM_ext. intros (i, k). change (filter (fun '(_, p) => p_idx p =? i) d') with (on i d'). change (filter (fun '(_, p) => p_idx p =? i) d) with (on i d).
  rewrite (same_options _ _ _ (same_on i _ _ h)). rewrite (same_cfgs _ _ _ _ [] _ (same_on i _ _ h) eq_refl). reflexivity. Qed.

(** ** Permuted port-clocks *)
Lemma clocks_perm port used used' : Permutation used used' -> Permutation (clocks_of port used) (clocks_of port used').
Proof. intros p. unfold clocks_of. apply Permutation_map. induction p; cbn [filter]; auto.
  - destruct (String.eqb (fst x) port); auto.
  - destruct (String.eqb (fst x) port), (String.eqb (fst y) port); auto. constructor.
  - etransitivity; eauto. Qed.
Lemma distinct_perm used used' : Permutation used used' -> Distinct used -> Distinct used'.
Proof. intros p d a b a' b' h h' e. apply (Permutation_in _ (Permutation_sym p)) in h, h'. eauto. Qed.
Lemma plain_perm hw E used used' : Permutation used used' -> Plain hw E used -> Plain hw E used'.
Proof. intros p d a b x h. apply (Permutation_in _ (Permutation_sym p)) in h. eauto. Qed.
Lemma locals_perm hw E used used' new : Permutation used used' -> locals hw E used = Ok new -> exists new', locals hw E used' = Ok new' /\
  forall port clks L k c p, In (port, (clks, L)) new -> In k clks -> get L c = Some p -> exists clks' L', In (port, (clks', L')) new' /\ In k clks' /\ get L' c = Some p.
Proof. intros p h. pose proof (fun a => clocks_perm a _ _ p) as cp.
  assert (P : forall port clks, In (port, clks) (port_to_clocks used') -> In (port, clocks_of port used) (port_to_clocks used) /\ List.length (clocks_of port used) = List.length clks).
  { intros port clks hp. apply p2c_spec in hp as (-> & ne). split; [|apply Permutation_length, cp]. apply p2c_spec. split; auto. intros e. apply ne. apply Permutation_nil. rewrite <- e. apply cp. }
  destruct (mapM_all_ok (fun '(port, clks) => do L <- lport hw E (List.length clks) port; Ok (port, (clks, L))) (port_to_clocks used')) as (new' & e).
  { intros (port, clks) hp. destruct (P _ _ hp) as (hp' & el). destruct (mapM_ok_in _ _ _ _ h hp') as (y & e & _). cbn in e. rewrite el in e. apply bind_inv in e as (L & e & _). rewrite e. cbn. eauto. }
  exists new'. split; [exact e|]. intros port clks L k c q hi hk g. apply (locals_in _ _ _ _ _ _ _ h) in hi as (h1 & h2). exists (clocks_of port used'), L. split; [|split; auto].
  - apply (locals_in _ _ _ _ _ _ _ e). apply p2c_spec in h1 as (-> & ne). split; [apply p2c_spec; split; auto; intros x; apply ne, Permutation_nil; rewrite <- x; symmetry; apply cp|]. now rewrite <- (Permutation_length (cp port)).
  - apply p2c_spec in h1 as (-> & _). eapply Permutation_in; [apply cp|exact hk]. Qed.
Lemma paths_perm hw E used used' st : WfHw hw -> NoDup used -> Distinct used -> Plain hw E used -> Permutation used used' -> all_paths hw E used = Ok st ->
  exists st', all_paths hw E used' = Ok st' /\ forall c, Same (paths_of st (pcs st) c) (paths_of st' (pcs st') c).
Proof. intros wf nu d pl p h. pose proof (all_sim hw E used wf nu d pl) as s. destruct (locals hw E used) as [new|e] eqn:L; [|destruct s as (e' & s); congruence]. destruct s as (st0 & loc & s1 & s2). rewrite h in s1. inversion s1; subst st0; clear s1.
  destruct (locals_perm _ _ _ _ _ p L) as (new' & L' & f). pose proof (all_sim hw E used' wf (Permutation_NoDup p nu) (distinct_perm _ _ p d) (plain_perm _ _ _ _ p pl)) as s'. rewrite L' in s'. destruct s' as (st' & loc' & s1' & s2').
  destruct (locals_perm _ _ _ _ _ (Permutation_sym p) L') as (new0 & L0 & f'). rewrite L in L0. inversion L0; subst new0. clear L0. exists st'. split; auto. pose proof (all_paths_shape _ _ _ _ h) as sh. pose proof (all_paths_shape _ _ _ _ s1') as sh'.
  intros c. split; [apply paths_nodup, sh|]. split; [apply paths_nodup, sh'|]. intros key q. rewrite (final_paths _ _ _ _ _ _ _ s2 (proj1 sh)), (final_paths _ _ _ _ _ _ _ s2' (proj1 sh')). split.
  - intros (port & clks & M & k & a1 & a2 & a3 & a4). destruct (f _ _ _ _ _ _ a1 a2 a4) as (clks' & M' & b1 & b2 & b3). exists port, clks', M', k. auto.
  - intros (port & clks & M & k & a1 & a2 & a3 & a4). destruct (f' _ _ _ _ _ _ a1 a2 a4) as (clks' & M' & b1 & b2 & b3). exists port, clks', M', k. auto. Qed.
Lemma direct_clock_los port loc st clock st' : direct_clock port loc st clock = Ok st' -> los st' = los st.
Proof. unfold direct_clock. intros h. apply bind_inv in h as ((hp, rep) & _ & h). destruct rep; [now inversion h|]. destruct (nth_error hp loc); [|discriminate]. apply bind_inv in h as (d & _ & h). now inversion h. Qed.
Lemma los_empty hw E used st c : (forall port clock x, In (port, clock) used -> ~ AtMixer hw E port x) -> all_paths hw E used = Ok st -> paths_of st (los st) c = [].
Proof. intros nm h. assert (X : los st = map (fun '(n, _) => (n, [])) (clusters hw)).
  { unfold all_paths in h. refine (foldM_inv (fun st => los st = map (fun '(n, _) => (n, [])) (clusters hw)) _ _ _ _ h eq_refl _). intros b (port, clks) b' hp hb hs. apply p2c_spec in hp as (-> & ne). cbn in hs. destruct (memb port (nodes E)); [|discriminate].
    refine (foldM_inv (fun st => los st = _) _ _ _ _ hs hb _). intros b1 n b2 hn hb1 h2. unfold nbr_step in h2.
    assert (hu : exists clock, In (port, clock) used). { destruct (clocks_of port used) as [|k l] eqn:D; [easy|]. exists k. apply clocks_in. rewrite D. now left. }
    destruct hu as (clock & hu). destruct (nomixer_nbrs hw E port (fun x => nm _ _ x hu) n hn) as [ip|bl].
    - rewrite ip in h2. apply bind_inv in h2 as (p & _ & h2). refine (foldM_inv (fun st => los st = _) _ _ _ _ h2 hb1 _). intros b3 k b4 _ hb3 h4. apply direct_clock_los in h4. congruence.
    - destruct (is_path hw n) eqn:ip; [|rewrite bl in h2; inversion h2; subst; auto]. apply bind_inv in h2 as (p & _ & h2). refine (foldM_inv (fun st => los st = _) _ _ _ _ h2 hb1 _). intros b3 k b4 _ hb3 h4. apply direct_clock_los in h4. congruence. }
  unfold paths_of. rewrite X. clear. induction (clusters hw) as [|(n, m) l IH]; cbn [map get]; auto. destruct (String.eqb n c); auto. Qed.

(** Without mixers the assignment is the same whatever the order in which the used port-clocks are enumerated. *)
Theorem C43_order : forall hw E opts used used' res, WfHw hw -> NoDup used -> Distinct used -> Permutation used used' -> (forall port clock x, In (port, clock) used -> ~ AtMixer hw E port x) ->
  assign_sequencers hw E opts used = Ok res -> assign_sequencers hw E opts used' = Ok res.
Proof. intros hw E opts used used' res wf nu d p nm h. unfold assign_sequencers in h. apply bind_inv in h as (st & h1 & h2).
  assert (pl : Plain hw E used) by (intros port clock x hu hx; exfalso; eapply nm; eauto).
  destruct (paths_perm _ _ _ _ _ wf nu d pl p h1) as (st' & h1' & sm). assert (nm' : forall port clock x, In (port, clock) used' -> ~ AtMixer hw E port x) by (intros port clock x hu; apply (Permutation_in _ (Permutation_sym p)) in hu; eauto).
  unfold assign_sequencers. rewrite h1'. cbn [bind]. fold (paths_of st (pcs st)) (paths_of st (los st)) in h2.
  change (mapM (fun '(n, mods) => bind (cluster_cfg mods (paths_of st' (pcs st') n) (paths_of st' (los st') n) (restrict_options opts (paths_of st' (pcs st') n))) (fun r => Ok (n, r))) (filter (fun '(n, _) => match paths_of st' (pcs st') n with [] => false | _ => true end) (clusters hw)) = Ok res).
  change (mapM (fun '(n, mods) => bind (cluster_cfg mods (paths_of st (pcs st) n) (paths_of st (los st) n) (restrict_options opts (paths_of st (pcs st) n))) (fun r => Ok (n, r))) (filter (fun '(n, _) => match paths_of st (pcs st) n with [] => false | _ => true end) (clusters hw)) = Ok res) in h2.
  replace (filter (fun '(n, _) => match paths_of st' (pcs st') n with [] => false | _ => true end) (clusters hw)) with (filter (fun '(n, _) => match paths_of st (pcs st) n with [] => false | _ => true end) (clusters hw)).
  - rewrite <- h2. symmetry. apply mapM_ext_in. intros (n, mods) hn. destruct (mapM_ok_in _ _ _ _ h2 hn) as (y & e & _). cbn in e. rewrite (los_empty _ _ _ _ n nm h1) in *. rewrite (los_empty _ _ _ _ n nm' h1').
    apply bind_inv in e as (r & e & _). rewrite e. rewrite <- (same_options _ _ _ (sm n)). rewrite (same_cluster _ _ _ _ _ (sm n) e). reflexivity.
  - apply filter_ext. intros (n, m). pose proof (Permutation_length (same_perm _ _ (sm n))) as len. destruct (paths_of st (pcs st) n), (paths_of st' (pcs st') n); auto; discriminate. Qed.

(** With mixers the sequencers are the same except perhaps for their local oscillators. *)
Theorem C43_order_mixers : forall hw E opts used used' res res' cl i s, WfHw hw -> NoDup used -> Distinct used -> Plain hw E used -> Permutation used used' ->
  assign_sequencers hw E opts used = Ok res -> assign_sequencers hw E opts used' = Ok res' -> Given res cl i s -> exists s', Given res' cl i s' /\ SameButLO s s'.
Proof. intros hw E opts used used' res res' cl i s wf nu d pl p h h' g. destruct (top_spec _ _ _ _ _ wf h) as (st & t1 & sh & _ & t4 & _ & _). destruct (paths_perm _ _ _ _ _ wf nu d pl p t1) as (st' & t1' & sm). destruct (top_spec _ _ _ _ _ wf h') as (st0 & t1'' & sh' & _ & t4' & t5' & _). rewrite t1' in t1''. inversion t1''; subst st0; clear t1''.
  destruct (given_inv _ _ _ _ _ _ _ _ wf h g) as (st0 & mods0 & kd0 & p0 & a & e1 & _ & _ & _ & _ & h6 & h7 & _). rewrite t1 in e1. inversion e1; subst st0; clear e1. apply (proj2 (proj2 (sm cl))) in h6. destruct (paths_in _ _ _ _ _ h6 (proj1 sh')) as (l & g1 & g2). destruct (t5' _ _ _ g1) as (p1 & s1 & e1 & (ms' & ss' & r1 & r2 & r3) & e3). rewrite g2 in e1. inversion e1; subst p1; clear e1. rewrite h7 in r2. clear r3 e3 s1.
  destruct g as (ms & ss & q1 & q2 & q3). destruct (t4 _ _ q1) as (mods & hm & c1). destruct (t4' _ _ r1) as (mods' & hm' & c1'). pose proof (clusters_nodup _ (proj1 wf)) as cn. assert (mods' = mods) by (pose proof (in_get _ _ _ cn hm); pose proof (in_get _ _ _ cn hm'); congruence). subst mods'.
  destruct (cluster_spec _ _ _ _ _ (proj1 (sm cl)) c1) as (_ & k2 & _). destruct (cluster_spec _ _ _ _ _ (proj1 (proj2 (sm cl))) c1') as (_ & k2' & _). destruct (k2 _ _ q2) as (kd & d1 & d2 & _). destruct (k2' _ _ r2) as (kd' & d1' & d2' & _).
  assert (kd' = kd). { apply clusters_in in hm. pose proof (proj2 wf _ _ hm) as nd. clear - d1 d1' nd. induction mods as [|(j, x) l IH]; [destruct d1|]. cbn in nd. inversion nd; subst. destruct d1 as [q|q], d1' as [q'|q'].
    - congruence.
    - exfalso. inversion q; subst. apply H1. apply in_map_iff. now exists (i, kd').
    - exfalso. inversion q'; subst. apply H1. apply in_map_iff. now exists (i, kd).
    - auto. }
  subst kd'. rewrite <- (same_options _ _ _ (sm cl)), <- (same_options _ _ _ (same_on i _ _ (sm cl))) in d2'. destruct (cfgs_but_lo _ _ _ _ _ _ _ _ (same_on i _ _ (sm cl)) d2 d2' s q3) as (s' & x1 & x2). exists s'. split; auto. exists ms', ss'. auto. Qed.
