(** C72: lemmas about the mock readout module. *)
From Coq Require Import Permutation.
From Verif Require Import Base UpdModel UpdProps AcqChanModel AcqChanProps MockModel.
From Verif Require PathModel.
Local Open Scope Z_scope.

(** ** Specification: the acquisitions of a schedule, in the order in which they were added *)
Record acq := { a_label : Z; a_info : info; a_pc : string }.
Definition acqs (l : list item) : list acq :=
  flat_map (fun it => match m_op it with OAcq a p c => [{| a_label := m_label it; a_info := a; a_pc := pc p c |}] | _ => [] end) l.
Definition is_trace (a : acq) : bool := match i_proto (a_info a) with Trace => true | _ => false end.
(** the pulses that have a waveform *)
Definition pulses (l : list item) : list pulse := flat_map (fun it => match m_op it with OPulse p => if p_wf p then [p] else [] | _ => [] end) l.

(** acquisitions with their hardware locations 0, 1, 2, ... *)
Definition numbered (l : list acq) : list (acq * nat) := combine l (seq 0 (List.length l)).

Definition index_of (lab : list (key * acqidx)) (a : acq) : option Z :=
  match getk ([Some (a_label a)], 0%nat) lab with Some (One i) => Some i | _ => None end.
Definition index (lab : list (key * acqidx)) (a : acq) : Z := match index_of lab a with Some i => i | None => 0 end.

Lemma acqs_app a b : acqs (a ++ b) = acqs a ++ acqs b. Proof. apply flat_map_app. Qed.
Lemma pulses_app a b : pulses (a ++ b) = pulses a ++ pulses b. Proof. apply flat_map_app. Qed.
Lemma combine_snoc {A B} (a : list A) (b : list B) x y : List.length a = List.length b -> combine (a ++ [x]) (b ++ [y]) = combine a b ++ [(x, y)].
Proof. revert b. induction a as [|u a IH]; intros [|v b] H; try discriminate; [reflexivity|]. cbn. f_equal. apply IH. cbn in H. congruence. Qed.
Lemma numbered_snoc l a : numbered (l ++ [a]) = numbered l ++ [(a, List.length l)].
Proof. unfold numbered. rewrite app_length. cbn [List.length]. rewrite Nat.add_1_r, seq_S. apply combine_snoc. rewrite seq_length. reflexivity. Qed.

Lemma foldM_app {A B} (f : B -> A -> result B) l1 l2 b : foldM f (l1 ++ l2) b = do x <- foldM f l1 b; foldM f l2 x.
Proof. revert b. induction l1 as [|x l1 IH]; intros b; [reflexivity|]. cbn. destruct (f b x); [apply IH|reflexivity]. Qed.

(** ** Compilation *)
(** the instructions of the acquisitions in [N] *)
Definition instrs (ports : list string) (N : list (acq * nat)) : list instr :=
  flat_map (fun x => map (fun hp => {| n_trace := is_trace (fst x); n_port := hp; n_loc := snd x |}) ports) N.
Definition trace_map (N : list (acq * nat)) : list (Z * nat) :=
  flat_map (fun x => if is_trace (fst x) then [(i_chan (a_info (fst x)), snd x)] else []) N.
Definition bin_map (lab : list (key * acqidx)) (N : list (acq * nat)) : list (Z * Z * nat) :=
  flat_map (fun x => if is_trace (fst x) then [] else [((i_chan (a_info (fst x)), index lab (fst x)), snd x)]) N.

Lemma put_chan_new {V} k (v : V) d : ~ In k (map fst d) -> put_chan k v d = d ++ [(k, v)].
Proof. induction d as [|[k' v'] d IH]; cbn; intros H; [reflexivity|]. destruct (k =? k') eqn:E; [apply Z.eqb_eq in E; subst; tauto|]. rewrite IH by tauto. reflexivity. Qed.
Lemma put_pair_new {V} k (v : V) d : ~ In k (map fst d) -> put_pair k v d = d ++ [(k, v)].
Proof.
  induction d as [|[k' v'] d IH]; cbn [put_pair map fst In]; intros H; [reflexivity|]. destruct ((fst k =? fst k') && (snd k =? snd k')) eqn:E.
  - apply andb_true_iff in E. destruct E as [E1 E2]. apply Z.eqb_eq in E1, E2. destruct H. left. destruct k, k'. cbn in *. congruence.
  - rewrite IH by tauto. reflexivity.
Qed.
Lemma put_loc_new {V} k (v : V) d : ~ In k (map fst d) -> put_loc k v d = d ++ [(k, v)].
Proof. induction d as [|[k' v'] d IH]; cbn; intros H; [reflexivity|]. destruct (Nat.eqb k k') eqn:E; [apply Nat.eqb_eq in E; subst; tauto|]. rewrite IH by tauto. reflexivity. Qed.
Lemma put_loc_last {V} k (v w : V) d : ~ In k (map fst d) -> put_loc k v (d ++ [(k, w)]) = d ++ [(k, v)].
Proof. induction d as [|[k' v'] d IH]; cbn; intros H; [rewrite Nat.eqb_refl; reflexivity|]. destruct (Nat.eqb k k') eqn:E; [apply Nat.eqb_eq in E; subst; tauto|]. rewrite IH by tauto. reflexivity. Qed.

(** the gain after the acquisitions [as] *)
Definition gain_inv (cfg : config) (l : list acq) (g : option Q) : Prop :=
  match g_gain cfg with
  | None => g = None
  | Some d => (g = None <-> forall a, In a l -> is_trace a = false) /\
              forall a, In a l -> is_trace a = true -> exists x y, g = Some y /\ lookup (a_pc a) d = Some x /\ (x == y)%Q
  end.
Definition waves_inv (env : pulse -> Q -> wave) (cfg : config) (ps : list pulse) (w : list (string * wave)) : Prop :=
  (forall p, In p ps -> exists d f, g_mod cfg = Some d /\ lookup (pc (p_port p) (p_clock p)) d = Some (Some f) /\ lookup (p_hash p) w = Some (env p f)) /\
  match ps with
  | [] => w = []
  | p :: _ => exists d f r, g_mod cfg = Some d /\ lookup (pc (p_port p) (p_clock p)) d = Some (Some f) /\ w = (p_hash p, env p f) :: r
  end.

Record compiled (env : pulse -> Q -> wave) (cfg : config) (lab : list (key * acqidx)) (l : list item) (k : kst) : Prop := {
  M_next : k_next k = List.length (acqs l);
  M_ports : acqs l <> [] -> exists ports, hw_ports cfg = Ok ports /\ k_instr k = instrs ports (numbered (acqs l));
  M_noports : acqs l = [] -> k_instr k = [];
  M_trace : k_trace k = trace_map (numbered (acqs l));
  M_bin : k_bin k = bin_map lab (numbered (acqs l));
  M_gain : gain_inv cfg (acqs l) (k_gain k);
  M_waves : waves_inv env cfg (pulses l) (k_waves k);
  M_kinds : forall a, In a (acqs l) -> i_proto (a_info a) = Trace \/ (i_proto (a_info a) = SSBIntegrationComplex /\ i_mode (a_info a) = AVERAGE /\ index_of lab a <> None);
  M_ops : forall it, In it l -> (exists p, m_op it = OPulse p) \/ exists a p c, m_op it = OAcq a p c
}.

Lemma store_same {V} k (v : V) d : lookup k (store k v d) = Some v.
Proof. induction d as [|[k' v'] d IH]; cbn [store lookup]; [rewrite String.eqb_refl; reflexivity|]. destruct (String.eqb k k') eqn:E; cbn [lookup]; [rewrite String.eqb_refl; reflexivity|rewrite E; exact IH]. Qed.
Lemma store_other {V} k k2 (v : V) d : k2 <> k -> lookup k2 (store k v d) = lookup k2 d.
Proof.
  intros H. induction d as [|[k' v'] d IH]; cbn [store lookup].
  - apply String.eqb_neq in H. rewrite H. reflexivity.
  - destruct (String.eqb k k') eqn:E; cbn [lookup].
    + apply String.eqb_eq in E. subst k'. apply String.eqb_neq in H. rewrite H. reflexivity.
    + rewrite IH. reflexivity.
Qed.

Definition distinct_keys (lab : list (key * acqidx)) (l : list acq) : Prop :=
  NoDup (map fst (trace_map (numbered l))) /\ NoDup (map fst (bin_map lab (numbered l))).

Lemma nodup_app_l {A} (a b : list A) : NoDup (a ++ b) -> NoDup a.
Proof. induction a as [|x a IH]; cbn; intros H; [constructor|]. inversion H; subst. constructor; [rewrite in_app_iff in *; tauto|auto]. Qed.
Lemma nodup_snoc {A} (a : list A) x : NoDup (a ++ [x]) -> ~ In x a.
Proof. induction a as [|y a IH]; cbn; intros H; [tauto|]. inversion H; subst. rewrite in_app_iff in *. cbn in *. intros [->|K]; [tauto|]. apply IH; auto. Qed.

Lemma trace_map_snoc N x : trace_map (N ++ [x]) = trace_map N ++ trace_map [x]. Proof. apply flat_map_app. Qed.
Lemma bin_map_snoc lab N x : bin_map lab (N ++ [x]) = bin_map lab N ++ bin_map lab [x]. Proof. apply flat_map_app. Qed.
Lemma instrs_snoc ps N x : instrs ps (N ++ [x]) = instrs ps N ++ instrs ps [x]. Proof. apply flat_map_app. Qed.

Lemma distinct_prefix lab l a : distinct_keys lab (l ++ [a]) -> distinct_keys lab l.
Proof.
  unfold distinct_keys. rewrite numbered_snoc, trace_map_snoc, bin_map_snoc, !map_app. intros [H1 H2]. split; eapply nodup_app_l; eassumption.
Qed.

Lemma gain_snoc cfg l a g g' : gain_inv cfg l g -> is_trace a = true -> gain_step cfg (a_pc a) g = Ok g' -> gain_inv cfg (l ++ [a]) g'.
Proof.
  unfold gain_inv, gain_step. destruct (g_gain cfg) as [d|]; [|intros -> _ H; injection H as <-; reflexivity].
  intros [HN HS] Ht H. destruct (lookup (a_pc a) d) as [x|] eqn:EL; [|discriminate].
  assert (HG : g' = Some x /\ forall y, g = Some y -> (x == y)%Q).
  { destruct g as [y|]; [destruct (Qeq_bool x y) eqn:E; [|discriminate]; injection H as <-; split; [reflexivity|]; intros z Hz; injection Hz as <-; apply Qeq_bool_iff, E|]. injection H as <-. split; [reflexivity|discriminate]. }
  destruct HG as [-> HG]. split.
  - split; [discriminate|]. intros HA. rewrite (HA a) in Ht; [discriminate|]. apply in_app_iff. right. left. reflexivity.
  - intros b Hb Hbt. apply in_app_iff in Hb. destruct Hb as [Hb|[<-|[]]].
    + destruct (HS b Hb Hbt) as [x' [y [Hy [Hx' E]]]]. exists x', x. split; [reflexivity|]. split; [exact Hx'|]. specialize (HG y Hy). rewrite E. symmetry. exact HG.
    + exists x, x. split; [reflexivity|]. split; [exact EL|reflexivity].
Qed.
Lemma gain_keep cfg l a g : gain_inv cfg l g -> is_trace a = false -> gain_inv cfg (l ++ [a]) g.
Proof.
  unfold gain_inv. destruct (g_gain cfg) as [d|]; [|auto]. intros [HN HS] Ht. split.
  - rewrite HN. split; intros H b Hb; [apply in_app_iff in Hb; destruct Hb as [Hb|[<-|[]]]; auto|apply H, in_app_iff; auto].
  - intros b Hb Hbt. apply in_app_iff in Hb. destruct Hb as [Hb|[<-|[]]]; [auto|congruence].
Qed.

Definition same_hash (l : list item) : Prop := forall p q, In p (pulses l) -> In q (pulses l) -> p_hash p = p_hash q -> p = q.

Lemma waves_snoc env cfg ps w p d f : (forall q, In q ps -> p_hash q = p_hash p -> q = p) -> waves_inv env cfg ps w -> g_mod cfg = Some d -> lookup (pc (p_port p) (p_clock p)) d = Some (Some f) ->
  waves_inv env cfg (ps ++ [p]) (store (p_hash p) (env p f) w).
Proof.
  intros HH [H1 H2] Hd Hf. split.
  - intros q Hq. destruct (string_dec (p_hash q) (p_hash p)) as [E|E].
    + assert (q = p) as -> by (apply in_app_iff in Hq; destruct Hq as [Hq|[->|[]]]; auto). exists d, f. rewrite store_same. auto.
    + apply in_app_iff in Hq. destruct Hq as [Hq|[->|[]]]; [|congruence]. destruct (H1 q Hq) as [d' [f' [A [B C]]]]. exists d', f'. rewrite store_other by exact E. auto.
  - destruct ps as [|q ps]; cbn [app].
    + subst w. exists d, f, []. auto.
    + destruct H2 as [d' [f' [r [A [B ->]]]]]. exists d', f'. cbn [store]. destruct (String.eqb (p_hash p) (p_hash q)) eqn:E.
      * apply String.eqb_eq in E. assert (q = p) as -> by (apply HH; [left; reflexivity|congruence]). exists r. split; [exact A|]. split; [exact B|]. f_equal. f_equal. congruence.
      * eexists. split; [exact A|]. split; [exact B|]. reflexivity.
Qed.

Lemma comp_inv env cfg lab : forall l k, same_hash l -> distinct_keys lab (acqs l) -> foldM (comp_step env cfg lab) l kst0 = Ok k -> compiled env cfg lab l k.
Proof.
  intros l. induction l as [|it l IH] using rev_ind; intros k HH HD H.
  - cbn in H. injection H as <-. constructor; cbn; try reflexivity; try (intros ? []); try tauto.
    + unfold gain_inv. cbn. destruct (g_gain cfg); [|reflexivity]. split; [tauto|intros ? []].
    + split; [intros ? []|reflexivity].
  - rewrite foldM_app in H. destruct (foldM (comp_step env cfg lab) l kst0) as [k0|] eqn:E0; [|discriminate]. cbn [bind foldM] in H.
    assert (HH0 : same_hash l) by (intros p q Hp Hq; apply HH; rewrite pulses_app, in_app_iff; auto).
    assert (HD0 : distinct_keys lab (acqs l)).
    { rewrite acqs_app in HD. destruct (acqs [it]) as [|a r] eqn:Ea; [rewrite app_nil_r in HD; exact HD|].
      assert (r = []) as -> by (cbn in Ea; destruct (m_op it); cbn in Ea; congruence). eapply distinct_prefix, HD. }
    destruct (IH k0 HH0 HD0 eq_refl) as [N P NP T B G W K O]. clear IH.
    destruct (comp_step env cfg lab k0 it) as [k1|] eqn:Es; [|discriminate]. cbn [bind] in H. injection H as <-.
    unfold comp_step in Es. destruct (m_op it) as [p|a port clock|x|] eqn:Eo; try discriminate.
    + assert (Ea : acqs (l ++ [it]) = acqs l) by (rewrite acqs_app; cbn; rewrite Eo, app_nil_r; reflexivity).
      assert (HO : forall it', In it' (l ++ [it]) -> (exists p, m_op it' = OPulse p) \/ exists a p c, m_op it' = OAcq a p c) by (intros it' Hi; apply in_app_iff in Hi; destruct Hi as [Hi|[<-|[]]]; [auto|left; eauto]).
      destruct (p_wf p) eqn:Ew; cbn [negb] in Es.
      * destruct (g_mod cfg) as [d|] eqn:Ed; [|discriminate]. destruct (lookup _ d) as [[f|]|] eqn:Ef; try discriminate. injection Es as <-.
        assert (Ep : pulses (l ++ [it]) = pulses l ++ [p]) by (rewrite pulses_app; cbn; rewrite Eo, Ew; reflexivity).
        constructor; cbn [k_next k_instr k_trace k_bin k_gain k_waves]; rewrite ?Ea; auto.
        rewrite Ep. eapply waves_snoc; eauto. intros q Hq Hqp. apply HH; rewrite ?Ep, ?in_app_iff; cbn; auto.
      * injection Es as <-.
        assert (Ep : pulses (l ++ [it]) = pulses l) by (rewrite pulses_app; cbn; rewrite Eo, Ew, app_nil_r; reflexivity).
        constructor; rewrite ?Ea, ?Ep; auto.
    + set (A := {| a_label := m_label it; a_info := a; a_pc := pc port clock |}) in *.
      assert (Ea : acqs (l ++ [it]) = acqs l ++ [A]) by (rewrite acqs_app; cbn; rewrite Eo; reflexivity).
      assert (Ep : pulses (l ++ [it]) = pulses l) by (rewrite pulses_app; cbn; rewrite Eo, app_nil_r; reflexivity).
      assert (HO : forall it', In it' (l ++ [it]) -> (exists p, m_op it' = OPulse p) \/ exists a p c, m_op it' = OAcq a p c) by (intros it' Hi; apply in_app_iff in Hi; destruct Hi as [Hi|[<-|[]]]; [auto|right; eauto]).
      rewrite Ea in HD. destruct HD as [HD1 HD2]. rewrite numbered_snoc, trace_map_snoc, map_app in HD1. rewrite numbered_snoc, bin_map_snoc, map_app in HD2.
      assert (HP : forall ps, hw_ports cfg = Ok ps -> k_instr k0 = instrs ps (numbered (acqs l))).
      { intros ps Hps. destruct (acqs l) eqn:El; [rewrite NP by reflexivity; reflexivity|]. destruct P as [ps' [X Y]]; [discriminate|]. congruence. }
      destruct (i_proto a) eqn:Epr; try discriminate.
      * destruct (i_mode a) eqn:Em; try discriminate. destruct (hw_ports cfg) as [ps|] eqn:Eps; [|discriminate]. cbn [bind] in Es.
        destruct (getk ([Some (m_label it)], 0%nat) lab) as [[i|]|] eqn:Ei; try discriminate. injection Es as <-.
        assert (At : is_trace A = false) by (unfold is_trace; cbn; rewrite Epr; reflexivity).
        assert (Ai : index_of lab A = Some i) by (unfold index_of; cbn [a_label A]; rewrite Ei; reflexivity).
        constructor; cbn [k_next k_instr k_trace k_bin k_gain k_waves]; rewrite ?Ea, ?Ep, ?numbered_snoc; auto.
        -- rewrite app_length, N. cbn. lia.
        -- intros _. exists ps. split; [exact Eps|]. rewrite instrs_snoc, (HP ps eq_refl), N. cbn [instrs flat_map fst snd]. rewrite At, app_nil_r. reflexivity.
        -- intros X. destruct (acqs l); discriminate.
        -- rewrite trace_map_snoc, T. cbn [trace_map flat_map fst]. rewrite At, !app_nil_r. reflexivity.
        -- rewrite bin_map_snoc, B, N. cbn [bin_map flat_map fst snd]. cbn [bin_map flat_map fst snd] in HD2. rewrite At in *. cbn [app map fst] in *. unfold index in *. rewrite Ai in *. apply put_pair_new. apply nodup_snoc, HD2.
        -- apply gain_keep; auto.
        -- intros b Hb. apply in_app_iff in Hb. destruct Hb as [Hb|[<-|[]]]; [auto|]. right. cbn. rewrite Ai. repeat split; [exact Epr|exact Em|discriminate].
      * destruct (hw_ports cfg) as [ps|] eqn:Eps; [|discriminate]. cbn [bind] in Es.
        destruct (gain_step cfg (pc port clock) (k_gain k0)) as [g|] eqn:Eg; [|discriminate]. cbn [bind] in Es. injection Es as <-.
        assert (At : is_trace A = true) by (unfold is_trace; cbn; rewrite Epr; reflexivity).
        constructor; cbn [k_next k_instr k_trace k_bin k_gain k_waves]; rewrite ?Ea, ?Ep, ?numbered_snoc; auto.
        -- rewrite app_length, N. cbn. lia.
        -- intros _. exists ps. split; [exact Eps|]. rewrite instrs_snoc, (HP ps eq_refl), N. cbn [instrs flat_map fst snd]. rewrite At, app_nil_r. reflexivity.
        -- intros X. destruct (acqs l); discriminate.
        -- rewrite trace_map_snoc, T, N. cbn [trace_map flat_map fst snd]. cbn [trace_map flat_map fst snd] in HD1. rewrite At in *. cbn [app map fst] in *. apply put_chan_new. apply nodup_snoc, HD1.
        -- rewrite bin_map_snoc, B. cbn [bin_map flat_map fst]. rewrite At, !app_nil_r. reflexivity.
        -- eapply gain_snoc; eauto.
        -- intros b Hb. apply in_app_iff in Hb. destruct Hb as [Hb|[<-|[]]]; [auto|]. left. exact Epr.
Qed.
