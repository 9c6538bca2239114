(** C72: keys of the compiled program, execution and retrieval. *)
From Coq Require Import Permutation Ascii.
From Verif Require Import Base UpdModel UpdProps AcqChanModel AcqChanProps AcqChanProps2 MockModel MockProps.
From Verif Require PathModel.
Local Open Scope Z_scope.

Definition ok_kind (lab : list (key * acqidx)) (a : acq) : Prop :=
  i_proto (a_info a) = Trace \/ (i_proto (a_info a) = SSBIntegrationComplex /\ i_mode (a_info a) = AVERAGE /\ index_of lab a <> None).

Lemma comp_kinds env cfg lab l : forall k0 k, foldM (comp_step env cfg lab) l k0 = Ok k ->
  (forall a, In a (acqs l) -> ok_kind lab a) /\
  (forall it, In it l -> (exists p, m_op it = OPulse p) \/ exists a p c, m_op it = OAcq a p c).
Proof.
  induction l as [|it l IH]; intros k0 k H; [split; intros ? []|]. cbn [foldM] in H. destruct (comp_step env cfg lab k0 it) as [k1|] eqn:Es; [|discriminate]. cbn [bind] in H.
  destruct (IH _ _ H) as [A B]. clear IH H. unfold comp_step in Es. destruct (m_op it) as [p|a port clock|x|] eqn:Eo; try discriminate.
  - split; [cbn [acqs flat_map]; rewrite Eo; exact A|]. intros it' [<-|Hi]; [left; eauto|auto].
  - split; [|intros it' [<-|Hi]; [right; eauto|auto]]. cbn [acqs flat_map]. rewrite Eo. cbn [app]. intros b [<-|Hb]; [|auto]. unfold ok_kind. cbn [a_info].
    destruct (i_proto a); try discriminate; [|auto]. right. destruct (i_mode a); try discriminate. destruct (hw_ports cfg); [|discriminate]. cbn [bind] in Es.
    unfold index_of. cbn [a_label]. destruct (getk _ _) as [[i|]|]; try discriminate. repeat split; discriminate.
Qed.

Definition occ_of (a : acq) : occ := {| o_path := [Some (a_label a)]; o_reps := []; o_num := 0; o_info := a_info a |}.

Lemma occ_in l a : In a (acqs l) -> In (occ_of a) (acquisitions (tree_of l)).
Proof.
  unfold acqs. rewrite in_flat_map. intros [it [Hi Ha]]. destruct (m_op it) as [p|i p c|x|] eqn:Eo; try destruct Ha; [|contradiction]. subst a.
  unfold acquisitions, tree_of. cbn [occs]. apply in_flat_map. exists (m_time it, number 0 [Some (m_label it)] [] [i]). split.
  - apply sorted_In. rewrite map_map. apply in_map_iff. exists it. split; [|exact Hi]. cbn [fst snd]. rewrite Eo. reflexivity.
  - left. reflexivity.
Qed.

Lemma unique_tree l : NoDup (map m_label l) -> (forall it, In it l -> (exists p, m_op it = OPulse p) \/ exists a p c, m_op it = OAcq a p c) -> unique_labels (tree_of l).
Proof.
  intros HN HO. unfold tree_of. cbn [unique_labels]. split; [rewrite map_map; exact HN|].
  clear HN. induction l as [|it l IH]; cbn [map]; [exact I|]. split; [|apply IH; intros; apply HO; right; assumption].
  destruct (HO it (or_introl eq_refl)) as [[p ->]|[a [p [c ->]]]]; exact I.
Qed.

Lemma acq_labels l a : In a (acqs l) -> In (a_label a) (map m_label l).
Proof. unfold acqs. rewrite in_flat_map. intros [it [Hi Ha]]. apply in_map_iff. exists it. split; [|exact Hi]. destruct (m_op it); try destruct Ha; try contradiction. subst a. reflexivity. Qed.
Lemma acq_labels_nodup l : NoDup (map m_label l) -> NoDup (map a_label (acqs l)).
Proof.
  induction l as [|it l IH]; intros H; [constructor|]. inversion H; subst. cbn [acqs flat_map]. fold (acqs l). destruct (m_op it); cbn [app map]; auto.
  constructor; [|auto]. intros Hi. apply in_map_iff in Hi. destruct Hi as [b [E Hb]]. apply acq_labels in Hb. cbn [a_label] in E. congruence.
Qed.

Lemma keyed_nodup {K} (g : acq * nat -> list (K * nat)) (sel : acq -> Prop) (f : acq -> K) :
  (forall x, g x = [] \/ (sel (fst x) /\ g x = [(f (fst x), snd x)])) ->
  forall (L : list acq) st, NoDup (map a_label L) -> (forall a b, In a L -> In b L -> sel a -> sel b -> f a = f b -> a_label a = a_label b) ->
  NoDup (map fst (flat_map g (combine L (seq st (List.length L))))).
Proof.
  intros Hg. induction L as [|a L IH]; intros st HN HI; [constructor|]. cbn [List.length seq combine flat_map]. inversion HN; subst.
  assert (HR : NoDup (map fst (flat_map g (combine L (seq (S st) (List.length L)))))) by (apply IH; [assumption|]; intros; apply HI; cbn; auto).
  destruct (Hg (a, st)) as [->|[Hs ->]]; [exact HR|]. cbn [fst snd app map]. constructor; [|exact HR].
  intros Hi. apply in_map_iff in Hi. destruct Hi as [[k n] [Ek Hi]]. cbn [fst] in Ek. subst k. apply in_flat_map in Hi. destruct Hi as [[b m] [Hb Hi]]. apply in_combine_l in Hb.
  destruct (Hg (b, m)) as [E|[Hsb E]]; rewrite E in Hi; [destruct Hi|]. destruct Hi as [Hi|[]]. cbn [fst snd] in *. apply H1. apply in_map_iff. exists b. split; [|exact Hb].
  symmetry. apply HI; cbn; auto. congruence.
Qed.

Lemma nodup_flat {A B} (f : A -> list B) l a b x : NoDup (flat_map f l) -> In a l -> In b l -> In x (f a) -> In x (f b) -> a = b.
Proof.
  induction l as [|c l IH]; intros HN Ha Hb Hxa Hxb; [destruct Ha|]. cbn [flat_map] in HN.
  assert (D : forall y, In y (f c) -> ~ In y (flat_map f l)).
  { clear -HN. induction (f c) as [|z r IHr]; intros y Hy; [destruct Hy|]. cbn in HN. inversion HN; subst. destruct Hy as [->|Hy]; [|apply IHr; assumption]. intros Hi. apply H1, in_app_iff. auto. }
  assert (HN' : NoDup (flat_map f l)) by (clear -HN; induction (f c); [exact HN|cbn in HN; inversion HN; auto]).
  destruct Ha as [->|Ha], Hb as [->|Hb]; [reflexivity| | |apply IH; assumption].
  - exfalso. apply (D x Hxa). apply in_flat_map. eauto.
  - exfalso. apply (D x Hxb). apply in_flat_map. eauto.
Qed.

Lemma index_assigned s a : index_of (labels s) a <> None -> assigned s (occ_of a) = [index (labels s) a].
Proof. unfold assigned, index, index_of, o_key. cbn [o_path o_num occ_of]. destruct (getk _ _) as [[i|]|]; [reflexivity|congruence|congruence]. Qed.

Lemma keys_distinct env cfg l s k : NoDup (map m_label l) -> generate_acq (tree_of l) = Ok s -> foldM (comp_step env cfg (labels s)) l kst0 = Ok k -> distinct_keys (labels s) (acqs l).
Proof.
  intros HN HG HF. destruct (comp_kinds _ _ _ _ _ _ HF) as [HK HO]. pose proof (unique_tree l HN HO) as HU.
  destruct (C23_acquisition_indices _ _ HU HG) as [C1 [C2 [C3 [C4 C5]]]]. pose proof (acq_labels_nodup l HN) as HL. split.
  - unfold trace_map, numbered. apply (keyed_nodup _ (fun a => is_trace a = true) (fun a => i_chan (a_info a))); [intros x; destruct (is_trace (fst x)); auto|exact HL|].
    intros a b Ha Hb Sa Sb E. assert (Ta : i_proto (o_info (occ_of a)) = Trace) by (unfold is_trace in Sa; cbn; destruct (i_proto (a_info a)); congruence).
    pose proof (C5 _ (occ_in l a Ha) Ta) as H5. assert (Hin : In (occ_of b) (on (o_chan (occ_of a)) (acquisitions (tree_of l)))).
    { unfold on. apply filter_In. split; [apply occ_in, Hb|]. unfold o_chan. cbn [o_info occ_of]. apply Z.eqb_eq. congruence. }
    rewrite H5 in Hin. destruct Hin as [Hin|[]]. apply (f_equal o_path) in Hin. cbn in Hin. congruence.
  - unfold bin_map, numbered. apply (keyed_nodup _ (fun a => is_trace a = false) (fun a => (i_chan (a_info a), index (labels s) a))); [intros x; destruct (is_trace (fst x)); auto|exact HL|].
    intros a b Ha Hb Sa Sb E. injection E as Ec Ei.
    assert (KA : forall a, In a (acqs l) -> is_trace a = false -> i_proto (a_info a) = SSBIntegrationComplex /\ i_mode (a_info a) = AVERAGE /\ index_of (labels s) a <> None).
    { intros x Hx Sx. destruct (HK x Hx) as [T|T]; [unfold is_trace in Sx; rewrite T in Sx; discriminate|exact T]. }
    destruct (KA a Ha Sa) as [Pa [Ma Ia]]. destruct (KA b Hb Sb) as [Pb [Mb Ib]].
    assert (Ba : binned (occ_of a) = true) by (unfold binned, averaging; cbn; rewrite Pa, Ma; reflexivity).
    destruct (C2 _ (occ_in l a Ha) Ba) as [_ [d [cl [Hd [Hcl _]]]]].
    pose proof (C23_no_index_shared _ _ _ _ _ HU HG Hd Hcl) as ND.
    assert (Hon : forall x, In x (acqs l) -> i_chan (a_info x) = i_chan (a_info a) -> In (occ_of x) (on (o_chan (occ_of a)) (acquisitions (tree_of l)))).
    { intros x Hx Ex. unfold on. apply filter_In. split; [apply occ_in, Hx|]. unfold o_chan. cbn. apply Z.eqb_eq. exact Ex. }
    assert (EO : occ_of a = occ_of b).
    { eapply (nodup_flat _ _ _ _ (index (labels s) a) ND); [apply Hon; auto|apply Hon; auto| |]; rewrite index_assigned by assumption; [left; reflexivity|rewrite Ei; left; reflexivity]. }
    apply (f_equal o_path) in EO. cbn in EO. congruence.
Qed.

(** ** Execution *)
(** port names that contain neither the separator of the instructions nor a keyword *)
Definition plain (ports : list string) : Prop := forall hp, In hp ports -> List.length (PathModel.split_on "_"%char hp) = 1%nat /\ PathModel.contains "TRACE"%string hp = false.

Fixpoint results (tr : list (list Q)) (rnd : nat -> Q) (np : nat) (N : list (acq * nat)) (n : nat) : list (nat * data) :=
  match N with
  | [] => []
  | x :: r => if is_trace (fst x) then (snd x, DTrace tr) :: results tr rnd np r n
              else (snd x, DAcq (rnd (n + (np - 1))%nat)) :: results tr rnd np r (n + np)
  end.

Lemma plain_location hp t loc : List.length (PathModel.split_on "_"%char hp) = 1%nat -> location {| n_trace := t; n_port := hp; n_loc := loc |} = Ok loc.
Proof. unfold location. cbn [n_port n_loc]. destruct (PathModel.split_on "_"%char hp) as [|x [|y r]]; cbn; intros H; congruence. Qed.

Lemma run_more rnd step g ws t loc : (t = true -> ws = [] \/ step <> 0%nat) -> forall ports rest n d w, plain ports -> ~ In loc (map fst d) -> ports <> [] ->
  run rnd step g ws (map (fun hp => {| n_trace := t; n_port := hp; n_loc := loc |}) ports ++ rest) n (d ++ [(loc, w)]) =
  run rnd step g ws rest (if t then n else (n + List.length ports)%nat) (d ++ [(loc, if t then DTrace (traced step g ws) else DAcq (rnd (n + (List.length ports - 1))%nat))]).
Proof.
  intros HT. induction ports as [|hp ports IH]; intros rest n d w HP Hd HE; [congruence|]. cbn [map app run]. destruct (HP hp (or_introl eq_refl)) as [H1 H2].
  rewrite plain_location by exact H1. cbn [bind n_trace n_port]. rewrite H2, orb_false_r. assert (HP' : plain ports) by (intros x Hx; apply HP; right; exact Hx).
  rewrite !put_loc_last by exact Hd. destruct t.
  - assert (HS : forall X Y : result (list (nat * data)), match ws, step with _ :: _, O => X | _, _ => Y end = Y) by (intros X Y; destruct ws; [destruct step; reflexivity|destruct step; [destruct (HT eq_refl); congruence|reflexivity]]).
    rewrite HS. destruct ports as [|hp' ports]; [reflexivity|]. apply IH; [exact HP'|exact Hd|discriminate].
  - destruct ports as [|hp' ports].
    + cbn [map app List.length]. rewrite Nat.sub_diag, Nat.add_0_r, Nat.add_1_r. reflexivity.
    + rewrite IH by (assumption || discriminate). cbn [List.length]. replace (S n + (S (List.length ports) - 1))%nat with (n + (S (S (List.length ports)) - 1))%nat by lia. replace (S n + S (List.length ports))%nat with (n + S (S (List.length ports)))%nat by lia. reflexivity.
Qed.

Lemma run_first rnd step g ws t loc ports rest n d : (t = true -> ws = [] \/ step <> 0%nat) -> plain ports -> ~ In loc (map fst d) -> ports <> [] ->
  run rnd step g ws (map (fun hp => {| n_trace := t; n_port := hp; n_loc := loc |}) ports ++ rest) n d =
  run rnd step g ws rest (if t then n else (n + List.length ports)%nat) (d ++ [(loc, if t then DTrace (traced step g ws) else DAcq (rnd (n + (List.length ports - 1))%nat))]).
Proof.
  intros HT HP Hd HE. destruct ports as [|hp ports]; [congruence|]. cbn [map app run]. destruct (HP hp (or_introl eq_refl)) as [H1 H2].
  rewrite plain_location by exact H1. cbn [bind n_trace n_port]. rewrite H2, orb_false_r. assert (HP' : plain ports) by (intros x Hx; apply HP; right; exact Hx).
  rewrite !put_loc_new by exact Hd. destruct t.
  - assert (HS : forall X Y : result (list (nat * data)), match ws, step with _ :: _, O => X | _, _ => Y end = Y) by (intros X Y; destruct ws; [destruct step; reflexivity|destruct step; [destruct (HT eq_refl); congruence|reflexivity]]).
    rewrite HS. destruct ports as [|hp' ports]; [reflexivity|]. apply (run_more rnd step g ws true loc); auto. discriminate.
  - destruct ports as [|hp' ports].
    + cbn [map app List.length]. rewrite Nat.sub_diag, Nat.add_0_r, Nat.add_1_r. reflexivity.
    + rewrite (run_more rnd step g ws false loc) by (assumption || discriminate). cbn [List.length]. replace (S n + (S (List.length ports) - 1))%nat with (n + (S (S (List.length ports)) - 1))%nat by lia. replace (S n + S (List.length ports))%nat with (n + S (S (List.length ports)))%nat by lia. reflexivity.
Qed.

Lemma run_all_acqs rnd step g ws ports : plain ports -> ports <> [] -> forall N n d,
  ((exists x, In x N /\ is_trace (fst x) = true) -> ws = [] \/ step <> 0%nat) ->
  NoDup (map snd N) -> (forall x, In x N -> ~ In (snd x) (map fst d)) ->
  run rnd step g ws (instrs ports N) n d = Ok (d ++ results (traced step g ws) rnd (List.length ports) N n).
Proof.
  intros HP HE. induction N as [|[a loc] N IH]; intros n d HT HN HD; [cbn; rewrite app_nil_r; reflexivity|]. cbn [instrs flat_map fst snd]. fold (instrs ports N).
  rewrite run_first; [|intros Ht; apply HT; exists (a, loc); split; [left; reflexivity|exact Ht]|exact HP|apply (HD (a, loc)); left; reflexivity|exact HE].
  cbn [map snd] in HN. inversion HN; subst. rewrite IH.
  - cbn [results fst snd]. destruct (is_trace a); rewrite <- app_assoc; reflexivity.
  - intros [x [Hx Ht]]. apply HT. exists x. split; [right; exact Hx|exact Ht].
  - assumption.
  - intros x Hx Hi. rewrite map_app, in_app_iff in Hi. destruct Hi as [Hi|[Hi|[]]]; [apply (HD x); [right; exact Hx|exact Hi]|]. cbn [fst] in Hi. apply H1. rewrite Hi. apply in_map, Hx.
Qed.

(** ** Retrieval *)
Lemma get_loc_in {V} (d : list (nat * V)) k v : NoDup (map fst d) -> In (k, v) d -> get_loc k d = Some v.
Proof.
  induction d as [|[k' v'] d IH]; intros HN Hi; [destruct Hi|]. cbn [map fst] in HN. inversion HN; subst. cbn [get_loc]. destruct Hi as [Hi|Hi].
  - injection Hi as -> ->. rewrite Nat.eqb_refl. reflexivity.
  - destruct (Nat.eqb k k') eqn:E; [apply Nat.eqb_eq in E; subst; exfalso; apply H1; apply in_map_iff; exists (k', v); auto|auto].
Qed.
Lemma results_keys tr rnd np N : forall n, map fst (results tr rnd np N n) = map snd N.
Proof. induction N as [|x N IH]; intros n; [reflexivity|]. cbn. destruct (is_trace (fst x)); cbn; rewrite IH; reflexivity. Qed.
Lemma numbered_locs l : map snd (numbered l) = seq 0 (List.length l).
Proof. unfold numbered. generalize 0%nat as st. induction l as [|a l IH]; intros st; [reflexivity|]. cbn. f_equal. apply IH. Qed.
Lemma numbered_in l x : In x (numbered l) -> In (fst x) l.
Proof. destruct x. unfold numbered. apply in_combine_l. Qed.
Lemma numbered_filter (f : acq -> bool) l : forall st, map fst (filter (fun x => f (fst x)) (combine l (seq st (List.length l)))) = filter f l.
Proof. induction l as [|a l IH]; intros st; [reflexivity|]. cbn. destruct (f a); cbn; rewrite IH; reflexivity. Qed.

Lemma traces_retrieved D ch a b rest : forall N,
  (forall x, In x N -> is_trace (fst x) = true -> get_loc (snd x) D = Some (DTrace (a :: b :: rest)) /\ exists cd, getc (i_chan (a_info (fst x))) ch = Some cd /\ d_proto cd = Trace) ->
  time_points (List.length a) = Z.of_nat (List.length a) ->
  mapM (get_trace D ch) (trace_map N) = Ok (map (fun x => (i_chan (a_info (fst x)), combine a b)) (filter (fun x => is_trace (fst x)) N)).
Proof.
  intros N HN HT. induction N as [|x N IH]; [reflexivity|]. cbn [trace_map flat_map filter]. fold (trace_map N). destruct (is_trace (fst x)) eqn:E; cbn [app mapM map].
  - destruct (HN x (or_introl eq_refl) E) as [H1 [cd [H2 H3]]]. unfold get_trace at 1. cbn [fst snd]. rewrite H2, H3, H1, HT, Z.eqb_refl. cbn [bind].
    rewrite IH by (intros; apply HN; [right|]; assumption). reflexivity.
  - apply IH. intros; apply HN; [right|]; assumption.
Qed.

Lemma bins_retrieved lab tr rnd np ch D : forall N n,
  (forall k v, In (k, v) (results tr rnd np N n) -> get_loc k D = Some v) ->
  (forall x, In x N -> is_trace (fst x) = false -> exists cd, getc (i_chan (a_info (fst x))) ch = Some cd /\ d_proto cd = SSBIntegrationComplex) ->
  let bs := filter (fun x => negb (is_trace (fst x))) N in
  mapM (get_bin D ch) (bin_map lab N) =
  Ok (combine (map (fun x => (i_chan (a_info (fst x)), index lab (fst x))) bs) (map (fun j => rnd (n + (j * np + (np - 1)))%nat) (seq 0 (List.length bs)))).
Proof.
  induction N as [|x N IH]; intros n HD HC; [reflexivity|]. cbn [bin_map flat_map filter results] in *. fold (bin_map lab N). destruct (is_trace (fst x)) eqn:E; cbn [negb app].
  - apply IH; [intros; apply HD; right; assumption|intros; apply HC; [right|]; assumption].
  - destruct (HC x (or_introl eq_refl) E) as [cd [H2 H3]]. cbn [mapM map]. unfold get_bin at 1. cbn [fst snd]. rewrite H2, H3, (HD _ _ (or_introl eq_refl)). cbn [bind].
    specialize (IH (n + np)%nat). cbv zeta in IH. rewrite IH; [|intros; apply HD; right; assumption|intros; apply HC; [right|]; assumption]. cbn [bind List.length seq map combine].
    f_equal. f_equal. f_equal. rewrite <- seq_shift, map_map. apply map_ext. intros j. f_equal. lia.
Qed.
