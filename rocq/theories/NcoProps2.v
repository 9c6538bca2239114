(** The infos, with multiplicity. *)
From Verif Require Import Base QSort NumericModel NumericProps DevModel NcoModel NcoSpec NcoProps NcoThms NcoThms2 PathProps2 OvProps.
From Coq Require Import Permutation.
Local Open Scope Q_scope.
Local Open Scope string_scope.

Notation ent := (list (string * option Q) * string * pulse * Q)%type.
Definition mk (e : ent) : info := let '(r, n, p, t) := e in {| i_name := n; i_time := inject_Z (py_round t) + t0 p; i_pulse := set_old r p |}.
Definition infos_of (x : Z * (string * list pulse)) : list info := map (fun p => {| i_name := fst (snd x); i_time := inject_Z (fst x) + t0 p; i_pulse := p |}) (snd (snd x)).

Lemma entries_at : forall i rs t r n p t', In (r, n, p, t') (entries rs i t) <-> exists ps, op_at rs i t r n ps t' /\ In p ps.
Proof.
  induction i as [n0 ps0|b IH|rs0 l IH] using item_rec'; intros rs t r n p t'; cbn [entries].
  - rewrite in_map_iff. split.
    + intros [p0 [E I]]. injection E as -> -> -> ->. exists ps0. split; [constructor|exact I].
    + intros [ps [O I]]. inversion O; subst. exists p. auto.
  - rewrite IH. setoid_rewrite at_flow_inv. reflexivity.
  - rewrite in_flat_map. split.
    + intros [[d b] [I E]]. cbn [fst snd] in E. apply (IH _ _ I) in E. destruct E as [ps [O Ip]]. exists ps. split; [|exact Ip]. apply at_sched_inv. eauto.
    + intros [ps [O Ip]]. rewrite at_sched_inv in O. destruct O as [d [b [I O]]]. exists (d, b). split; [exact I|]. cbn [fst snd]. apply (IH _ _ I). eauto.
Qed.
Lemma occ_entries i r n p t : occ i r n p t <-> In (r, n, p, t) (entries [] i 0). Proof. symmetry. apply entries_at. Qed.

Lemma flatten_entries : forall i rs t l, flatten (add_old rs i) t = Ok l -> flat_map infos_of l = map mk (entries rs i t).
Proof.
  induction i as [n0 ps0|b IH|rs0 l0 IH] using item_rec'; intros rs t l H; cbn [add_old] in H.
  - cbn [flatten] in H. binv H z E. apply grid1_round in E. injection H as <-. cbn [flat_map entries]. rewrite app_nil_r. unfold infos_of. cbn [fst snd]. rewrite !map_map. apply map_ext. intros p. unfold mk. rewrite E, set_old_t0. reflexivity.
  - cbn [flatten] in H. exact (IH _ _ _ H).
  - rewrite flatten_sched in H. binv H xs M. injection H as <-. cbn [entries]. revert xs M. induction l0 as [|[d b] l0 IHl]; intros xs M; cbn [map mapM fst snd] in M.
    + injection M as <-. reflexivity.
    + binv M x E. binv M ys M'. injection M as <-. cbn [List.concat flat_map fst snd]. rewrite flat_map_app, map_app. f_equal.
      * apply (IH d b (or_introl eq_refl)). exact E.
      * apply IHl; [intros d' b' I'; exact (IH d' b' (or_intror I'))|exact M'].
Qed.
Lemma assign_op_infos ss x l : assign_op ss x = Ok l -> l = infos_of x.
Proof.
  unfold assign_op, infos_of. destruct x as [z [n ps]]. cbn [fst snd]. revert l. induction ps as [|p ps IH]; intros l M; cbn [mapM] in M; [injection M as <-; reflexivity|].
  binv M o E. binv M os M'. injection M as <-. apply assign_pulse_inv in E. destruct E as [-> _]. cbn [map]. f_equal. auto.
Qed.
Lemma infos_perm i ss infos : assign (add_old [] i) ss = Ok infos -> Permutation infos (map mk (entries [] i 0)).
Proof.
  intros H. unfold assign in H. binv H ops F. binv H xs M. injection H as <-. rewrite <- (flatten_entries _ _ _ _ F).
  transitivity (flat_map infos_of (sortq (fun x => inject_Z (fst x)) ops)); [|apply Permutation_flat_map, sortq_perm].
  clear - M. revert xs M. induction (sortq (fun x => inject_Z (fst x)) ops) as [|x l IH]; intros xs M; cbn [mapM] in M; [injection M as <-; reflexivity|].
  binv M y E. binv M ys M'. injection M as <-. cbn [List.concat flat_map]. apply assign_op_infos in E. subst y. apply Permutation_app_head. auto.
Qed.

Lemma fop_perm {A} (R : A -> A -> Prop) : (forall a b, R a b -> R b a) -> forall l l', Permutation l l' -> ForallOrdPairs R l -> ForallOrdPairs R l'.
Proof.
  intros SY l l' PP. induction PP as [|x l l' PP IH|x y l|l l' l'' P1 IH1 P2 IH2]; intros H.
  - constructor.
  - inversion H as [|? ? F1 F2]; subst. constructor; [|auto]. eapply Permutation_Forall; eauto.
  - inversion H as [|? ? F1 F2]; subst. inversion F2 as [|? ? F3 F4]; subst. inversion F1; subst. constructor; [constructor; auto|]. constructor; auto.
  - auto.
Qed.
Lemma perm_filter {A} (f : A -> bool) l l' : Permutation l l' -> Permutation (filter f l) (filter f l').
Proof. induction 1; cbn [filter]; [constructor|destruct (f x); [now constructor|exact IHPermutation]|destruct (f x), (f y); try reflexivity; constructor|etransitivity; eauto]. Qed.
Lemma filter_map_ext {A B} (g : A -> B) (f : B -> bool) (f' : A -> bool) l : (forall x, f (g x) = f' x) -> filter f (map g l) = map g (filter f' l).
Proof. intros E. induction l as [|x l IH]; [reflexivity|]. cbn [map filter]. rewrite E, IH. destruct (f' x); reflexivity. Qed.
Lemma filter_filterN {A} (f g : A -> bool) l : filter f (filter g l) = filter (fun x => g x && f x) l.
Proof. induction l as [|x l IH]; [reflexivity|]. cbn [filter]. destruct (g x); cbn [filter andb]; rewrite IH; reflexivity. Qed.
Lemma sorted_spaced P : forall l, srtq (fun o => inject_Z (py_round (i_time o))) l -> ForallOrdPairs (fun a b => (4 <= Z.abs (a - b))%Z) (map (fun o => py_round (i_time o)) (filter P l)) -> spaced P None l.
Proof.
  assert (G : forall l last, srtq (fun o => inject_Z (py_round (i_time o))) l -> ForallOrdPairs (fun a b => (4 <= Z.abs (a - b))%Z) (map (fun o => py_round (i_time o)) (filter P l)) ->
    (match last with Some t => forall o, In o l -> P o = true -> (t + 4 <= py_round (i_time o))%Z | None => True end) -> spaced P last l).
  { induction l as [|o l IH]; intros last S F H; cbn [spaced]; [exact I|]. destruct S as [S1 S2]. cbn [filter] in F. destruct (P o) eqn:E.
    - cbn [map] in F. inversion F; subst. split.
      + destruct last as [t|]; [|exact I]. apply H; [left; reflexivity|exact E].
      + apply IH; auto. intros o' I' E'. rewrite Forall_forall in H2, S1. specialize (H2 (py_round (i_time o')) ltac:(apply in_map_iff; exists o'; split; [reflexivity|apply filter_In; auto])). specialize (S1 _ I'). cbn beta in S1. rewrite <- Zle_Qle in S1. lia.
    - apply IH; auto. destruct last; [|exact I]. intros o' I' E'. apply H; [right; exact I'|exact E']. }
  intros l S F. exact (G l None S F I).
Qed.
Lemma spaced_fop P : forall l, spaced P None l -> ForallOrdPairs (fun a b => (4 <= Z.abs (a - b))%Z) (map (fun o => py_round (i_time o)) (filter P l)).
Proof.
  induction l as [|o l IH]; intros S; [constructor|]. cbn [spaced filter] in *. destruct (P o) eqn:E; [|auto]. destruct S as [_ S]. cbn [map]. constructor; [|apply IH; eapply spaced_weaken; eauto].
  apply Forall_forall. intros z I. apply in_map_iff in I. destruct I as [o' [<- I]]. apply filter_In in I. destruct I as [I E']. pose proof (spaced_after _ _ _ _ S I E'). lia.
Qed.
Lemma times_perm i ss infos s (P : info -> bool) (P' : string -> ent -> bool) : assign (add_old [] i) ss = Ok infos ->
  (forall e, goes (i_pulse (mk e)) s && P (mk e) = P' (q_clock s) e) ->
  Permutation (map (fun o => py_round (i_time o)) (filter P (ordered infos s))) (map ns (filter (P' (q_clock s)) (entries [] i 0))).
Proof.
  intros HA E. unfold ordered. rewrite (perm_filter P _ _ (sortq_perm _ _ _)). unfold ops_of. rewrite filter_filterN. rewrite (perm_filter _ _ _ (infos_perm _ _ _ HA)).
  rewrite (filter_map_ext mk _ (P' (q_clock s))) by exact E. rewrite map_map. apply Permutation_refl'. apply map_ext. intros [[[r n] p] t]. reflexivity.
Qed.
Lemma mk_freq s e : goes (i_pulse (mk e)) s && is_freq (mk e) = sets_freq (q_clock s) e.
Proof.
  destruct e as [[[r n] p] t]. unfold mk, is_freq, sets_freq, goes. cbn [i_pulse]. rewrite set_old_port, set_old_clock. unfold port, set_old.
  destruct (what p) eqn:W; cbn [what]; rewrite ?W, ?andb_true_r, ?andb_false_r; reflexivity.
Qed.
Lemma mk_phase s e : goes (i_pulse (mk e)) s && is_phase (mk e) = sets_phase (q_clock s) e.
Proof.
  destruct e as [[[r n] p] t]. unfold mk, is_phase, sets_phase, goes. cbn [i_pulse]. rewrite set_old_port, set_old_clock. unfold port, set_old.
  destruct (what p) eqn:W; cbn [what]; rewrite ?W, ?andb_true_r, ?andb_false_r; reflexivity.
Qed.

(** The pass refuses entries for one clock that set its frequency less than 4 ns apart, and those that set its phase. *)
Theorem C65_spacing_entries : forall i ss progs s, compile i ss = Ok progs -> In s ss ->
  four_apart (map ns (filter (sets_freq (q_clock s)) (entries [] i 0))) /\ four_apart (map ns (filter (sets_phase (q_clock s)) (entries [] i 0))).
Proof.
  intros i ss progs s H Is. apply compile_inv in H. destruct H as [infos [h [HA [HP M]]]]. apply prepare_all in HP. destruct HP as [HC _]. destruct (HC s Is) as [x C].
  destruct (proj1 (check_iff _ None None) (ex_intro _ x C)) as [S1 S2]. assert (SY : forall a b, (4 <= Z.abs (a - b))%Z -> (4 <= Z.abs (b - a))%Z) by (intros; lia). split.
  - exact (fop_perm _ SY _ _ (times_perm _ _ _ s is_freq sets_freq HA (mk_freq s)) (spaced_fop _ _ S1)).
  - exact (fop_perm _ SY _ _ (times_perm _ _ _ s is_phase sets_phase HA (mk_phase s)) (spaced_fop _ _ S2)).
Qed.

(** Every other schedule is accepted: operations and entries on the nanosecond grid, a sequencer for every port that is named, a frequency for the clock and for the NCO, and a new frequency within 500 MHz of the local oscillator. *)
Theorem C65_accepted : forall i ss, one_owner i -> freq_named i ->
  (forall r n ps t, op_at [] i 0 r n ps t -> exists z, near t z) ->
  (forall r n p t, occ i r n p t -> exists z, starts t p z) ->
  (forall r n p t pt, occ i r n p t -> what p = KOther (Some pt) -> exists s, In s ss /\ q_port s = pt /\ q_clock s = clock p) ->
  (forall s, In s ss -> four_apart (map ns (filter (sets_freq (q_clock s)) (entries [] i 0))) /\ four_apart (map ns (filter (sets_phase (q_clock s)) (entries [] i 0)))) ->
  (forall r n p t new old s, occ i r n p t -> what p = KFreq new old -> last_on (clock p) ss s ->
     exists f i0, lookup (clock p) r = Some (Some f) /\ q_freq s = Some i0 /\ Qabs (match new with Some n => i0 + (n - f) | None => i0 end) <= 500000000) ->
  exists progs, compile i ss = Ok progs.
Proof.
  intros i ss OW FN G1 G2 PT SP FR. unfold compile.
  assert (HA : exists infos, assign (add_old [] i) ss = Ok infos).
  { unfold assign. destruct (flatten_ok (add_old [] i) [] 0) as [ops F]. { intros r n ps t O. apply old_at in O. destruct O as [ps0 [O _]]. eauto. }
    rewrite F. cbn [bind]. destruct (mapM_ok_all (assign_op ss) (sortq (fun x => inject_Z (fst x)) ops)) as [xs X]; [|rewrite X; eexists; reflexivity].
    intros [z [n ps]] I. apply sortq_In in I. apply (flatten_spec _ [] _ _ F) in I. destruct I as [r [t [O N]]]. apply old_at in O. destruct O as [ps0 [O ->]].
    unfold assign_op. cbn [fst snd]. apply mapM_ok_all. intros p Ip. apply in_map_iff in Ip. destruct Ip as [p0 [<- Ip]]. eexists. apply assign_pulse_inv. split; [reflexivity|].
    assert (OC : occ i r n p0 t) by (exists ps0; auto). rewrite set_old_t0, set_old_port. split.
    - destruct (G2 _ _ _ _ OC) as [z1 [z0 [N0 N1]]]. exists z1. apply near_round in N, N0. now subst.
    - unfold port. destruct (what p0) eqn:W; try congruence. intros HP. destruct port as [pt|]; [|congruence]. destruct (PT _ _ _ _ _ OC W) as [s [Is [E1 E2]]]. exists s. split; [exact Is|].
      unfold goes. rewrite set_old_clock, set_old_port. unfold NcoModel.port. rewrite W, E1, E2, !String.eqb_refl. reflexivity. }
  destruct HA as [infos HA]. rewrite HA. cbn [bind].
  assert (SY : forall a b, (4 <= Z.abs (a - b))%Z -> (4 <= Z.abs (b - a))%Z) by (intros; lia).
  destruct (prepare_all_ok infos ss (fun _ => None)) as [h HP].
  { intros s Is. apply (check_iff _ None None). destruct (SP s Is) as [S1 S2]. split; (apply sorted_spaced; [apply sortq_srt|]).
    - exact (fop_perm _ SY _ _ (Permutation_sym (times_perm _ _ _ s is_freq sets_freq HA (mk_freq s))) S1).
    - exact (fop_perm _ SY _ _ (Permutation_sym (times_perm _ _ _ s is_phase sets_phase HA (mk_phase s))) S2). }
  rewrite HP. cbn [bind]. apply mapM_ok_all. intros s Is. unfold program. destruct (mapM_ok_all (emit h) (ordered infos s)) as [ls E]; [|rewrite E; eexists; reflexivity].
  intros o Io. apply sortq_In in Io. apply filter_In in Io. destruct Io as [Io G]. pose proof (assign_spec _ _ _ HA) as [AS _]. pose proof Io as Io'. apply AS in Io'. destruct Io' as [r [t [p [z [O [E _]]]]]].
  apply goes_clock in G. rewrite E, set_old_clock in G. destruct (last_exists (clock p) ss s Is (eq_sym G)) as [s' L]. unfold emit. rewrite E, set_old_addr.
  unfold set_old. destruct (what p) as [new old|deg| |] eqn:W; cbn [what]; rewrite ?W; try (eexists; reflexivity).
  destruct (FR _ _ _ _ _ _ _ O W L) as [f [i0 [L1 [L2 B]]]]. rewrite L1.
  rewrite (heap_last i ss infos h o r p t s' OW HA HP Io (FN _ _ _ _ _ _ O W) E O ltac:(unfold port; now rewrite W) L), L2.
  destruct (C26_frequency (match new with Some n => i0 + n - f | None => i0 end)) as [_ [X _]]. destruct X as [w X]; [|rewrite X; eexists; reflexivity].
  destruct new as [n|]; [|exact B]. assert (Y : i0 + n - f == i0 + (n - f)) by lra. rewrite Y. exact B.
Qed.
