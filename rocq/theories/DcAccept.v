(** C60: when the corrections are applied without an exception; what is kept of every pulse. *)
From Verif Require Import Base DcModel DcSpec DcProps DcThms.
Local Open Scope string_scope.

Fixpoint depth (t : tree) : nat :=
  match t with TOp _ => 1 | TFlow b => S (depth b) | TSched l => S (fold_right Nat.max 0%nat (map (fun kt => depth (snd kt)) l)) end.

Section P.
  Variable sample : pulse -> Q -> result (list Q).
  Variable run_filter : nat -> list Q -> result (list Q).
  Variable corrections : list (string * correction).
  Let apply := apply sample run_filter corrections.

  (** every pulse keeps its port, clock, start and duration, and no pulse is added or removed *)
  Theorem C60_times_kept : forall a b, leaf_after sample run_filter corrections a b ->
    Forall2 (fun p q => pport q = pport p /\ pclock q = pclock p /\ pt0 q = pt0 p /\ pdur q == pdur p) (lpulses a) (lpulses b).
  Proof.
    intros a b [F _]. induction F as [|p q l m [[_ ->]|[[_ ->]|[_ [c [_ H]]]]] F IH]; constructor; auto; try (repeat split; reflexivity).
    destruct (corrected_keeps sample run_filter p c q H) as [A [B [C [D _]]]]. auto.
  Qed.

  (** a pulse for which the waveform, the filter and the configuration are in order *)
  Definition in_order (p : pulse) : Prop :=
    (forall c, has_correction corrections p c -> exists w x v, sample p (rate c) = Ok w /\ run_filter (filter_func c) w = Ok (x :: v)) /\
    (forall ty e, lookup (portclock p) corrections = Some (Legacy ty (Err e)) -> exists t, ty = Some t /\ t <> "software").
  Inductive all_in_order : tree -> Prop :=
    | ord_op o : (has_offset (lpulses o) \/ Forall in_order (lpulses o)) -> all_in_order (TOp o)
    | ord_flow t : all_in_order t -> all_in_order (TFlow t)
    | ord_sched ts : (forall k t, In (k, t) ts -> all_in_order t) -> all_in_order (TSched ts).

  Lemma correct_total : forall p c w x v, sample p (rate c) = Ok w -> run_filter (filter_func c) w = Ok (x :: v) -> exists q, distortion_correct_pulse sample run_filter p c = Ok q.
  Proof.
    intros p c w x v H1 H2. unfold distortion_correct_pulse. rewrite H1. cbn [bind]. rewrite H2. cbn [bind]. unfold numerical_pulse.
    match goal with |- context [linspace ?d ?n] => destruct (linspace d n) as [|f r] eqn:E; [|eauto]; exfalso; pose proof (linspace_length d n) as L; rewrite E in L; clear E end.
    destruct (clipping_values c) as [[|lo [|hi [|? ?]]]|]; destruct v; cbn in L; discriminate L.
  Qed.
  Lemma round_total : forall l o h sub i ps p, nth_error (lists h) (opulses o) = Some ps -> nth_error ps i = Some p -> has_offset ps \/ in_order p ->
    exists hs, one_pulse sample run_filter corrections l o (h, sub) i = Ok hs.
  Proof.
    intros l o h sub i ps p Hl Hi Ord. unfold one_pulse. rewrite Hl, Hi. destruct (lookup (portclock p) corrections) as [[c| |ty rc]|] eqn:L; try (now (eexists; reflexivity)).
    - destruct (correctable ps) eqn:C; cbn [negb]; [|eauto]. destruct Ord as [O|[O _]].
      { exfalso. apply offset_test in O. unfold correctable in C. destruct ps; [discriminate C|]. rewrite O in C. discriminate C. }
      destruct (O c) as [w [x [v [H1 H2]]]]; [left; exact L|]. destruct (correct_total _ _ _ _ _ H1 H2) as [q ->]. cbn. eauto.
    - destruct (correctable ps) eqn:C; cbn [negb]; [|eauto]. destruct Ord as [O|[O O']].
      { exfalso. apply offset_test in O. unfold correctable in C. destruct ps; [discriminate C|]. rewrite O in C. discriminate C. }
      destruct (match ty with Some t => t =? "software" | None => true end) eqn:T; [|eauto].
      destruct rc as [c|e].
      + destruct (O c) as [w [x [v [H1 H2]]]]; [right; exists ty; split; [exact L|]; destruct ty; [right; apply String.eqb_eq in T; congruence | now left]|].
        cbn [bind]. destruct (correct_total _ _ _ _ _ H1 H2) as [q ->]. cbn. eauto.
      + exfalso. destruct (O' ty e L) as [t [-> Nt]]. apply String.eqb_eq in T. auto.
  Qed.
  Lemma pulses_total : forall l o rest qs h sub, nth_error (lists h) (opulses o) = Some (qs ++ rest)%list -> has_offset (qs ++ rest) \/ Forall in_order rest ->
    exists hs, foldM (one_pulse sample run_filter corrections l o) (seq (List.length qs) (List.length rest)) (h, sub) = Ok hs.
  Proof.
    intros l o. induction rest as [|p rest IH]; intros qs h sub Hl Ord; [cbn; eauto|]. cbn [List.length seq foldM].
    assert (Hi : nth_error (qs ++ p :: rest) (List.length qs) = Some p) by (rewrite nth_error_app2 by lia; replace (List.length qs - List.length qs)%nat with 0%nat by lia; reflexivity).
    destruct (round_total l o h sub _ _ _ Hl Hi) as [[h1 sub1] E]; [destruct Ord as [O|O]; [now left | right; now inversion O]|]. rewrite E. cbn [bind].
    destruct (round sample run_filter corrections _ _ _ _ _ _ _ _ _ E Hl Hi) as [[El _]|[c [q [_ [No [_ [-> _]]]]]]].
    - replace (S (List.length qs)) with (List.length (qs ++ [p])) by (rewrite app_length; cbn; lia). apply IH; rewrite ?El, <- app_assoc; [exact Hl|]. destruct Ord as [O|O]; [now left | right; now inversion O].
    - replace (S (List.length qs)) with (List.length (qs ++ [q])) by (rewrite app_length; cbn; lia). apply IH.
      + cbn [set_list lists]. rewrite set_nth_same by (now apply nth_error_lt in Hl). now rewrite set_nth_app, <- app_assoc.
      + right. destruct Ord as [O|O]; [destruct (No O) | now inversion O].
  Qed.
  Lemma op_total : forall n h l o ps, nth_error (objs h) l = Some (Op o) -> nth_error (lists h) (opulses o) = Some ps -> has_offset ps \/ Forall in_order ps ->
    exists h' r, apply (S n) h l = Ok (h', r).
  Proof.
    intros n h l o ps Ho Hp Ord. unfold apply. cbn [DcModel.apply]. rewrite Ho, Hp. destruct (pulses_total l o ps [] h None Hp Ord) as [[h1 sub] E]. cbn [List.length] in E. rewrite E. cbn [bind].
    destruct sub; cbn; eauto.
  Qed.
  Definition total (n : nat) : Prop := forall h l t fp, stores h l t fp -> NoDup fp -> all_in_order t -> (depth t <= n)%nat -> exists h' r, apply n h l = Ok (h', r).
  Lemma operations_total : forall n l, total n -> forall todo ts done us h fpd fpt,
    nth_error (objs h) l = Some (Sched (done ++ todo)) -> NoDup (map fst (done ++ todo)) ->
    stores_all h done us fpd -> stores_all h todo ts fpt -> NoDup (PObj l :: fpd ++ fpt) ->
    (forall k t, In (k, t) ts -> all_in_order t /\ (depth t <= n)%nat) ->
    exists h', foldM (fun h k =>
                      match nth_error (objs h) l with
                      | Some (Sched ops) =>
                          match lookup k ops with
                          | None => Err KeyError
                          | Some m =>
                              do hr <- apply n h m;
                              let '(h, r) := hr in
                              match r with
                              | None => Ok h
                              | Some m' => match nth_error (objs h) l with Some (Sched ops) => Ok (set_obj h l (Sched (insert k m' ops))) | _ => Err OtherErr end
                              end
                          end
                      | _ => Err OtherErr
                      end) (map fst todo) h = Ok h'.
  Proof.
    intros n l T. induction todo as [|[k m] todo IH]; intros ts dn us h fpd fpt Ho Nk Sd St N Ord; [cbn; eauto|].
    set (F := fun (h : heap) (k : string) => match nth_error (objs h) l with
                      | Some (Sched ops) =>
                          match lookup k ops with
                          | None => Err KeyError
                          | Some m =>
                              do hr <- apply n h m;
                              let '(h, r) := hr in
                              match r with
                              | None => Ok h
                              | Some m' => match nth_error (objs h) l with Some (Sched ops) => Ok (set_obj h l (Sched (insert k m' ops))) | _ => Err OtherErr end
                              end
                          end
                      | _ => Err OtherErr
                      end) in *.
    inversion St as [|k0 l0 ks0 t ts0 f fs Hm Hs]; subst. pose proof N as N0. rewrite NoDup_cons_iff, !nodup_app3, !in_app_iff in N0. destruct N0 as [Nl [Nd [[Nf [Nfs Dfs]] Dd]]].
    destruct (Ord k t) as [Ot Dt]; [now left|]. destruct (T h m t f Hm Nf Ot Dt) as [h1 [r E]].
    destruct (all_good sample run_filter corrections n _ _ _ _ _ _ Hm Nf E) as [_u [_f [_ [_ [_ [_ [Fr _]]]]]]].
    assert (Al : ~ fresh_for h (PObj l)) by (apply nth_error_lt in Ho; cbn; lia). assert (Sl : same_at h h1 (PObj l)) by (apply Fr; auto). cbn in Sl.
    assert (E1 : exists h2, F h k = Ok h2).
    { unfold F. rewrite Ho, (lookup_mid _ _ _ _ Nk), E. cbn [bind]. destruct r; [rewrite Sl, Ho|]; eauto. }
    destruct E1 as [h2 E1]. cbn [map fst foldM]. rewrite E1. cbn [bind].
    (* the state after one round, from the loop lemma on the one-element list *)
    assert (St1 : stores_all h [(k, m)] [(k, t)] (f ++ [])) by (constructor; [exact Hm | constructor]).
    assert (X : exists m2 u f', nth_error (objs h2) l = Some (Sched ((dn ++ [(k, m2)]) ++ todo)) /\ stores_all h2 (dn ++ [(k, m2)]) (us ++ [(k, u)]) (fpd ++ f') /\
       stores_all h2 todo ts0 fs /\ NoDup (PObj l :: (fpd ++ f') ++ fs)).
    { clear IH. destruct (all_good sample run_filter corrections n _ _ _ _ _ _ Hm Nf E) as [u [f' [Su [_ [Nf' [In' [_ [L1 L2]]]]]]]].
      assert (Ks : forall x, In x fpd \/ In x fs -> same_at h h1 x).
      { intros x [Hx|Hx]; apply Fr; [intros Q; apply (Dd x Hx); apply in_or_app; now left | exact (allocated_all _ _ _ _ Sd x Hx) | intros Q; exact (Dfs x Q Hx) | exact (allocated_all _ _ _ _ Hs x Hx)]. }
      assert (HH : exists m2, nth_error (objs h2) l = Some (Sched ((dn ++ [(k, m2)]) ++ todo)) /\ m2 = returned m r /\ (forall x, x <> PObj l -> same_at h1 h2 x)).
      { unfold F in E1. rewrite Ho, (lookup_mid _ _ _ _ Nk), E in E1. cbn [bind] in E1. destruct r as [m'|]; cbn [returned].
        - rewrite Sl, Ho in E1. injection E1 as <-. exists m'. cbn [set_obj objs]. assert (Lo : (l < List.length (objs h1))%nat) by (apply (nth_error_lt _ _ _ _ (eq_trans Sl Ho))). rewrite set_nth_same by exact Lo. rewrite (insert_mid _ _ _ _ _ Nk), <- app_assoc.
          repeat (split; [reflexivity|]). intros [x|x] Hx; cbn; [apply set_nth_other; congruence | reflexivity].
        - injection E1 as <-. exists m. rewrite <- app_assoc, Sl. repeat (split; [assumption || reflexivity|]). intros [x|x] _; reflexivity. }
      destruct HH as [m2 [Ho2 [Em2 K2]]]. exists m2, u, f'. split; [exact Ho2|].
      assert (Nl' : ~ In (PObj l) f') by (intros Q; destruct (In' _ Q) as [Q'|Q']; [apply Nl; right; now left | auto]).
      assert (K3 : forall x, In x fpd \/ In x fs -> same_at h h2 x).
      { intros x Hx. assert (x <> PObj l) by (intros ->; apply Nl; tauto). specialize (Ks x Hx). specialize (K2 x H). destruct x; cbn in *; congruence. }
      assert (Df : forall x, In x f' -> ~ In x fpd /\ ~ In x fs).
      { intros x Hx. destruct (In' x Hx) as [Q|Q]; split; intros R.
        - apply (Dd x R). apply in_or_app. now left.
        - exact (Dfs x Q R).
        - exact (allocated_all _ _ _ _ Sd x R Q).
        - exact (allocated_all _ _ _ _ Hs x R Q). }
      split; [|split].
      - apply stores_all_app; [eapply stores_all_kept; [exact Sd | auto]|]. rewrite Em2. eapply stores_kept; [exact Su|]. intros x Hx. apply K2. intros ->. auto.
      - eapply stores_all_kept; [exact Hs | auto].
      - rewrite NoDup_cons_iff, !nodup_app3, !in_app_iff. split; [tauto|]. split; [split; [exact Nd|split; [exact Nf'|]]|split; [exact Nfs|]].
        + intros x Hx Q. now destruct (Df x Q).
        + intros x Hx Q. apply in_app_or in Hx. destruct Hx as [Hx|Hx]; [apply (Dd x Hx); apply in_or_app; now right | now destruct (Df x Hx)]. }
    destruct X as [m2 [u [f' [Ho2 [Sd2 [Ss2 N2]]]]]]. apply (IH ts0 (dn ++ [(k, m2)])%list (us ++ [(k, u)])%list h2 (fpd ++ f')%list fs Ho2); auto.
    - assert (Kn : map fst ((dn ++ [(k, m2)]) ++ todo) = map fst (dn ++ (k, m) :: todo)) by (rewrite <- app_assoc, !map_app; reflexivity). now rewrite Kn.
    - intros k' t' Hk. apply (Ord k'). now right.
  Qed.
  Lemma depth_in : forall k t ts, In (k, t) ts -> (depth t <= fold_right Nat.max 0%nat (map (fun kt : string * tree => depth (snd kt)) ts))%nat.
  Proof. induction ts as [|[k' t'] ts IH]; cbn; [easy|]. intros [E|H]; [injection E as _ <-; lia | specialize (IH H); lia]. Qed.

  (** No exception: every schedule in which no object occurs twice, when the waveforms and filters give at least one sample for every pulse to be corrected. *)
  Theorem C60_applies : forall n h l t fp, stores h l t fp -> unshared fp -> all_in_order t -> (depth t <= n)%nat -> exists h' r, apply n h l = Ok (h', r).
  Proof.
    induction n as [|n IH]; intros h l t fp S N Ord D; [destruct t; cbn in D; lia|]. inversion S as [l0 o ps Ho Hp|l0 b t0 fp0 Ho Sb|l0 ks ts fp0 Ho Nk Ss]; subst.
    - eapply op_total; eauto. inversion Ord as [o0 Q| |]; subst. exact Q.
    - inversion Ord; subst. unfold apply. cbn [DcModel.apply]. rewrite Ho. inversion N; subst. destruct (IH h b t0 fp0 Sb) as [h1 [r E]]; auto; [cbn in D; lia|]. unfold apply in E. rewrite E. cbn [bind]. destruct r; eauto.
    - unfold apply. cbn [DcModel.apply]. rewrite Ho. inversion Ord as [| |ts' Q]; subst.
      destruct (operations_total n l IH ks ts [] [] h [] fp0 Ho Nk (all_nil h) Ss N) as [h' E].
      + intros k t Hk. split; [eauto|]. cbn in D. pose proof (depth_in k t ts Hk). lia.
      + unfold apply in E. rewrite E. cbn. eauto.
  Qed.
End P.
