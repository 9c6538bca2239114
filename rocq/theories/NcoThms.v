(** C65: the instructions of every sequencer. *)
From Verif Require Import Base QSort NumericModel NumericProps DevModel NcoModel NcoSpec NcoProps PathProps2 OvProps.
Local Open Scope Q_scope.
Local Open Scope string_scope.

Lemma last_exists c : forall ss s, In s ss -> q_clock s = c -> exists s', last_on c ss s'.
Proof.
  induction ss as [|x ss IH]; intros s I E; [destruct I|].
  destruct (existsb (fun y => q_clock y =? c) ss) eqn:X.
  - apply existsb_exists in X. destruct X as [y [Iy Ey]]. apply String.eqb_eq in Ey. destruct (IH y Iy Ey) as [s' [l1 [l2 [-> H]]]]. exists s', (x :: l1), l2. auto.
  - destruct I as [->|I].
    + exists s, [], ss. repeat split; auto. intros s' I' E'. assert (Y : existsb (fun y => q_clock y =? c) ss = true) by (apply existsb_exists; exists s'; split; [exact I'|now apply String.eqb_eq]). congruence.
    + assert (Y : existsb (fun y => q_clock y =? c) ss = true) by (apply existsb_exists; exists s; split; [exact I|now apply String.eqb_eq]). congruence.
Qed.
Lemma last_unique c ss s1 s2 : last_on c ss s1 -> last_on c ss s2 -> s1 = s2.
Proof.
  intros [a1 [b1 [E1 [C1 N1]]]] [a2 [b2 [E2 [C2 N2]]]]. subst ss. revert a2 E2. induction a1 as [|x a1 IH]; intros [|y a2] E; cbn in E; injection E as E0 E.
  - exact E0.
  - subst y b1. exfalso. apply (N1 s2); [apply in_or_app; right; left; reflexivity|exact C2].
  - subst x b2. exfalso. apply (N2 s1); [apply in_or_app; right; left; reflexivity|exact C1].
  - apply (IH a2 E).
Qed.

Lemma goes_clock p s : goes p s = true -> clock p = q_clock s.
Proof. unfold goes. rewrite andb_true_iff. intros [H _]. now apply String.eqb_eq. Qed.
Lemma goes_free p s : port p = None -> clock p = q_clock s -> goes p s = true.
Proof. unfold goes. intros -> ->. now rewrite String.eqb_refl. Qed.

(** the dictionary holds the frequency of the last sequencer *)
Lemma heap_last i ss infos h o r p t s' : one_owner i ->
  assign (add_old [] i) ss = Ok infos -> foldM (prepare infos) ss (fun _ => None) = Ok h ->
  In o infos -> i_name o = "SetClockFrequency" -> i_pulse o = set_old r p -> occ i r (i_name o) p t -> port p = None -> last_on (clock p) ss s' -> h (addr p) = q_freq s'.
Proof.
  intros OW A H I N E O PN [l1 [l2 [-> [C L]]]]. apply prepare_all in H. destruct H as [_ H]. rewrite H. apply assign_spec in A. destruct A as [A _].
  apply (fold_last (fun s => existsb (fun o => (i_name o =? "SetClockFrequency") && Nat.eqb (addr (i_pulse o)) (addr p)) (ops_of infos s)) q_freq).
  - apply existsb_exists. exists o. split.
    + apply filter_In. split; [exact I|]. rewrite E. apply goes_free; [now rewrite set_old_port|now rewrite set_old_clock].
    + rewrite N, E, set_old_addr, String.eqb_refl. apply Nat.eqb_refl.
  - intros s0 I0. apply not_true_iff_false. intros X. apply existsb_exists in X. destruct X as [o' [I' X]]. apply filter_In in I'. destruct I' as [I' G]. apply andb_true_iff in X. destruct X as [_ X]. apply Nat.eqb_eq in X.
    apply A in I'. destruct I' as [r' [t' [p' [z' [O' [E' _]]]]]]. rewrite E', set_old_addr in X. destruct (OW _ _ _ _ _ _ _ _ O' O X) as [_ K].
    apply goes_clock in G. rewrite E', set_old_clock in G. apply (L s0 I0). congruence.
Qed.

Lemma emit_time h o l x : emit h o = Ok l -> In x l -> fst x = py_round (i_time o).
Proof.
  unfold emit. destruct (what (i_pulse o)) as [new old|deg| |].
  - destruct old as [f|]; [|discriminate]. destruct (h _) as [i|]; [|discriminate]. intros H I. binv H z E. injection H as <-. destruct I as [<-|[]]. reflexivity.
  - intros H I. injection H as <-. destruct (Qeq_bool deg 0); [destruct I|]. destruct I as [<-|[]]. reflexivity.
  - intros H I. injection H as <-. destruct I as [<-|[]]. reflexivity.
  - intros H I. injection H as <-. destruct I.
Qed.
Lemma nco_phase_steps deg : phase_steps deg (nco_phase deg).
Proof.
  destruct (C26_phase_partial deg) as [R [t [[k A] [_ B]]]]. split; [exact R|]. exists (- k)%Z. rewrite inject_Z_opp.
  assert (X : deg - - inject_Z k * 360 == t) by lra. now rewrite X.
Qed.
Lemma emit_asks h o l r p i : emit h o = Ok l -> i_pulse o = set_old r p -> ((exists new old, what p = KFreq new old) -> h (addr p) = i) ->
  (forall x, In x l -> asks r i p (snd x)) /\ (acts p -> exists x, In x l /\ asks r i p (snd x)).
Proof.
  unfold emit, asks, acts. intros H E K. rewrite E in H. unfold set_old in H. destruct (what p) as [new old|deg| |] eqn:W.
  - cbn [what addr] in H. rewrite K in H by eauto. destruct (lookup (clock p) r) as [[f|]|]; try discriminate. destruct i as [i|]; [|discriminate]. binv H z HZ. injection H as <-.
    destruct (C26_frequency (match new with Some n => i + n - f | None => i end)) as [F _]. destruct (F z HZ) as [F1 F2].
    assert (Y : exists f0 i0 z0, Some (Some f) = Some (Some f0) /\ Some i = Some i0 /\ SetFreq z = SetFreq z0 /\ freq_steps (match new with Some n => i0 + (n - f0) | None => i0 end) z0).
    { exists f, i, z. repeat split; try tauto. destruct new as [n|]; [|exact F2]. assert (X : i + (n - f) == i + n - f) by lra. rewrite X. exact F2. }
    split; [intros x [<-|[]]; exact Y|intros _; eexists; split; [left; reflexivity|exact Y]].
  - rewrite W in H. injection H as <-. destruct (Qeq_bool deg 0) eqn:D.
    + split; [intros x []|]. intros N. destruct (N (Qeq_bool_eq _ _ D)).
    + apply Qeq_bool_neq in D. split; [intros x [<-|[]]|intros _; eexists; split; [left; reflexivity|]]; (split; [exact D|]; eexists; split; [reflexivity|apply nco_phase_steps]).
  - rewrite W in H. injection H as <-. split; [intros x [<-|[]]; reflexivity|intros _; eexists; split; [left; reflexivity|reflexivity]].
  - rewrite W in H. injection H as <-. split; [intros x []|intros []].
Qed.

Lemma in_time_app a b : in_time a -> in_time b -> (forall x y, In x a -> In y b -> (fst x <= fst y)%Z) -> in_time (a ++ b)%list.
Proof.
  induction a as [|x a IH]; cbn [in_time app]; [auto|]. intros [H1 H2] Hb H. split.
  - intros y I. apply in_app_or in I. destruct I as [I|I]; [auto|]. apply H; [left; reflexivity|exact I].
  - apply IH; auto. intros. apply H; [right; assumption|assumption].
Qed.
Lemma in_time_const l t : (forall x, In x l -> fst x = t) -> in_time l.
Proof. induction l as [|x l IH]; intros H; cbn [in_time]; [exact I|]. split; [intros y Iy; rewrite (H x), (H y); [lia|right; exact Iy|left; reflexivity]|]. apply IH. intros y Iy. apply H. right. exact Iy. Qed.
Lemma emit_sorted h : forall l ls, srtq (fun o => inject_Z (py_round (i_time o))) l -> mapM (emit h) l = Ok ls -> in_time (List.concat ls).
Proof.
  induction l as [|o l IH]; intros ls S M; cbn [mapM] in M.
  - injection M as <-. exact I.
  - binv M x E. binv M xs M'. injection M as <-. destruct S as [S1 S2]. cbn [List.concat]. apply in_time_app.
    + apply (in_time_const _ (py_round (i_time o))). intros y Iy. eapply emit_time; eauto.
    + eauto.
    + intros a b Ia Ib. rewrite (emit_time _ _ _ _ E Ia). apply in_concat in Ib. destruct Ib as [y [Iy Ib]]. apply (mapM_in _ _ _ M') in Iy. destruct Iy as [o' [Io E']]. rewrite (emit_time _ _ _ _ E' Ib).
      rewrite Forall_forall in S1. specialize (S1 _ Io). cbn beta in S1. now rewrite <- Zle_Qle in S1.
Qed.

(** The instructions of every sequencer are in the order of time; each is what an entry for its clock asks for, at its time, and every entry that asks something has an instruction.
    The frequency that is changed is that of the LAST sequencer with the clock. *)
Theorem C65_instructions : forall i ss progs, compile i ss = Ok progs -> one_owner i -> freq_named i ->
  List.length progs = List.length ss /\
  forall k s prog, nth_error ss k = Some s -> nth_error progs k = Some prog ->
    in_time prog /\
    (forall z ins, In (z, ins) prog -> exists r n p t s', occ i r n p t /\ starts t p z /\ clock p = q_clock s /\ last_on (q_clock s) ss s' /\ asks r (q_freq s') p ins) /\
    (forall r n p t, occ i r n p t -> clock p = q_clock s -> acts p -> exists z ins s', starts t p z /\ last_on (q_clock s) ss s' /\ asks r (q_freq s') p ins /\ In (z, ins) prog).
Proof.
  intros i ss progs H OW FN. unfold compile in H. binv H infos A. binv H h P.
  assert (LEN : List.length progs = List.length ss). { clear - H. revert progs H. induction ss as [|s ss IH]; intros progs H; cbn [mapM] in H; [injection H as <-; reflexivity|]. binv H x X. binv H xs M. injection H as <-. cbn. f_equal. auto. }
  split; [exact LEN|]. intros k s prog Ks Kp.
  assert (PR : program infos h s = Ok prog).
  { clear - H Ks Kp. revert progs k Kp Ks H. induction ss as [|x ss IH]; intros progs [|k] Kp Ks H; cbn in Ks; try discriminate; cbn [mapM] in H; binv H y X; binv H ys M; injection H as <-; cbn in Kp.
    - congruence.
    - eauto. }
  assert (Is : In s ss) by (eapply nth_error_In; eauto).
  pose proof (assign_spec _ _ _ A) as [AS AG]. unfold program in PR. binv PR ls M. injection PR as <-.
  destruct (last_exists (q_clock s) ss s Is eq_refl) as [s' L].
  assert (KEY : forall o l r t p, In o (ordered infos s) -> emit h o = Ok l -> occ i r (i_name o) p t -> i_pulse o = set_old r p -> 
           (forall x, In x l -> asks r (q_freq s') p (snd x)) /\ (acts p -> exists x, In x l /\ asks r (q_freq s') p (snd x))).
  { intros o l r t p Io Eo O E. apply sortq_In in Io. apply filter_In in Io. destruct Io as [Io G]. apply (emit_asks h o l r p _ Eo E).
    intros [new [old W]]. eapply heap_last; eauto; [unfold port; now rewrite W|]. apply goes_clock in G. rewrite E, set_old_clock in G. rewrite G. exact L. }
  split; [|split].
  - eapply emit_sorted; [apply sortq_srt|exact M].
  - intros z ins I. apply in_concat in I. destruct I as [l [Il I]]. apply (mapM_in _ _ _ M) in Il. destruct Il as [o [Io Eo]].
    pose proof Io as Io'. apply sortq_In in Io'. apply filter_In in Io'. destruct Io' as [Io' G]. destruct (AG _ Io') as [[zt NT] _]. pose proof Io' as X. apply AS in X. destruct X as [r [t [p [z0 [O [E [N T]]]]]]].
    exists r, (i_name o), p, t, s'. split; [exact O|]. split; [|split; [|split]].
    + exists z0. split; [exact N|]. rewrite <- T. pose proof (emit_time _ _ _ _ Eo I) as ET. cbn [fst] in ET. rewrite (near_round _ _ NT) in ET. now subst.
    + apply goes_clock in G. now rewrite E, set_old_clock in G.
    + exact L.
    + destruct (KEY o l r t p Io Eo O E) as [K _]. apply (K _ I).
  - intros r n p t O C AC. 
    destruct O as [ps [O Ip]].
    unfold assign in A. binv A ops F. binv A xs M'. injection A as <-.
    assert (NZ : exists z, near t z). { destruct (flatten_near i [] 0 ops F _ _ _ _ O) as [z NZ]. eauto. }
    destruct NZ as [z0 N].
    set (o := {| i_name := n; i_time := inject_Z z0 + t0 p; i_pulse := set_old r p |}).
    assert (Io : In o (List.concat xs)). { apply AS. exists r, t, p, z0. repeat split; auto. exists ps. auto. }
    assert (PN : port p = None) by (unfold port, acts in *; destruct (what p); tauto).
    assert (Iord : In o (ordered (List.concat xs) s)). { apply sortq_In, filter_In. split; [exact Io|]. apply goes_free; cbn; [now rewrite set_old_port|now rewrite set_old_clock]. }
    destruct (mapM_ok_in _ _ _ _ M Iord) as [l [El Il]]. destruct (KEY o l r t p Iord El (ex_intro _ ps (conj O Ip)) eq_refl) as [_ K]. destruct (K AC) as [[z ins] [Ix Ax]].
    destruct (AG _ Io) as [[zt NT] _]. pose proof (emit_time _ _ _ _ El Ix) as ET. cbn [fst] in ET. rewrite (near_round _ _ NT) in ET. subst z.
    exists zt, ins, s'. split; [exists z0; split; [exact N|exact NT]|]. split; [exact L|]. split; [exact Ax|]. apply in_concat. eauto.
Qed.
