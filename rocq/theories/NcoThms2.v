(** C65: distances between updates, and the frequency in force. *)
From Verif Require Import Base QSort NumericModel NumericProps DevModel FreqModel NcoModel NcoSpec NcoProps NcoThms PathProps2 OvProps.
Local Open Scope Q_scope.
Local Open Scope string_scope.

Fixpoint spaced (P : info -> bool) (last : option Z) (l : list info) : Prop :=
  match l with
  | [] => True
  | o :: r => if P o then match last with Some t => (t + 4 <= py_round (i_time o))%Z | None => True end /\ spaced P (Some (py_round (i_time o))) r else spaced P last r
  end.
Lemma check_iff : forall l a b, (exists x, foldM check_op l (a, b) = Ok x) <-> spaced is_freq a l /\ spaced is_phase b l.
Proof.
  induction l as [|o l IH]; intros a b; cbn [foldM spaced].
  - split; [intros _; split; exact I|intros _; eexists; reflexivity].
  - unfold check_op at 1. cbn [fst snd]. unfold check_timing.
    assert (X : forall t l, (t - l <? 4)%Z = false <-> (l + 4 <= t)%Z) by (intros; rewrite Z.ltb_ge; lia).
    destruct (is_freq o) eqn:F; destruct (is_phase o) eqn:P; try (unfold is_freq, is_phase in F, P; destruct (what (i_pulse o)); discriminate).
    + destruct a as [t|]; cbn [bind].
      * destruct (_ <? 4)%Z eqn:E; cbn [bind]; [|rewrite IH; apply X in E; tauto]. split; [intros [x H]; discriminate|]. intros [[H _] _]. apply X in H. congruence.
      * rewrite IH. tauto.
    + destruct b as [t|]; cbn [bind].
      * destruct (_ <? 4)%Z eqn:E; cbn [bind]; [|rewrite IH; apply X in E; tauto]. split; [intros [x H]; discriminate|]. intros [_ [H _]]. apply X in H. congruence.
      * rewrite IH. tauto.
    + cbn [bind]. apply IH.
Qed.
Lemma spaced_after P : forall l t o, spaced P (Some t) l -> In o l -> P o = true -> (t + 4 <= py_round (i_time o))%Z.
Proof.
  induction l as [|x l IH]; intros t o S I E; [destruct I|]. cbn [spaced] in S. destruct I as [->|I].
  - rewrite E in S. tauto.
  - destruct (P x); [|eauto]. destruct S as [S1 S2]. specialize (IH _ _ S2 I E). lia.
Qed.
Lemma spaced_weaken P : forall l t, spaced P t l -> spaced P None l.
Proof. induction l as [|x l IH]; intros t S; cbn [spaced] in *; [exact I|]. destruct (P x); [tauto|eauto]. Qed.
Lemma emit_small h o l : emit h o = Ok l -> (l = [] \/ exists x, l = [x] /\ ((is_set_freq x <-> is_freq o = true) /\ (is_phase_ins x <-> is_phase o = true))).
Proof.
  unfold emit, is_freq, is_phase, is_set_freq, is_phase_ins. destruct (what (i_pulse o)) as [new old|deg| |]; intros H.
  - destruct old as [f|]; [|discriminate]. destruct (h _) as [i|]; [|discriminate]. binv H z E. injection H as <-. right. eexists. split; [reflexivity|]. cbn [snd]. split; split; intros Y; eauto; try discriminate. destruct Y as [Y|[? Y]]; discriminate.
  - injection H as <-. destruct (Qeq_bool deg 0); [left; reflexivity|]. right. eexists. split; [reflexivity|]. cbn [snd]. split; split; intros Y; eauto; try discriminate. destruct Y as [? Y]; discriminate.
  - injection H as <-. right. eexists. split; [reflexivity|]. cbn [snd]. split; split; intros Y; eauto; try discriminate. destruct Y as [? Y]; discriminate.
  - injection H as <-. left. reflexivity.
Qed.
Lemma emit_apart h P Q : (forall o x l, emit h o = Ok l -> In x l -> (Q x <-> P o = true)) -> forall l ls, spaced P None l -> mapM (emit h) l = Ok ls -> apart Q (List.concat ls).
Proof.
  intros PQ. induction l as [|o l IH]; intros ls S M; cbn [mapM] in M.
  - injection M as <-. exact I.
  - binv M x E. binv M xs M'. injection M as <-. cbn [List.concat]. assert (S' : spaced P None l) by (cbn [spaced] in S; destruct (P o); [destruct S as [_ S]; exact (spaced_weaken _ _ _ S)|exact S]).
    destruct (emit_small _ _ _ E) as [->|[y [-> _]]]; [exact (IH _ S' M')|]. cbn [app apart]. split; [|exact (IH _ S' M')].
    intros Qy w Iw Qw. apply in_concat in Iw. destruct Iw as [k [Ik Iw]]. apply (mapM_in _ _ _ M') in Ik. destruct Ik as [o' [Io' E']].
    apply (PQ _ _ _ E (or_introl eq_refl)) in Qy. apply (PQ _ _ _ E' Iw) in Qw. rewrite (emit_time _ _ _ _ E' Iw), (emit_time _ _ _ _ E (or_introl eq_refl)).
    cbn [spaced] in S. rewrite Qy in S. destruct S as [_ S]. eapply spaced_after; eauto.
Qed.

Lemma compile_inv i ss progs : compile i ss = Ok progs -> exists infos h, assign (add_old [] i) ss = Ok infos /\ foldM (prepare infos) ss (fun _ => None) = Ok h /\ mapM (program infos h) ss = Ok progs.
Proof. intros H. unfold compile in H. binv H infos HA. binv H h HP. eauto 10. Qed.
Lemma mapM_nthN {A B} (f : A -> result B) : forall l r k x y, mapM f l = Ok r -> nth_error l k = Some x -> nth_error r k = Some y -> f x = Ok y.
Proof.
  induction l as [|a l IH]; intros r [|k] x y M K R; cbn in K; try discriminate; cbn [mapM] in M; binv M b E; binv M bs M'; injection M as <-; cbn in R; [congruence|eauto].
Qed.

(** Frequency changes of one NCO are at least 4 ns apart, and so are changes of its phase. *)
Theorem C65_spacing : forall i ss progs k s prog, compile i ss = Ok progs -> nth_error ss k = Some s -> nth_error progs k = Some prog ->
  apart is_set_freq prog /\ apart is_phase_ins prog.
Proof.
  intros i ss progs k s prog H Ks Kp. apply compile_inv in H. destruct H as [infos [h [HA [HP M]]]]. pose proof (mapM_nthN _ _ _ _ _ _ M Ks Kp) as PR. unfold program in PR. binv PR ls E. injection PR as <-.
  apply prepare_all in HP. destruct HP as [HC _]. destruct (HC s (nth_error_In _ _ Ks)) as [x C]. destruct (proj1 (check_iff _ None None) (ex_intro _ x C)) as [S1 S2]. split.
  - refine (emit_apart h is_freq is_set_freq _ _ _ S1 E). intros o y l Eo Iy. destruct (emit_small _ _ _ Eo) as [->|[w [-> [W _]]]]; [destruct Iy|]. destruct Iy as [<-|[]]. exact W.
  - refine (emit_apart h is_phase is_phase_ins _ _ _ S2 E). intros o y l Eo Iy. destruct (emit_small _ _ _ Eo) as [->|[w [-> [_ W]]]]; [destruct Iy|]. destruct Iy as [<-|[]]. exact W.
Qed.

(** ** One frequency for a clock: then the frequency that is played is the new frequency of the clock, up to an eighth of a hertz *)
(** Every sequencer of the clock has the NCO frequency [i0], and the mixer adds [lo]: clock = lo + i0 *)
Theorem C65_new_frequency : forall i ss progs k s prog r n p t f new old i0 lo, compile i ss = Ok progs -> one_owner i -> freq_named i ->
  nth_error ss k = Some s -> nth_error progs k = Some prog ->
  occ i r n p t -> clock p = q_clock s -> what p = KFreq new old -> lookup (clock p) r = Some (Some f) ->
  (forall s', In s' ss -> q_clock s' = q_clock s -> q_freq s' = Some i0) -> lo + i0 == f ->
  exists z w, starts t p z /\ In (z, SetFreq w) prog /\ Qabs (lo + inject_Z w / 4 - (match new with Some n => n | None => f end)) <= 1 # 8.
Proof.
  intros i ss progs k s prog r n p t f new old i0 lo H OW FN Ks Kp O C W LK U LO. destruct (C65_instructions _ _ _ H OW FN) as [_ T]. destruct (T _ _ _ Ks Kp) as [_ [_ T3]].
  destruct (T3 _ _ _ _ O C) as [z [ins [s' [S [L [A I]]]]]]; [unfold acts; now rewrite W|]. unfold asks in A. rewrite W in A. destruct A as [f' [i' [w [L' [Q' [-> [F _]]]]]]].
  rewrite LK in L'. injection L' as <-. destruct L as [l1 [l2 [-> [C' _]]]]. rewrite (U s') in Q'; [|apply in_or_app; right; left; reflexivity|exact C']. injection Q' as <-.
  exists z, w. split; [exact S|]. split; [exact I|]. apply Qabs_Qle_condition in F. apply Qabs_Qle_condition. destruct new; lra.
Qed.

(** ** The frequency in force *)
Lemma fold_none f0 t : forall l, (forall x, In x l -> is_set_freq x -> t < inject_Z (fst x)) -> in_force f0 l t = f0.
Proof.
  unfold in_force. revert f0. intros f0 l. revert f0. induction l as [|x l IH]; intros f0 H; [reflexivity|]. cbn [fold_left].
  assert (X : match snd x with SetFreq z => if Qle_bool (inject_Z (fst x)) t then inject_Z z / 4 else f0 | _ => f0 end = f0).
  { destruct (snd x) eqn:E; try reflexivity. destruct (Qle_bool _ t) eqn:L; [|reflexivity]. apply Qle_bool_iff in L. specialize (H x (or_introl eq_refl) (ex_intro _ _ E)). lra. }
  rewrite X. apply IH. intros y Iy. apply H. right. exact Iy.
Qed.
Lemma in_force_app f0 a b t : in_force f0 (a ++ b)%list t = in_force (in_force f0 a t) b t. Proof. apply fold_left_app. Qed.
(** From a frequency change on, until the next one, the NCO has the frequency that this change sets, whatever was set before: changes do not add up. *)
Theorem C65_in_force : forall i ss progs k s prog f0 z w t, compile i ss = Ok progs -> nth_error ss k = Some s -> nth_error progs k = Some prog ->
  In (z, SetFreq w) prog -> inject_Z z <= t -> (forall z' w', In (z', SetFreq w') prog -> (z < z')%Z -> t < inject_Z z') ->
  in_force f0 prog t = inject_Z w / 4.
Proof.
  intros i ss progs k s prog f0 z w t H Ks Kp I L N. destruct (C65_spacing _ _ _ _ _ _ H Ks Kp) as [SP _]. apply in_split in I. destruct I as [l1 [l2 ->]].
  assert (SP2 : apart is_set_freq ((z, SetFreq w) :: l2)). { clear - SP. induction l1 as [|x l1 IH]; [exact SP|]. apply IH. cbn [app apart] in SP. tauto. }
  rewrite in_force_app. assert (X : in_force (in_force f0 l1 t) ((z, SetFreq w) :: l2) t = in_force (inject_Z w / 4) l2 t).
  { unfold in_force at 1 3. cbn [fold_left snd fst]. apply Qle_bool_iff in L. rewrite L. reflexivity. }
  rewrite X. apply fold_none. intros y Iy [w' Ey]. destruct SP2 as [SP2 _]. specialize (SP2 (ex_intro _ w eq_refl) y Iy (ex_intro _ w' Ey)). cbn [fst] in SP2.
  destruct y as [z' ins]. cbn [fst snd] in *. subst ins. apply (N z' w'); [|lia]. apply in_or_app. right. right. exact Iy.
Qed.
(** Before the first change it has the frequency it had *)
Theorem C65_before : forall f0 prog t, (forall z w, In (z, SetFreq w) prog -> t < inject_Z z) -> in_force f0 prog t = f0.
Proof. intros f0 prog t H. apply fold_none. intros [z ins] I [w E]. cbn in *. subst ins. eapply H; eauto. Qed.
