(** C70: mixer offsets, attenuations, scope acquisitions. *)
From Verif Require Import Base CircModel PathModel OptModel OptSpec OptThms.
From Coq Require Import Ascii.
Local Open Scope string_scope.
Local Open Scope list_scope.
Local Open Scope Z_scope.

Lemma foldM_app2 {A B} (f : B -> A -> result B) l1 l2 b : foldM f (l1 ++ l2) b = bind (foldM f l1 b) (foldM f l2).
Proof. revert b. induction l1 as [|x l IH]; intros b; cbn [app foldM]; [reflexivity|]. destruct (f b x); cbn [bind]; auto. Qed.

(** ** Offsets *)
Lemma calc_ok r o : metric r -> match calc_from_units_volt r o with Ok s => same_offset r s o /\ within r o | Err e => e = ValueError /\ ~ within r o end.
Proof.
  unfold metric, calc_from_units_volt, same_offset, within, in_unit. intros M. destruct o as [x|]; [|auto].
  destruct (String.eqb (b_units r) "mV") eqn:U.
  - cbn [bind]. destruct (Qlt_bool (x * (1000 # 1)) (b_min r) || Qlt_bool (b_max r) (x * (1000 # 1))) eqn:E.
    + split; [reflexivity|]. intros [H1 H2]. apply orb_true_iff in E. unfold Qlt_bool in E. rewrite !negb_true_iff in E.
      destruct E as [E|E]; apply not_true_iff_false in E; apply E; apply Qle_bool_iff; assumption.
    + split; [reflexivity|]. apply orb_false_iff in E. unfold Qlt_bool in E. rewrite !negb_false_iff, !Qle_bool_iff in E. exact E.
  - destruct M as [M|M]; [rewrite M in U; discriminate|]. rewrite M, String.eqb_refl. cbn [bind].
    destruct (Qlt_bool (x * (1 # 1)) (b_min r) || Qlt_bool (b_max r) (x * (1 # 1))) eqn:E.
    + split; [reflexivity|]. intros [H1 H2]. apply orb_true_iff in E. unfold Qlt_bool in E. rewrite !negb_true_iff in E.
      destruct E as [E|E]; apply not_true_iff_false in E; apply E; apply Qle_bool_iff; lra.
    + apply orb_false_iff in E. unfold Qlt_bool in E. rewrite !negb_false_iff, !Qle_bool_iff in E. split; [lra|lra].
Qed.

(** what the corrections of a port-clock make of the settings of its output *)
Definition set_by (r : bounded) (m : mixer) (s : chset) : Prop := same_offset r (o_i s) (m_i m) /\ same_offset r (o_q s) (m_q m) /\ o_cal s = m_cal m.
Definition fits_range (r : bounded) (m : mixer) : Prop := within r (m_i m) /\ within r (m_q m).
Definition corrects (mix : dict mixer) (label : string) (pc : string) (p : path) : Prop := p_ch p = label /\ get mix pc <> None.

Lemma offset_step_cases r mix label s pc p : metric r ->
  (exists m, p_ch p = label /\ get mix pc = Some m /\
     ((fits_range r m /\ exists s', offset_step r (Some mix) label s (pc, p) = Ok s' /\ set_by r m s') \/ (~ fits_range r m /\ offset_step r (Some mix) label s (pc, p) = Err ValueError))) \/
  (~ corrects mix label pc p /\ offset_step r (Some mix) label s (pc, p) = Ok s).
Proof.
  intros M. unfold offset_step, corrects. destruct (String.eqb_spec label (p_ch p)) as [E|E].
  - destruct (get mix pc) as [m|]; [|right; split; [intros [_ H]; congruence|reflexivity]]. left. exists m. split; [auto|]. split; [reflexivity|].
    pose proof (calc_ok r (m_i m) M) as C1. pose proof (calc_ok r (m_q m) M) as C2. unfold fits_range, set_by.
    destruct (calc_from_units_volt r (m_i m)); cbn [bind]; [|destruct C1 as [-> C1]; right; tauto].
    destruct (calc_from_units_volt r (m_q m)); cbn [bind]; [|destruct C2 as [-> C2]; right; tauto].
    left. split; [tauto|]. eexists. split; [reflexivity|]. cbn. tauto.
  - right. split; [intros [H _]; congruence|reflexivity].
Qed.

Lemma offset_fold r mix label pcs s s' : metric r -> foldM (offset_step r (Some mix) label) pcs s = Ok s' ->
  (forall pc p m, In (pc, p) pcs -> p_ch p = label -> get mix pc = Some m -> fits_range r m) /\
  ((exists pc p m, last_such (corrects mix label) pcs pc p /\ get mix pc = Some m /\ set_by r m s') \/
   ((forall pc p, In (pc, p) pcs -> ~ corrects mix label pc p) /\ s' = s)).
Proof.
  intros M. revert s'. induction pcs as [|[pc p] l IH] using rev_ind; intros s' E.
  - injection E as <-. split; [intros ? ? ? []|]. right. split; [intros ? ? []|reflexivity].
  - rewrite foldM_app2 in E. destruct (foldM (offset_step r (Some mix) label) l s) as [t|]; cbn [bind foldM] in E; [|discriminate].
    destruct (IH t eq_refl) as [IH1 IH2]. destruct (offset_step_cases r mix label t pc p M) as [(m & E1 & E2 & [(F & s2 & E3 & B)|(_ & E3)])|(N & E3)]; rewrite E3 in E; cbn [bind] in E; [| discriminate |].
    + injection E as <-. split.
      * intros pc' p' m' H. apply in_app_iff in H. destruct H as [H|[H|[]]]; [now apply IH1|]. injection H as <- <-. intros _ G. congruence.
      * left. exists pc, p, m. split; [|auto]. exists l, []. split; [reflexivity|]. split; [split; [exact E1|congruence]|intros ? ? []].
    + injection E as <-. split.
      * intros pc' p' m' H. apply in_app_iff in H. destruct H as [H|[H|[]]]; [now apply IH1|]. injection H as <- <-. intros L G. exfalso. apply N. split; [exact L|congruence].
      * destruct IH2 as [(pc' & p' & m & (b & a & -> & P & A) & G & B)|[A ->]].
        -- left. exists pc', p', m. split; [|auto]. exists b, (a ++ [(pc, p)]). split; [now rewrite <- app_assoc|]. split; [exact P|].
           intros x y H. apply in_app_iff in H. destruct H as [H|[H|[]]]; [now apply A|]. injection H as <- <-. exact N.
        -- right. split; [|reflexivity]. intros x y H. apply in_app_iff in H. destruct H as [H|[H|[]]]; [now apply A|]. injection H as <- <-. exact N.
Qed.
Lemma offset_fold_ok r mix label pcs s : metric r -> (forall pc p m, In (pc, p) pcs -> p_ch p = label -> get mix pc = Some m -> fits_range r m) ->
  is_ok (foldM (offset_step r (Some mix) label) pcs s).
Proof.
  intros M. revert s. induction pcs as [|[pc p] l IH]; intros s H; cbn [foldM]; [eexists; reflexivity|].
  destruct (offset_step_cases r mix label s pc p M) as [(m & E1 & E2 & [(F & s2 & E3 & B)|(F & E3)])|(N & E3)]; rewrite E3; cbn [bind].
  - apply IH. intros; eapply H; [right|..]; eauto.
  - exfalso. apply F. eapply H; [now left|..]; eauto.
  - apply IH. intros; eapply H; [right|..]; eauto.
Qed.

Lemma last_unique P pcs pc p pc' p' : last_such P pcs pc p -> last_such P pcs pc' p' -> pc = pc'.
Proof.
  intros (b1 & a1 & E2 & P1 & A) (b2 & a2 & E3 & P2 & A'). rewrite E2 in E3. clear E2. revert b2 E3. induction b1 as [|x b1 IH]; intros [|y b2] E3; cbn in E3.
  - now injection E3.
  - exfalso. injection E3 as <- E4. apply (A pc' p'); [rewrite E4; apply in_app_iff; right; now left|exact P2].
  - exfalso. injection E3 as -> E4. apply (A' pc p); [rewrite <- E4; apply in_app_iff; right; now left|exact P1].
  - injection E3 as _ E4. now apply (IH b2 E4).
Qed.

Definition output (n : nat) : string := match n with O => "complex_output_0" | _ => "complex_output_1" end.
Definition of_output {A} (n : nat) (s : A * A) : A := match n with O => fst s | _ => snd s end.

(** A module is configured exactly if all offsets of its outputs are within the range of the module. *)
Theorem C70_offset_range r mix pcs : metric r ->
  (is_ok (configure_mixer_offsets r (Some mix) pcs) <-> forall n pc p m, In (pc, p) pcs -> p_ch p = output n -> get mix pc = Some m -> within r (m_i m) /\ within r (m_q m)).
Proof.
  intros M. unfold configure_mixer_offsets. split.
  - intros [s E]. destruct (foldM _ pcs nochset) as [a|] eqn:E0 in E; cbn [bind] in E; [|discriminate]. destruct (foldM _ pcs nochset) as [b|] eqn:E1 in E; cbn [bind] in E; [|discriminate].
    intros [|n] pc p m; [apply (offset_fold _ _ _ _ _ _ M E0)|apply (offset_fold _ _ _ _ _ _ M E1)].
  - intros H. destruct (offset_fold_ok r mix "complex_output_0" pcs nochset M) as [a ->]; [intros pc p m; apply (H 0%nat pc p m)|].
    destruct (offset_fold_ok r mix "complex_output_1" pcs nochset M) as [b ->]; [intros pc p m; apply (H 1%nat pc p m)|]. eexists; reflexivity.
Qed.
(** The settings of an output are those of its LAST port-clock with corrections, in the unit of the module; without such a port-clock they are not set. *)
Theorem C70_offset r mix pcs s n : metric r -> (n < 2)%nat -> configure_mixer_offsets r (Some mix) pcs = Ok s ->
  (forall pc p m, last_such (corrects mix (output n)) pcs pc p -> get mix pc = Some m -> set_by r m (of_output n s)) /\
  ((forall pc p, In (pc, p) pcs -> ~ corrects mix (output n) pc p) -> of_output n s = nochset).
Proof.
  intros M N E. unfold configure_mixer_offsets in E.
  destruct (foldM _ pcs nochset) as [a|] eqn:E0 in E; cbn [bind] in E; [|discriminate]. destruct (foldM _ pcs nochset) as [b|] eqn:E1 in E; cbn [bind] in E; [|discriminate].
  injection E as <-.
  assert (X : exists t, foldM (offset_step r (Some mix) (output n)) pcs nochset = Ok t /\ of_output n (a, b) = t).
  { destruct n as [|[|n]]; [exists a|exists b|lia]; auto. }
  destruct X as (t & F & ->). destruct (offset_fold _ _ _ _ _ _ M F) as [_ H]. split.
  - intros pc p m (b1 & a1 & E2 & P & A) G. destruct H as [(pc' & p' & m' & (b2 & a2 & E3 & P' & A') & G' & B)|[H _]].
    + assert (L : pc = pc') by (apply (last_unique (corrects mix (output n)) pcs pc p pc' p'); [exists b1, a1|exists b2, a2]; auto).
      subst pc'. assert (m = m') by congruence. now subst.
    + exfalso. apply (H pc p); [rewrite E2; apply in_app_iff; right; now left|exact P].
  - intros H2. destruct H as [(pc & p & m & (b1 & a1 & -> & P & _) & _)|[_ H]]; [|exact H].
    exfalso. apply (H2 pc p); [apply in_app_iff; right; now left|exact P].
Qed.
(** all modules but QTM have a metric range *)
Example ex_metric : metric (offset_range QCM) /\ metric (offset_range QRM) /\ metric (offset_range QCM_RF) /\ metric (offset_range QRM_RF) /\ metric (offset_range QRC).
Proof. unfold metric. cbn. tauto. Qed.
Definition ex_out : dict path := [("q0:mw-q0.01", at_ch "complex_output_0"); ("q0:mw-q0.12", at_ch "complex_output_0"); ("q1:mw-q1.01", at_ch "complex_output_1")].
Example ex_offset : configure_mixer_offsets (offset_range QCM_RF) (Some [("q0:mw-q0.01", {| m_i := Some (1 # 100); m_q := None; m_cal := 0 |})]) ex_out
    = Ok ({| o_i := Some (1000 # 100); o_q := None; o_cal := 0 |}, nochset) /\
  configure_mixer_offsets (offset_range QCM_RF) (Some [("q0:mw-q0.01", {| m_i := Some (6 # 100); m_q := None; m_cal := 0 |})]) ex_out = Err ValueError.
Proof. split; reflexivity. Qed.
(** A second port-clock on the output silently changes the offset: its corrections may not name an offset at all. *)
Theorem C70_offset_overwritten_refuted :
  configure_mixer_offsets (offset_range QCM) (Some [("q0:mw-q0.01", {| m_i := Some (1 # 10); m_q := Some (1 # 5); m_cal := 0 |}); ("q0:mw-q0.12", {| m_i := None; m_q := Some (2 # 1); m_cal := 0 |})]) ex_out
    = Ok ({| o_i := None; o_q := Some (2 # 1); o_cal := 0 |}, nochset).
Proof. reflexivity. Qed.

(** ** Scope acquisition *)
Theorem C70_scope seqs :
  (is_ok (ensure_single_scope seqs) <-> (List.length (filter (fun e : Z * list string => existsb (String.eqb "Trace") (snd e)) seqs) <= 1)%nat) /\
  (is_ok (ensure_single_scope seqs) \/ ensure_single_scope seqs = Err ValueError).
Proof.
  unfold ensure_single_scope. set (f := fun e : Z * list string => existsb (String.eqb "Trace") (snd e)).
  assert (G : forall s, match foldM scope_step seqs s with
                        | Ok _ => (List.length (filter f seqs) + match s with Some _ => 1 | None => 0 end <= 1)%nat
                        | Err e => e = ValueError /\ ~ (List.length (filter f seqs) + match s with Some _ => 1 | None => 0 end <= 1)%nat end).
  { induction seqs as [|[i ps] r IH]; intros s; cbn [foldM filter]; [destruct s; cbn; lia|].
    unfold scope_step at 1. change (f (i, ps)) with (existsb (String.eqb "Trace") ps). destruct (existsb (String.eqb "Trace") ps); cbn [bind].
    - destruct s as [z|]; cbn [bind List.length]; [split; [reflexivity|lia]|]. specialize (IH (Some i)). cbn in IH. destruct (foldM scope_step r (Some i)); cbn; [lia|]. destruct IH as [-> IH]. split; [reflexivity|lia].
    - apply IH. }
  specialize (G None). cbn beta iota in G. rewrite Nat.add_0_r in G. destruct (foldM scope_step seqs None) as [s|e]; cbn [bind].
  - split; [|left; eexists; reflexivity]. split; [auto|intros _; eexists; reflexivity].
  - destruct G as [-> G]. split; [|now right]. split; [intros [? X]; discriminate|tauto].
Qed.
