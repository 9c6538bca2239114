(** C73: external trigger, examples and refutations. *)
From Verif Require Import Base PathModel TrefModel TrefThms.
From Verif Require QbModel QbClModel.
From Coq Require Import Ascii.
Local Open Scope string_scope.
Local Open Scope list_scope.
Local Open Scope Z_scope.

(** ** Consequences for time references *)
(** A reference to a port that no operation of the module uses, or that is connected to two channels, is refused. *)
Theorem C73_reference_refused : forall l paths e o r, connected l paths -> In e l -> In o (snd e) -> by_port o -> o_refport o = Some r ->
  (forall n, ~ uses l r n) \/ (exists n n' p p', uses l r n /\ uses l r n' /\ find_path n paths = Some p /\ find_path n' paths = Some p' /\ ~ same_channel p p') ->
  ~ is_ok (set_time_ref l paths).
Proof.
  intros l paths e o r HC He Ho Hb Hr Hbad [l' H]. apply C73_time_reference in H; [|exact HC]. destruct (f2_in _ _ _ H e He) as [e' [_ [_ H']]]. destruct (f2_in _ _ _ H' o Ho) as [o' [_ R]].
  destruct R as [[_ [r' [i [E [[n [p [Hu [Hp [_ Hall]]]]] _]]]]]|[R _]]; [|contradiction]. assert (r' = r) by congruence. subst r'.
  destruct Hbad as [Hbad|[n1 [n2 [p1 [p2 [U1 [U2 [P1 [P2 Hd]]]]]]]]]; [exact (Hbad n Hu)|]. apply Hd.
  destruct (Hall n1 p1 U1 P1) as [a1 [a2 [a3 [a4 a5]]]]. destruct (Hall n2 p2 U2 P2) as [b1 [b2 [b3 [b4 b5]]]]. unfold same_channel. repeat split; try congruence.
  destruct (p_meas p) as [m|], (p_meas p1) as [m1|], (p_meas p2) as [m2|]; try tauto. intros x. rewrite <- a5. apply b5.
Qed.

(** ** The trigger input *)
(** combination [n] is connected to the channel that receives the trigger (channels count from 1 on the front panel, from 0 in the connectivity) *)
Definition trigger_input (h : hw) (x : ext) (n : string) (p : path) : Prop :=
  In (n, p) (h_paths h) /\ p_idx p = x_slot x /\ channel_idx p = Ok (x_channel x - 1).
Definition threshold_of (h : hw) (n : string) : option (option Q) := match h_thresholds h with None => None | Some d => find_thr n d end.
Definition same_threshold (a b : option Q) : Prop := match a, b with Some x, Some y => (x == y)%Q | None, None => True | _, _ => False end.
Definition acceptable (h : hw) (x : ext) : Prop :=
  (forall k, module_at (x_slot x) (h_modules h) = Some k -> k = QTM) /\
  (forall n p, trigger_input h x n p -> contains "digital_input" (p_ch p) = true /\
     match threshold_of h n with None => x_threshold x <> None | Some t => same_threshold t (x_threshold x) end).
(** channel names end with their index (C43) *)
Definition indexed (h : hw) : Prop := forall n p, In (n, p) (h_paths h) -> exists i, channel_idx p = Ok i.

Lemma oq_eqb_iff a b : oq_eqb a b = true <-> same_threshold a b.
Proof. destruct a, b; cbn; try (split; [discriminate|tauto]); [apply Qeq_bool_iff|tauto]. Qed.

Lemma check_iff h x n p : check_path h x (n, p) = Ok tt <-> contains "digital_input" (p_ch p) = true /\ match threshold_of h n with None => x_threshold x <> None | Some t => same_threshold t (x_threshold x) end.
Proof.
  unfold check_path. cbn [fst snd]. fold (threshold_of h n). destruct (contains "digital_input" (p_ch p)); cbn [negb]; [|split; [discriminate|intros [? _]; discriminate]].
  destruct (threshold_of h n) as [t|].
  - rewrite <- oq_eqb_iff. destruct (oq_eqb t (x_threshold x)); [tauto|split; [discriminate|intros [_ ?]; discriminate]].
  - destruct (x_threshold x); split; try discriminate; try tauto; split; [reflexivity|discriminate].
Qed.

Lemma filterM_spec {A} (f : A -> result bool) l : (forall a, In a l -> exists b, f a = Ok b) -> exists m, filterM f l = Ok m /\ forall a, In a m <-> In a l /\ f a = Ok true.
Proof.
  induction l as [|a l IH]; intros H; [exists []; split; [reflexivity|cbn; tauto]|]. destruct (H a (or_introl eq_refl)) as [b E]. destruct IH as [m [Em Hm]]; [intros; apply H; right; assumption|].
  exists (if b then a :: m else m). split; [cbn; rewrite E, Em; reflexivity|]. intros c. destruct b; cbn; rewrite Hm; split; intros K; intuition subst; try tauto; congruence.
Qed.

Lemma mapM_unit {A} (f : A -> result unit) l : is_ok (mapM f l) <-> forall a, In a l -> f a = Ok tt.
Proof.
  split.
  - intros [m H] a Ha. apply mapM_f2 in H. destruct (f2_in _ _ _ H a Ha) as [[] [_ E]]. exact E.
  - intros H. apply mapM_total. intros a Ha. exists tt. auto.
Qed.

Theorem C73_trigger_accepted : forall h x, indexed h -> (is_ok (validate_sync h (Some x)) <-> acceptable h x).
Proof.
  intros h x HI. unfold validate_sync.
  destruct (filterM_spec (fun e => on_channel x (snd e)) (h_paths h)) as [m [Em Hm]].
  { intros [n p] Hin. unfold on_channel. cbn [snd]. destruct (p_idx p =? x_slot x); [|eauto]. destruct (HI n p Hin) as [i ->]. cbn. eauto. }
  rewrite Em.
  assert (HT : forall n p, In (n, p) m <-> trigger_input h x n p).
  { intros n p. rewrite Hm. unfold trigger_input, on_channel. cbn [snd]. destruct (p_idx p =? x_slot x) eqn:E.
    - apply Z.eqb_eq in E. destruct (channel_idx p) as [i|]; cbn [bind]; [|split; intros [? ?]; [discriminate|intuition discriminate]].
      destruct (i =? x_channel x - 1) eqn:Ei; [apply Z.eqb_eq in Ei; subst; tauto|]. apply Z.eqb_neq in Ei. split; [intros [_ ?]; discriminate|]. intros [_ [_ H]]. congruence.
    - apply Z.eqb_neq in E. split; [intros [_ ?]; discriminate|tauto]. }
  assert (HC : is_ok (do _ <- mapM (check_path h x) m; Ok tt) <-> forall n p, trigger_input h x n p -> contains "digital_input" (p_ch p) = true /\ match threshold_of h n with None => x_threshold x <> None | Some t => same_threshold t (x_threshold x) end).
  { assert (is_ok (do _ <- mapM (check_path h x) m; Ok tt) <-> is_ok (mapM (check_path h x) m)) as -> by (unfold is_ok; destruct (mapM (check_path h x) m); cbn; split; intros [? ?]; try discriminate; eauto).
    rewrite mapM_unit. split.
    - intros H n p Hp. apply check_iff, H, HT, Hp.
    - intros H [n p] Hin. apply check_iff, H, HT, Hin. }
  unfold acceptable. destruct (module_at (x_slot x) (h_modules h)) as [k|].
  - destruct k; cbn [bind]; try (split; [intros [? ?]; discriminate|intros [H _]; specialize (H _ eq_refl); discriminate]).
    rewrite HC. split; [intros H; split; [intros k Hk; congruence|exact H]|tauto].
  - cbn [bind]. rewrite HC. split; [intros H; split; [discriminate|exact H]|tauto].
Qed.
(** A refused trigger is refused with a ValueError, and a cluster without external trigger is never refused. *)
Theorem C73_trigger_refused : forall h s e, indexed h -> validate_sync h s = Err e -> e = ValueError /\ s <> None.
Proof.
  intros h [x|] e HI H; [|discriminate]. split; [|discriminate]. unfold validate_sync in H.
  destruct (filterM_spec (fun e => on_channel x (snd e)) (h_paths h)) as [m [Em _]].
  { intros [n p] Hin. unfold on_channel. cbn [snd]. destruct (p_idx p =? x_slot x); [|eauto]. destruct (HI n p Hin) as [i ->]. cbn. eauto. }
  rewrite Em in H. assert (HM : forall l e0, mapM (check_path h x) l = Err e0 -> e0 = ValueError).
  { induction l as [|a l IH]; intros e0 K; [discriminate|]. cbn [mapM] in K. destruct (check_path h x a) as [u|e1] eqn:E; cbn [bind] in K.
    - destruct (mapM _ l) eqn:El; [discriminate|]. cbn [bind] in K. injection K as <-. apply IH. reflexivity.
    - injection K as <-. unfold check_path in E. destruct (negb _); [congruence|]. destruct (match h_thresholds h with None => None | Some d => find_thr (fst a) d end); [destruct (oq_eqb _ _); congruence|destruct (x_threshold x); congruence]. }
  assert (HB : (do _ <- Ok tt; do l <- Ok m; do _ <- mapM (check_path h x) l; Ok tt) = Err e -> e = ValueError).
  { cbn [bind]. destruct (mapM (check_path h x) m) eqn:El; cbn [bind]; [discriminate|]. intros K. injection K as <-. eapply HM, El. }
  destruct (module_at (x_slot x) (h_modules h)) as [[]|]; auto; cbn [bind] in H; congruence.
Qed.

(** ** Refutations and examples *)
Definition di (ch : string) : path := {| p_cl := "cluster0"; p_mod := "module5"; p_ch := ch; p_idx := 5; p_meas := None |}.
Definition hw0 : hw := {| h_modules := [(5, QTM); (2, QCM)]; h_paths := [("q0:in-digital", di "digital_input_3"); ("q1:in-digital", di "digital_input_4")]; h_thresholds := Some [("q0:in-digital", Some (1#2)%Q)] |}.

Lemma hw0_indexed : indexed hw0.
Proof. intros n p [H|[H|[]]]; injection H as <- <-; eexists; vm_compute; reflexivity. Qed.
(** A threshold given in the hardware options only is refused, although the message asks for a threshold "either via the 'sync_on_external_trigger' settings or the hardware options". *)
Theorem C73_option_threshold_refuted : exists n p, trigger_input hw0 {| x_slot := 5; x_channel := 4; x_threshold := None |} n p /\ threshold_of hw0 n = Some (Some (1#2)%Q) /\
  contains "digital_input" (p_ch p) = true /\ validate_sync hw0 (Some {| x_slot := 5; x_channel := 4; x_threshold := None |}) = Err ValueError.
Proof. exists "q0:in-digital", (di "digital_input_3"). repeat split; try (vm_compute; reflexivity). left. reflexivity. Qed.
(** A trigger channel without any threshold is accepted by the compiler if no port is connected to it; the instrument coordinator (C53) then always fails to start. *)
Theorem C73_no_threshold_refuted : exists x, validate_sync hw0 (Some x) = Ok tt /\
  forall s cl n m, Z.of_nat (QbClModel.e_slot s) = x_slot x -> Z.of_nat (QbClModel.e_channel s) = x_channel x -> QbClModel.e_threshold s = x_threshold x ->
    QbClModel.in_slot (QbClModel.e_slot s) (QbClModel.mods cl) = Some (n, m) -> QbClModel.knd m = QbModel.QTM -> exists cl' e, QbClModel.sync_ext s cl = (cl', Err e).
Proof.
  exists {| x_slot := 5; x_channel := 8; x_threshold := None |}. split; [vm_compute; reflexivity|]. cbn [x_slot x_channel x_threshold]. intros s cl n m Hs Hc Ht Hm Hk.
  unfold QbClModel.sync_ext. destruct (Nat.eqb_spec (QbClModel.e_slot s) 0) as [E|_]; [rewrite E in Hs; discriminate|]. rewrite Hm, Hk. destruct (QbClModel.e_channel s); [eauto|].
  destruct (QbClModel.set_io _ _ _ _ _ _) as [[cl1 m1] [u|e]]; [rewrite Ht; eauto|eauto].
Qed.
(** A threshold of "None" in the hardware options is accepted as equal to a missing one. *)
Theorem C73_none_threshold_refuted : validate_sync {| h_modules := h_modules hw0; h_paths := h_paths hw0; h_thresholds := Some [("q0:in-digital", None)] |} (Some {| x_slot := 5; x_channel := 4; x_threshold := None |}) = Ok tt.
Proof. vm_compute. reflexivity. Qed.

Example C73_trigger_example : acceptable hw0 {| x_slot := 5; x_channel := 4; x_threshold := Some (2#4)%Q |} /\ (exists n p, trigger_input hw0 {| x_slot := 5; x_channel := 4; x_threshold := Some (2#4)%Q |} n p).
Proof.
  split; [apply C73_trigger_accepted; [exact hw0_indexed|exists tt; vm_compute; reflexivity]|]. exists "q0:in-digital", (di "digital_input_3"). split; [left; reflexivity|split; vm_compute; reflexivity].
Qed.
Example C73_trigger_refused_example : validate_sync hw0 (Some {| x_slot := 2; x_channel := 1; x_threshold := None |}) = Err ValueError /\
  validate_sync hw0 (Some {| x_slot := 5; x_channel := 4; x_threshold := Some 1%Q |}) = Err ValueError.
Proof. split; vm_compute; reflexivity. Qed.

Definition tag (p : option string) : op := {| o_id := 1; o_acq := true; o_ref := Some RPort; o_refport := p; o_refch := None |}.
Definition ops0 : ops := [("q0:in", "digital", [tag (Some "q1:in"); {| o_id := 2; o_acq := true; o_ref := Some ROther; o_refport := None; o_refch := None |}]); ("q1:in", "digital", []); ("q1:in", "qr", [])].
Definition paths0 : list (string * path) := [("q0:in-digital", di "digital_input_3"); ("q1:in-digital", di "digital_input_4"); ("q1:in-qr", di "digital_input_4")].
Example C73_reference_example : connected ops0 paths0 /\ set_time_ref ops0 paths0 =
  Ok [("q0:in", "digital", [with_ref (tag (Some "q1:in")) 4; {| o_id := 2; o_acq := true; o_ref := Some ROther; o_refport := None; o_refch := None |}]); ("q1:in", "digital", []); ("q1:in", "qr", [])].
Proof. split; [intros k [<-|[<-|[<-|[]]]]; eexists; vm_compute; reflexivity|vm_compute; reflexivity]. Qed.
Example C73_reference_refused_example :
  set_time_ref ops0 [("q0:in-digital", di "digital_input_3"); ("q1:in-digital", di "digital_input_4"); ("q1:in-qr", di "digital_input_5")] = Err ValueError /\
  set_time_ref [("q0:in", "digital", [tag (Some "q1:in")])] paths0 = Err ValueError.
Proof. split; vm_compute; reflexivity. Qed.
Print Assumptions C73_trigger_accepted.
