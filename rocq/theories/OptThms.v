(** C70: input gains. *)
From Verif Require Import Base CircModel PathModel OptModel OptSpec OptProps.
From Coq Require Import Ascii.
Local Open Scope string_scope.
Local Open Scope list_scope.
Local Open Scope Z_scope.

(** channel names end in a digit, and port-clock names are not empty *)
Definition numbered (ch : string) : Prop := exists pre c, ch = (pre ++ String c "")%string /\ In (String c "") ["0"; "1"; "2"; "3"; "4"; "5"; "6"; "7"; "8"; "9"].
Definition named (pcs : dict path) : Prop := forall pc p, In (pc, p) pcs -> pc <> "" /\ numbered (p_ch p).

Lemma numbered_int ch : numbered ch -> exists d, last_int ch = Ok d.
Proof.
  intros (pre & c & -> & H). unfold last_int. rewrite last_char_app. cbn in H.
  repeat (destruct H as [H|H]; [injection H as <-; vm_compute; eexists; reflexivity|]). contradiction.
Qed.
Lemma start_inv gains : ginv gains [] gstart.
Proof. constructor; cbn; auto; intros v; (split; [discriminate|intros (? & ? & ? & [] & _)]). Qed.

Lemma gain_cases gains pcs : named pcs ->
  (exists g0 g1, configure_input_gains (Some gains) pcs = Ok (g0, g1) /\ (forall v, g0 = Some v <-> asked gains pcs 0 v) /\ (forall v, g1 = Some v <-> asked gains pcs 1 v)) \/
  (configure_input_gains (Some gains) pcs = Err ValueError /\ exists n v w, asked gains pcs n v /\ asked gains pcs n w /\ v <> w).
Proof.
  intros H. unfold configure_input_gains. destruct (fold_inv gains pcs [] gstart (start_inv gains)) as [(st & E & I)|(E & X)].
  - intros pc p K. destruct (H pc p K) as [NE NU]. split; [exact NE|]. intros g _. destruct g; cbn; [|exact I]. now apply numbered_int.
  - left. destruct I as [I1 I2 I3 I4 I5 I6]. exists (g_0 st), (g_1 st). rewrite E. cbn [bind]. rewrite I1. auto.
  - right. rewrite E. cbn [bind]. auto.
Qed.

(** The gain of an input is the one its port-clocks ask for; nobody asks: it is not set. *)
Theorem C70_gain gains pcs g0 g1 : named pcs -> configure_input_gains (Some gains) pcs = Ok (g0, g1) ->
  forall v, (g0 = Some v <-> asked gains pcs 0 v) /\ (g1 = Some v <-> asked gains pcs 1 v).
Proof. intros H E v. destruct (gain_cases gains pcs H) as [(a & b & E' & A & B)|(E' & _)]; rewrite E' in E; [|discriminate]. injection E as <- <-. auto. Qed.

(** Different gains for one input are refused, and nothing else is. *)
Theorem C70_gain_conflict gains pcs : named pcs ->
  (configure_input_gains (Some gains) pcs = Err ValueError <-> exists n v w, asked gains pcs n v /\ asked gains pcs n w /\ v <> w) /\
  (is_ok (configure_input_gains (Some gains) pcs) \/ configure_input_gains (Some gains) pcs = Err ValueError).
Proof.
  intros H. destruct (gain_cases gains pcs H) as [(a & b & E' & A & B)|(E' & X)]; rewrite E'; (split; [|unfold is_ok; eauto]); split; try discriminate; auto.
  intros (n & v & w & K1 & K2 & N). exfalso. apply N. destruct K1 as (pc & p & g & L & G & K1). pose proof (asks_01 _ _ _ _ K1) as [-> | ->].
  - assert (X1 : a = Some v) by (apply A; exists pc, p, g; auto). apply A in K2. congruence.
  - assert (X1 : b = Some v) by (apply B; exists pc, p, g; auto). apply B in K2. congruence.
Qed.
(** without gain options nothing is set *)
Theorem C70_gain_none pcs : configure_input_gains None pcs = Ok (None, None).
Proof.
  unfold configure_input_gains. assert (E : foldM (gain_step None) pcs gstart = Ok gstart) by (induction pcs as [|[pc p] r IH]; cbn; auto). now rewrite E.
Qed.

(** A gain of the wrong kind for the channel of its port-clock is refused. *)
Theorem C70_gain_mode gains pcs pc p g : In (pc, g) gains -> get pcs pc = Some p ->
  (contains "real" (p_ch p) = true /\ (exists i q, g = GComplex i q)) \/ (contains "complex" (p_ch p) = true /\ (exists v, g = GReal v)) ->
  ~ is_ok (validate_input_gain_mode (Some gains) pcs).
Proof.
  intros H G K [u E]. cbn [validate_input_gain_mode] in E.
  assert (B : gain_mode_ok (p_ch p) g = false) by (destruct K as [[C (i & q & ->)]|[C (v & ->)]]; cbn; now rewrite C).
  revert E. induction gains as [|[pc' g'] r IH]; [destruct H|]. cbn [mapM]. destruct H as [H|H].
  - injection H as -> ->. unfold index. rewrite G. cbn [bind]. rewrite B. discriminate.
  - destruct (do p0 <- index pcs pc'; if gain_mode_ok (p_ch p0) g' then Ok tt else Err ValueError); cbn [bind]; [|discriminate].
    intros E. apply IH; [exact H|]. destruct (mapM _ r); cbn [bind] in *; [exact E|discriminate].
Qed.

(** the hypotheses are met, and the theorems say something: two clocks on one input agree on 7, the other input has -6 *)
Definition at_ch (ch : string) : path := {| p_cl := "cluster0"; p_mod := "module1"; p_ch := ch; p_idx := 1; p_meas := None |}.
Definition ex_pcs : dict path := [("q0:res-q0.ro", at_ch "real_input_0"); ("q0:res-q0.ro2", at_ch "real_input_0"); ("q1:res-q1.ro", at_ch "real_input_1")].
Example ex_named : named ex_pcs.
Proof. intros pc p H. cbn in H. destruct H as [H|[H|[H|[]]]]; injection H as <- <-; (split; [discriminate|]); [exists "real_input_", "0"%char|exists "real_input_", "0"%char|exists "real_input_", "1"%char]; (split; [reflexivity|cbn; tauto]). Qed.
Example ex_gain : configure_input_gains (Some [("q0:res-q0.ro", GReal 7); ("q0:res-q0.ro2", GReal 7); ("q1:res-q1.ro", GReal (-6))]) ex_pcs = Ok (Some 7, Some (-6)) /\
  configure_input_gains (Some [("q0:res-q0.ro", GReal 7); ("q0:res-q0.ro2", GReal 8)]) ex_pcs = Err ValueError.
Proof. split; reflexivity. Qed.

(** The gain of a port-clock that is connected to an output and to an input goes to the input with the number of the OUTPUT: the connectivity [real_output_0 -- q0:res -- real_input_1] of a QRM is accepted (and has a sequencer), the gain 7 of its port-clock is set on input 0 and input 1 has none. *)
Theorem C70_gain_of_measure_refuted :
  let p := add_meas (at_ch "real_output_0") "real_input_1" in let pcs := [("q0:res-q0.ro", p)] in
  validate QRM p = Ok tt /\ is_ok (sequencer_to_portclock (allowed QRM) pcs) /\ validate_input_gain_mode (Some [("q0:res-q0.ro", GReal 7)]) pcs = Ok tt /\
  p_meas p = Some ["real_input_1"] /\ configure_input_gains (Some [("q0:res-q0.ro", GReal 7)]) pcs = Ok (Some 7, None).
Proof. vm_compute. split; [reflexivity|]. split; [eexists; reflexivity|]. auto. Qed.
