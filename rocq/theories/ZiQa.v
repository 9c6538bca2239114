(** C49: the acquisition settings of a UHFQA. *)
From Verif Require Import Base NumericModel NumericProps ZiModel ZiSpec ZiProps ZiProps2 ZiProps3 ZiClock ZiTable ZiTable2 ZiCorr ZiShift ZiThms1 ZiCompile ZiThms2 ZiIds ZiThms3.
From Coq Require Import Permutation.
Open Scope Z_scope.

Lemma set_nth_length {A} (x : A) l : forall n, List.length (set_nth n x l) = List.length l.
Proof. induction l as [|y l IH]; intros [|n]; cbn; auto. Qed.
Lemma set_nth_same {A} (x : A) l : forall n, (n < List.length l)%nat -> nth_error (set_nth n x l) n = Some x.
Proof. induction l as [|y l IH]; intros [|n] h; cbn in *; try lia; [reflexivity|]. apply IH. lia. Qed.
Lemma set_nth_other {A} (x : A) l : forall n m, n <> m -> nth_error (set_nth n x l) m = nth_error l m.
Proof. induction l as [|y l IH]; intros [|n] [|m] h; cbn; try reflexivity; try congruence. apply IH. congruence. Qed.
Lemma nput_in {A} (k : nat) (v : A) d : In (k, v) (nput k v d).
Proof. induction d as [|[k' v'] d IH]; cbn; [now left|]. destruct (Nat.eqb_spec k k'); [now left|now right]. Qed.
Lemma nput_other {A} (k k' : nat) (v v' : A) d : k <> k' -> In (k', v') d -> In (k', v') (nput k v d).
Proof. intros n. induction d as [|[k2 v2] d IH]; cbn; [tauto|]. intros [h|h]; destruct (Nat.eqb_spec k k2) as [q|q]; try (right; auto; fail). - injection h as -> ->. congruence. - left. exact h. Qed.
Lemma nput_keys {A} (k : nat) (v : A) d : ~ In k (map fst d) -> map fst (nput k v d) = map fst d ++ [k].
Proof. induction d as [|[k' v'] d IH]; intros h; cbn; [reflexivity|]. cbn in h. destruct (Nat.eqb_spec k k') as [q|q]; [exfalso; apply h; left; congruence|]. cbn. f_equal. apply IH. tauto. Qed.

Definition acq_info (ops : list (string * operation)) (e : entry) : option info := match sget ops (r_operation (e_row e)) with Some o => nth_error (o_acqs o) (r_wf_idx (e_row e)) | None => None end.
Lemma acq_step_inv ops wf st e st' : acq_step ops wf st e = Ok st' -> exists i, acq_info ops e = Some i /\ (match as_duration st with Some d => d == i_duration i | None => True end)%Q /\ as_duration st' = Some (match as_duration st with Some d => d | None => i_duration i end) /\ ~ In (i_acq_channel i) (as_channels st) /\ as_channels st' = as_channels st ++ [i_acq_channel i] /\
  match i_protocol i with
  | Trace => as_weights st' = map (fun _ => {| n_real := Ones; n_imag := Ones |}) (as_weights st) /\ as_resolvers st' = nput (i_acq_channel i) MonitorWaves (as_resolvers st)
  | SSBIntegrationComplex => exists w, last_get wf (e_id e) = Some w /\ (i_acq_channel i < 5)%nat /\ as_weights st' = set_nth (2 * i_acq_channel i + 1) {| n_real := ImagPart w; n_imag := MinusRealPart w |} (set_nth (2 * i_acq_channel i) {| n_real := RealPart w; n_imag := ImagPart w |} (as_weights st)) /\ as_resolvers st' = nput (i_acq_channel i) (ResultWaves (2 * i_acq_channel i) (2 * i_acq_channel i + 1)) (as_resolvers st)
  | OtherProtocol _ => False
  end.
Proof. unfold acq_step. intros h. apply bind_Ok in h. destruct h as (i & hi & h). exists i. split; [unfold acq_info; destruct (sget ops (r_operation (e_row e))); [|discriminate]; destruct (nth_error _ _); [congruence|discriminate]|]. cbn zeta in h.
  destruct (Qeq_bool _ (i_duration i)) eqn:eq; [cbn [negb] in h|discriminate]. apply Qeq_bool_iff in eq. split; [destruct (as_duration st); auto|].
  destruct (i_protocol i) eqn:ep; [| |discriminate].
  - destruct (existsb _ _) eqn:ex; [discriminate|]. destruct (last_get wf (e_id e)) as [w|] eqn:lw; [|discriminate]. destruct (Nat.leb_spec 10 (2 * i_acq_channel i + 1)) as [L|L]; [discriminate|]. injection h as <-. cbn [as_duration as_channels as_weights as_resolvers]. split; [reflexivity|]. split; [|split; [reflexivity|]].
    + intros hi'. rewrite <- not_true_iff_false in ex. apply ex. apply existsb_exists. exists (i_acq_channel i). split; [exact hi'|apply Nat.eqb_refl].
    + exists w. split; [reflexivity|]. split; [lia|]. auto.
  - destruct (existsb _ _) eqn:ex; [discriminate|]. injection h as <-. cbn [as_duration as_channels as_weights as_resolvers]. split; [reflexivity|]. split; [|split; [reflexivity|auto]].
    intros hi'. rewrite <- not_true_iff_false in ex. apply ex. apply existsb_exists. exists (i_acq_channel i). split; [exact hi'|apply Nat.eqb_refl]. Qed.

Definition zero_node := {| n_real := Zeros; n_imag := Zeros |}.
Definition one_node := {| n_real := Ones; n_imag := Ones |}.
Definition start_state := {| as_duration := None; as_channels := []; as_weights := repeat zero_node 10; as_resolvers := [] |}.
Record good (ops : list (string * operation)) (wf : list (string * wave)) (done : list entry) (st : acq_state) : Prop := {
  g_len : List.length (as_weights st) = 10%nat;
  g_channels : exists is_, map (acq_info ops) done = map Some is_ /\ as_channels st = map i_acq_channel is_ /\ map fst (as_resolvers st) = map i_acq_channel is_;
  g_nodup : NoDup (as_channels st);
  g_duration : match done with [] => as_duration st = None | _ => exists du, as_duration st = Some du /\ forall e i, In e done -> acq_info ops e = Some i -> (du == i_duration i)%Q end;
  g_each : forall e i, In e done -> acq_info ops e = Some i -> i_protocol i = SSBIntegrationComplex -> exists w, last_get wf (e_id e) = Some w /\ (i_acq_channel i < 5)%nat /\ nth_error (as_weights st) (2 * i_acq_channel i) = Some {| n_real := RealPart w; n_imag := ImagPart w |} /\ nth_error (as_weights st) (2 * i_acq_channel i + 1) = Some {| n_real := ImagPart w; n_imag := MinusRealPart w |} /\ In (i_acq_channel i, ResultWaves (2 * i_acq_channel i) (2 * i_acq_channel i + 1)) (as_resolvers st);
  g_rest : forall n, (n < 10)%nat -> (forall c, In c (as_channels st) -> n <> (2 * c)%nat /\ n <> (2 * c + 1)%nat) -> nth_error (as_weights st) n = Some zero_node }.
Lemma good_step ops wf done st e st' : good ops wf done st -> (forall i, acq_info ops e = Some i -> i_protocol i = SSBIntegrationComplex) -> acq_step ops wf st e = Ok st' -> good ops wf (done ++ [e]) st'.
Proof. intros [g1 (is_ & g2 & g2' & g2'') g3 g4 g5 g6] hp h. apply acq_step_inv in h. destruct h as (i & hi & hd & hd' & hn & hc & h). rewrite (hp i hi) in h. destruct h as (w & hw & hlt & hwt & hr). set (c := i_acq_channel i) in *.
  assert (NI : forall e' i', In e' done -> acq_info ops e' = Some i' -> i_acq_channel i' <> c). { intros e' i' he hi' q. apply hn. rewrite g2', <- q. apply in_map. assert (In (Some i') (map Some is_)) by (rewrite <- g2, <- hi'; now apply in_map). apply in_map_iff in H. destruct H as (x & [= ->] & hx). exact hx. }
  split.
  - now rewrite hwt, !set_nth_length.
  - exists (is_ ++ [i]). rewrite !map_app, g2. cbn [map]. rewrite hi. split; [reflexivity|]. split; [now rewrite hc, g2'|]. rewrite hr, nput_keys by (rewrite g2'', <- g2'; exact hn). now rewrite g2''.
  - rewrite hc. rewrite g2' in *. apply NoDup_rev in g3. rewrite <- (rev_involutive (map i_acq_channel is_ ++ [c])). apply NoDup_rev. rewrite rev_app_distr. cbn. constructor; [|exact g3]. intros q. apply hn. now apply in_rev.
  - destruct (done ++ [e]) as [|x xs] eqn:ed; [destruct done; discriminate|]. rewrite <- ed. eexists. split; [exact hd'|]. intros e' i' he hi'. apply in_app_or in he. destruct he as [he|[<-|[]]].
    + destruct done as [|y ys]; [destruct he|]. destruct g4 as (du & e1 & g4). rewrite e1. apply (g4 e'); auto.
    + rewrite hi in hi'. injection hi' as <-. destruct (as_duration st); [exact hd|reflexivity].
  - intros e' i' he hi' hp'. apply in_app_or in he. destruct he as [he|[<-|[]]].
    + destruct (g5 e' i' he hi' hp') as (w' & a1 & a2 & a3 & a4 & a5). pose proof (NI e' i' he hi') as ne. exists w'. split; [exact a1|]. split; [exact a2|]. rewrite hwt, hr. rewrite !set_nth_other by lia. split; [exact a3|]. split; [exact a4|]. apply nput_other; [congruence|exact a5].
    + rewrite hi in hi'. injection hi' as <-. exists w. split; [exact hw|]. split; [exact hlt|]. rewrite hwt, hr. fold c. split; [rewrite set_nth_other by lia; apply set_nth_same; lia|]. split; [apply set_nth_same; rewrite set_nth_length; lia|]. apply nput_in.
  - intros n hn10 hno. rewrite hc in hno. rewrite hwt. destruct (hno c) as [m1 m2]; [apply in_or_app; right; now left|]. rewrite !set_nth_other by lia. apply g6; [exact hn10|]. intros c' hc'. apply hno. apply in_or_app. now left. Qed.
Lemma good_all ops wf uniq : forall done st st', good ops wf done st -> (forall e i, In e uniq -> acq_info ops e = Some i -> i_protocol i = SSBIntegrationComplex) -> foldM (acq_step ops wf) uniq st = Ok st' -> good ops wf (done ++ uniq) st'.
Proof. induction uniq as [|e uniq IH]; intros done st st' g hp h; cbn [foldM] in h; [injection h as <-; now rewrite app_nil_r|]. apply bind_Ok in h. destruct h as (st1 & h1 & h). replace (done ++ e :: uniq) with ((done ++ [e]) ++ uniq) by (rewrite <- app_assoc; reflexivity). eapply IH; [|intros e' i' he; apply hp; now right|exact h]. eapply good_step; eauto. intros i hi. eapply hp; [now left|exact hi]. Qed.
Lemma good_start ops wf : good ops wf [] start_state.
Proof. split; try reflexivity. - exists []. repeat split. - constructor. - intros e i []. - intros n hn _. unfold start_state. cbn [as_weights]. apply nth_error_repeat. exact hn. Qed.
(** traces: all weights one *)
Lemma trace_all ops wf uniq : forall st st', (forall e i, In e uniq -> acq_info ops e = Some i -> i_protocol i = Trace) -> foldM (acq_step ops wf) uniq st = Ok st' -> List.length (as_weights st) = 10%nat ->
  (uniq <> [] -> as_weights st' = repeat one_node 10) /\ (forall e i, In e uniq -> acq_info ops e = Some i -> In (i_acq_channel i, MonitorWaves) (as_resolvers st')) /\ (forall c, In (c, MonitorWaves) (as_resolvers st) -> In (c, MonitorWaves) (as_resolvers st')).
Proof. induction uniq as [|e uniq IH]; intros st st' hp h hl; cbn [foldM] in h; [injection h as <-; split; [contradiction|split; [intros e i []|auto]]|]. apply bind_Ok in h. destruct h as (st1 & h1 & h). apply acq_step_inv in h1. destruct h1 as (i & hi & _ & _ & hn & hc & h1). rewrite (hp e i (or_introl eq_refl) hi) in h1. destruct h1 as [hw hr].
  assert (W1 : as_weights st1 = repeat one_node 10) by (rewrite hw; destruct (as_weights st) as [|? [|? [|? [|? [|? [|? [|? [|? [|? [|? [|? ?]]]]]]]]]]]; try discriminate; reflexivity).
  destruct (IH st1 st' ltac:(intros e' i' he; apply hp; now right) h ltac:(rewrite W1; reflexivity)) as (i1 & i2 & i3). split; [|split].
  - intros _. destruct uniq as [|e' uniq]; [injection h as <-; exact W1|apply i1; discriminate].
  - intros e' i' [<-|he] hi'; [rewrite hi in hi'; injection hi' as <-; apply i3; rewrite hr; apply nput_in|eapply i2; eauto].
  - intros c hin. apply i3. rewrite hr. destruct (Nat.eq_dec (i_acq_channel i) c) as [<-|ne]; [apply nput_in|apply nput_other; auto]. Qed.

Lemma compile_uhfqa_inv d l wf reps ops bm a q : compile_uhfqa d l wf reps ops bm = Ok (a, q) -> exists st,
  let acqs := filter (fun e => r_is_acq (e_row e)) (rows_on (d_name d, 0%nat) l) in
  foldM (acq_step ops wf) (drop_duplicates [] acqs) start_state = Ok st /\ q_n_acquisitions q = List.length acqs /\ q_bin_mode q = bm /\ bm <> OtherBinMode /\ q_weights q = as_weights st /\ q_resolvers q = as_resolvers st /\
  (acqs <> [] -> q_length q = Some (Z.of_nat (List.length acqs) * match bm with Append => reps | _ => 1 end) /\ q_averages q = Some (match bm with Append => 1 | _ => reps end) /\ exists du, as_duration st = Some du /\ q_integration q = Some (py_round (du * inject_Z (sample_rate d)))) /\
  (acqs = [] -> q_length q = None /\ q_averages q = None /\ q_integration q = None).
Proof. intros h. unfold compile_uhfqa in h. destruct (filter out_real (channel_list d)); [discriminate|]. destruct (channel_list d); [discriminate|]. cbn zeta in h. apply bind_Ok in h. destruct h as (p & _ & h). apply bind_Ok in h. destruct h as (la & hla & h). apply bind_Ok in h. destruct h as (st & hst & h). injection h as _ <-. exists st. cbn zeta. rewrite rows_on_filter. set (acqs := filter (fun e => r_is_acq (e_row e)) (filter (on_channel (d_name d, 0%nat)) l)) in *. split; [exact hst|]. cbn [q_n_acquisitions q_bin_mode q_weights q_resolvers q_length q_averages q_integration].
  split; [reflexivity|]. split; [reflexivity|]. split; [destruct bm; discriminate|]. split; [reflexivity|]. split; [reflexivity|]. split.
  - intros ne. destruct (drop_duplicates [] acqs) as [|u us] eqn:ed; [exfalso; destruct acqs as [|x xs]; [contradiction|]; cbn in ed; discriminate|].
    assert (D : exists du, as_duration st = Some du). { assert (F : forall us st1 st2, foldM (acq_step ops wf) us st1 = Ok st2 -> (exists du, as_duration st1 = Some du) -> exists du, as_duration st2 = Some du). { induction us0 as [|x xs IH]; intros st1 st2 hf hd; cbn [foldM] in hf; [injection hf as <-; exact hd|]. apply bind_Ok in hf. destruct hf as (st3 & h1 & hf). apply acq_step_inv in h1. destruct h1 as (i & _ & _ & e3 & _). eapply IH; eauto. } cbn [foldM] in hst. apply bind_Ok in hst. destruct hst as (st3 & h1 & hf). apply acq_step_inv in h1. destruct h1 as (i & _ & _ & e3 & _). eapply F; eauto. }
    destruct D as (du & D). rewrite D. destruct bm; try discriminate; injection hla as <-; cbn [fst snd]; (split; [f_equal; lia|]); (split; [reflexivity|]); eauto.
  - intros ->. cbn [drop_duplicates]. cbn [drop_duplicates foldM] in hst. injection hst as <-. auto. Qed.
