(** C62: measurements at another frequency. *)
From Coq Require Import Ascii Lqa.
From Verif Require Import Base DevModel DevSpec DevProps DevProps2 DevConf TimingModel TimingSpec TimingProps FacModel FacSpec FacProps FacThms FacThms2 FacThms3 FacThms4.
Local Open Scope string_scope.

Lemma plays_eq : forall d o t e s, Plays d o t e s -> forall t' s', t == t' -> s == s' -> Plays d o t' e s'.
Proof.
  induction 1 as [n ps qs v dur dl t e t0 s I T E|dl items dur dl' reps its k d pt rel i a t e s K1 K2 K3 P IH|n b b' D k t e s K OD P IH]; intros t' s' Et Es.
  - eapply Plays_entry; eauto. now rewrite <- Es, <- Et.
  - eapply Plays_item; eauto. apply IH; auto. now rewrite Et.
  - eapply Plays_round; eauto. apply IH; auto. now rewrite Et.
Qed.
Definition sub_step (st : strategy) (o' : op) : result op :=
  match o' with
  | OSched (Some _) _ _ _ => Ok o'
  | OSched None _ _ _ => determine st o'
  | OLoop _ _ | OCond _ _ => determine st o'
  | OLeaf valid _ _ => if valid then Ok o' else Err RuntimeError
  end.
Fixpoint sub_steps (st : strategy) (l : list item) : result (list item) :=
  match l with [] => Ok [] | Item n t a o' :: r => do o'' <- sub_step st o'; do r' <- sub_steps st r; Ok (Item n t a o'' :: r') end.
Lemma determine_steps : forall st du dl reps items, determine st (OSched du dl reps items) =
  do items1 <- sub_steps st items; do ss <- mapM item_sch items1; do out <- determine_level st reps ss; Ok (OSched (Some (snd out)) dl reps (write_all items1 (fst out))).
Proof.
  intros. cbn [determine]. f_equal. induction items as [|[n t a o'] r IH]; [reflexivity|]. cbn [sub_steps]. rewrite IH. reflexivity.
Qed.
(** three operations one after the other *)
Lemma three : forall n1 n2 n3 q1 o2 o2' D q3 d1 d2 d3 items, NoDup [n1; n2; n3] -> 0 <= q1 -> 0 <= q3 -> 0 <= D ->
  determine ASAP o2 = Ok o2' -> op_dur o2' = Some D -> op_delay o2' = None -> (exists r is, o2 = OSched None None r is) ->
  let tc := [{| tc_ref := None; tc_pt := None; tc_ptnew := None; tc_rel := 0 |}] in
  items = [(d1, None, zero); (d2, None, zero); (d3, None, zero)] ->
  exists o', determine ASAP (OSched None None 1 [Item n1 tc None (OLeaf true q1 None); Item n2 tc None o2; Item n3 tc None (OLeaf true q3 None)]) = Ok o' /\
    (exists D', op_dur o' = Some D' /\ D' == q1 + D + q3) /\
    forall t e s, Plays (DSched None items) o' t e s <-> Plays d1 (OLeaf true q1 None) t e s \/ Plays d2 o2' (t + q1) e s \/ Plays d3 (OLeaf true q3 None) (t + (q1 + D)) e s.
Proof.
  intros n1 n2 n3 q1 o2 o2' D q3 d1 d2 d3 items N Q1 Q3 QD H OD DL [r [is ->]] tc ->.
  pose (ss := [mk n1 q1 None tc; mk n2 D None tc; mk n3 q3 None tc]).
  assert (Fr : fresh ss) by (intros s [<-|[<-|[<-|[]]]]; reflexivity).
  destruct (C05_back_to_back ASAP 1 ss N ltac:(discriminate) Fr) as [out [du [E [Ks Du]]]].
  { apply Forall_forall. repeat (apply Forall_cons || apply Forall_nil); unfold Unconstrained; auto. }
  destruct (C01_timing_constraints_tight _ _ ss _ _ N Fr E) as [Nm _].
  assert (X : exists s1 s2 s3, out = [s1; s2; s3]) by (destruct out as [|s1 [|s2 [|s3 [|s4 out]]]]; try discriminate Nm; eauto). destruct X as [s1 [s2 [s3 ->]]]. cbn in Nm. injection Nm as M1 M2 M3.
  inversion N as [|? ? N1 N']; subst. inversion N' as [|? ? N2 N'']; subst. cbn [In] in N1, N2.
  destruct (Ks 0%nat _ eq_refl) as [t1 [[x1 [I1 [L1 A1]]] T1]]. destruct (Ks 1%nat _ eq_refl) as [t2 [[x2 [I2 [L2 A2]]] T2]]. destruct (Ks 2%nat _ eq_refl) as [t3 [[x3 [I3 [L3 A3]]] T3]]. cbn in L1, L2, L3, T1, T2, T3.
  assert (x1 = s1) as -> by (destruct I1 as [<-|[<-|[<-|[]]]]; auto; exfalso; intuition congruence).
  assert (x2 = s2) as -> by (destruct I2 as [<-|[<-|[<-|[]]]]; auto; exfalso; intuition congruence).
  assert (x3 = s3) as -> by (destruct I3 as [<-|[<-|[<-|[]]]]; auto; exfalso; intuition congruence).
  eexists. split; [|split].
  - rewrite determine_steps. cbn [sub_steps sub_step bind]. rewrite H. cbn [bind mapM]. unfold item_sch at 1 2 3. cbn [it_op op_dur op_delay it_name it_tcs it_abs bind]. rewrite OD, DL. cbn [bind].
    fold (mk (s_name s1) q1 None tc) (mk (s_name s2) D None tc) (mk (s_name s3) q3 None tc). fold ss. rewrite E. cbn [bind fst snd write_all]. reflexivity.
  - exists du. split; [reflexivity|]. rewrite Du. cbn. unfold inject_Z. lra.
  - intros t e s. rewrite plays_sched. split.
    + intros [k [d [pt [rel [i [a [K1 [K2 [K3 K4]]]]]]]]]. destruct k as [|[|[|k]]]; cbn in K1, K2; try (injection K1 as <- <- <-; injection K2 as <-; cbn in K3, K4).
      * rewrite A1 in K3. injection K3 as <-. left. eapply plays_eq; eauto; [lra | reflexivity].
      * rewrite A2 in K3. injection K3 as <-. right; left. eapply plays_eq; eauto; [lra | reflexivity].
      * rewrite A3 in K3. injection K3 as <-. right; right. eapply plays_eq; eauto; [lra | reflexivity].
      * destruct k; discriminate K1.
    + intros [P|[P|P]].
      * exists 0%nat. eexists _, _, _, _, t1. repeat (split; [reflexivity|]). split; [exact A1|]. eapply plays_eq; eauto; [lra | reflexivity].
      * exists 1%nat. eexists _, _, _, _, t2. repeat (split; [reflexivity|]). split; [exact A2|]. eapply plays_eq; eauto; [lra | reflexivity].
      * exists 2%nat. eexists _, _, _, _, t3. repeat (split; [reflexivity|]). split; [exact A3|]. eapply plays_eq; eauto; [lra | reflexivity].
Qed.
Definition freq_entry (clock f : cval) : dict :=
  [("wf_func", none); ("t0", zero); ("clock", clock); ("clock_freq_new", f); ("clock_freq_old", none); ("interm_freq_old", none); ("port", none); ("duration", zero)].
(** Measure with a frequency: the frequency of the clock is set when the measurement starts, and set back when it ends. *)
Theorem C62_frequency : forall a d, dispersive a = Ok d -> is_none (at_ a "freq") = false -> truth (at_ a "next_operation_delay") = Ok false -> chosen_protocol a <> str "LongTimeTrace" ->
  exists d0 set_ back, dispersive (("freq", none) :: a) = Ok d0 /\ fields set_ [("clock", at_ a "clock"); ("clock_freq_new", at_ a "freq")] /\ fields back [("clock", at_ a "clock"); ("clock_freq_new", none)] /\ lookup "protocol" set_ = None /\ lookup "protocol" back = None /\
    forall o, timing d = Ok o -> exists o' o0 o0' D, timing d0 = Ok o0 /\ determine ASAP o0 = Ok o0' /\ op_dur o0' = Some D /\ determine ASAP o = Ok o' /\ (exists D', op_dur o' = Some D' /\ D' == D) /\
      forall t e s, Plays d o' t e s <-> e = set_ /\ s == t \/ Plays d0 o0' t e s \/ e = back /\ s == t + D.
Proof.
  intros a d H Fr Dl NL. unfold dispersive in H. rewrite Dl in H. cbn [bind] in H. apply bindE in H as [fst_ [F H]]. apply bindE in H as [acq [A H]]. rewrite Fr in H.
  apply bindE in H as [f1 [F1 H]]. apply bindE in H as [f2 [F2 H]]. injection H as <-. apply made_ok in F1, F2. subst f1 f2.
  assert (E0 : dispersive (("freq", none) :: a) = Ok (DSched None (fst_ ++ acq)%list)).
  { change (dispersive (("freq", none) :: a)) with (do d <- truth (at_ a "next_operation_delay"); let delay := if d then Some (at_ a "next_operation_delay") else None in
      do first <- (if is_str (at_ a "acq_protocol") "LongTimeTrace" then Ok [] else readout_pulses a);
      do acq <- acquisition a (if is_none (at_ a "acq_protocol") then at_ a "acq_protocol_default" else at_ a "acq_protocol") (if is_none (at_ a "acq_channel_override") then at_ a "acq_channel" else at_ a "acq_channel_override")
        (if is_none (at_ a "bin_mode") then str "average" else at_ a "bin_mode"); Ok (DSched delay (first ++ acq)%list)).
    rewrite Dl. cbn [bind]. cbv zeta. rewrite F. cbn [bind]. rewrite A. reflexivity. }
  destruct (C62_dispersive _ _ E0 eq_refl NL) as [P [ro [ac [rs [g [_ [_ [_ [_ [_ [_ [_ [_ Pl]]]]]]]]]]]]].
  match goal with |- context [DSched None [(?x, None, zero); _; (?y, None, zero)]] => set (d1 := x); set (d3 := y) end.
  exists (DSched None (fst_ ++ acq)%list). exists (freq_entry (at_ a "clock") (at_ a "freq")), (freq_entry (at_ a "clock") none). split; [exact E0|]. split; [fs|]. split; [fs|]. split; [reflexivity|]. split; [reflexivity|].
  intros o T. change (timing (DSched None [(d1, None, zero); (DSched None (fst_ ++ acq)%list, None, zero); (d3, None, zero)])) with
    (do is <- (do r' <- (do o' <- timing (DSched None (fst_ ++ acq)%list); Ok [Item (slot 1) [{| tc_ref := None; tc_pt := None; tc_ptnew := None; tc_rel := 0 |}] None o'; Item (slot 2) [{| tc_ref := None; tc_pt := None; tc_ptnew := None; tc_rel := 0 |}] None (OLeaf true 0 None)]);
               Ok (Item (slot 0) [{| tc_ref := None; tc_pt := None; tc_ptnew := None; tc_rel := 0 |}] None (OLeaf true 0 None) :: r')); Ok (OSched None None 1 is)) in T.
  apply bindE in T as [is [T E]]. injection E as <-. apply bindE in T as [r' [T E]]. injection E as <-. apply bindE in T as [o0 [T E]]. injection E as <-.
  destruct (Pl o0 T) as [o0' [D [E1 [E2 [_ [_ [p [q [len [_ [_ [_ [LU _]]]]]]]]]]]]].
  assert (S0 : exists r is, o0 = OSched None None r is).
  { cbn [timing bind] in T. apply bindE in T as [is [_ T]]. injection T as <-. eauto. }
  assert (DL : op_delay o0' = None).
  { destruct S0 as [r [is ->]]. rewrite determine_steps in E1. apply bindE in E1 as [? [_ E1]]. apply bindE in E1 as [? [_ E1]]. apply bindE in E1 as [? [_ E1]]. injection E1 as <-. reflexivity. }
  assert (N : NoDup [slot 0; slot 1; slot 2]) by (repeat constructor; cbn; intuition discriminate).
  destruct (three (slot 0) (slot 1) (slot 2) 0 o0 o0' D 0 d1 (DSched None (fst_ ++ acq)%list) d3 _ N ltac:(apply Qle_refl) ltac:(apply Qle_refl) LU E1 E2 DL S0 eq_refl) as [o' [Q1 [[D' [Q2 Q3]] Q4]]].
  exists o', o0, o0', D. split; [exact T|]. split; [exact E1|]. split; [exact E2|]. split; [exact Q1|]. split; [exists D'; split; [exact Q2 | rewrite Q3; ring]|].
  intros t e s. rewrite Q4. assert (S1 : single d1 (freq_entry (at_ a "clock") (at_ a "freq"))) by (eexists; left; reflexivity). assert (S3 : single d3 (freq_entry (at_ a "clock") none)) by (eexists; left; reflexivity).
  rewrite (plays_single _ _ _ _ _ _ _ _ 0 S1 eq_refl), (plays_single _ _ _ _ _ _ _ _ 0 S3 eq_refl).
  split; (intros [[-> X]|[X|[-> X]]]; [left; split; [reflexivity|] | right; left; eapply plays_eq; [exact X | | reflexivity] | right; right; split; [reflexivity|]]); lra.
Qed.
