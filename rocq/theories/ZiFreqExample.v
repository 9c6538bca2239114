(** C64: examples and refutations. *)
From Coq Require Import Lqa Permutation.
From Verif Require Import Base DevModel DevProps ZiFreqModel ZiFreqSpec ZiFreqProps ZiFreqProps2 ZiFreqThms ZiFreqThms2.
Local Open Scope string_scope.

(** Two qubits on an HDAWG whose mixers share an oscillator, in MHz *)
Definition q0 := {| cport := "q0:mw"; cclock := "q0.01"; clo := Some "lo" |}.
Definition q1 := {| cport := "q1:mw"; cclock := "q1.01"; clo := Some "lo" |}.
Definition ro := {| cport := "q0:res"; cclock := "q0.ro"; clo := Some "lo_ro" |}.
Definition devs := [("hdawg0", [q0; q1]); ("uhfqa0", [ro])].
Definition osc := {| lname := "lo"; linstr := "sgs_mw"; lparam := "frequency"; lpower_param := "power"; lpower := Some 13 |}.
Definition osc_ro := {| lname := "lo_ro"; linstr := "sgs_ro"; lparam := "frequency"; lpower_param := "power"; lpower := Some 16 |}.
Definition oscs := [osc; osc_ro].
Definition pcs := [("q0:mw", "q0.01"); ("q1:mw", "q1.01"); ("q0:res", "q0.ro")].
Definition clocks := [("q0.01", 6000); ("q1.01", 6100); ("q0.ro", 7000)].
Definition mods (if0 lo0 if1 lo1 : option Q) := [("q0:mw-q0.01", {| m_if := if0; m_lo := lo0 |}); ("q1:mw-q1.01", {| m_if := if1; m_lo := lo1 |}); ("q0:res-q0.ro", {| m_if := Some 200; m_lo := None |})].
Lemma devs_distinct : distinct (chans devs).
Proof. unfold distinct. cbn. repeat constructor; cbn; intuition discriminate. Qed.
Lemma oscs_separate : separate oscs.
Proof. split; [cbn; repeat constructor; cbn; intuition discriminate|]. intros l l' [<-|[<-|[]]] [<-|[<-|[]]]; split; try discriminate; auto. Qed.
Lemma devs_names : ~ In "generic" (map fst devs).
Proof. cbn. intuition discriminate. Qed.
Lemma mods_acceptable : forall i0 l0 i1 l1, acceptable (mods (Some i0) l0 (Some i1) l1) pcs devs oscs.
Proof.
  intros i0 l0 i1 l1. split; [|split].
  - intros pc m [<-|[<-|[<-|[]]]] L; cbn in L; injection L as <-; [exists q0, "lo", i0 | exists q1, "lo", i1 | exists ro, "lo_ro", 200]; cbn; intuition.
  - intros ch n [<-|[<-|[<-|[]]]] C; injection C as <-; [exists ("q0:mw", "q0.01"); eexists; split; [cbn; auto|]; exists q0 | exists ("q1:mw", "q1.01"); eexists; split; [cbn; auto|]; exists q1 | exists ("q0:res", "q0.ro"); eexists; split; [cbn; auto|]; exists ro];
      (split; [cbn; auto|]; split; [reflexivity|]; split; [reflexivity | reflexivity]).
  - intros n [<-|[<-|[]]]; (split; [discriminate | cbn; intuition discriminate]).
Qed.
(** the hypotheses of C64_setting and C64_own_oscillator hold: the readout plays at 7 GHz, with the oscillator at 6.8 GHz *)
Example c64_example : exists st, compile_freqs (mods (Some 100) None (Some 200) None) pcs devs oscs clocks = Ok st /\ settings st "sgs_ro.frequency" = Some (Some (7000 - 200)) /\ settings st "sgs_mw.frequency" = Some (Some (6000 - 100)) /\ plays_at st oscs ro 7000.
Proof.
  eexists. split; [vm_compute; reflexivity|]. split; [vm_compute; reflexivity|]. split; [vm_compute; reflexivity|]. exists osc_ro, 200, (7000 - 200). split; [cbn; auto|]. split; [reflexivity|]. split; [cbn; auto|]. split; [vm_compute; reflexivity | reflexivity].
Qed.
Example c64_hypotheses : In ro (chans devs) /\ In (cport ro, cclock ro) pcs /\ (forall ch', In ch' (chans devs) -> clo ch' = Some "lo_ro" -> ch' = ro) /\ options (mods (Some 100) None (Some 200) None) ro = Some {| m_if := Some 200; m_lo := None |} /\
  last_options (mods (Some 100) None (Some 200) None) (chans devs) pcs "lo" {| m_if := Some 200; m_lo := None |} /\ first_channel (chans devs) clocks "lo" q0 6000.
Proof.
  split; [cbn; auto|]. split; [cbn; auto|]. split; [intros ch' [<-|[<-|[<-|[]]]] E; auto; discriminate E|]. split; [reflexivity|]. split.
  - exists [("q0:mw", "q0.01")], ("q1:mw", "q1.01"), [("q0:res", "q0.ro")]. split; [reflexivity|]. split; [exists q1; split; [cbn; auto|]; split; [reflexivity|]; split; reflexivity|].
    intros pc' m' [<-|[]] [ch [[<-|[<-|[<-|[]]]] [E [C O]]]]; discriminate.
  - exists [], [q1; ro]. split; [reflexivity|]. split; [reflexivity|]. split; [reflexivity | intros ch' []].
Qed.

(** Every channel plays at the frequency of its clock. *)
Definition AtTheClock : Prop := forall mods pcs devices oscs res st ch f, compile_freqs mods pcs devices oscs res = Ok st -> distinct (chans devices) -> separate oscs -> ~ In "generic" (map fst devices) ->
  In ch (chans devices) -> clo ch <> None -> lookup (cclock ch) res = Some f -> plays_at st oscs ch f.
(** Not if both frequencies are given: their sum is not compared with the clock. *)
Theorem C64_both_given_refuted : ~ AtTheClock.
Proof.
  intros H. destruct (C64_accepts (mods (Some 100) (Some 5000) (Some 100) (Some 5000)) pcs devs oscs clocks devs_distinct oscs_separate devs_names (mods_acceptable _ _ _ _)) as [st E].
  destruct (H _ _ _ _ _ _ q0 6000 E devs_distinct oscs_separate devs_names) as [l [i [lo [I [C [Ci [Sl F]]]]]]]; [cbn; auto | discriminate | reflexivity|].
  vm_compute in E. injection E as <-. destruct I as [<-|[<-|[]]]; [|discriminate C]. vm_compute in Sl. injection Sl as <-. destruct Ci as [X|[X|[X|[]]]]; try discriminate X. injection X as <-. apply Qeq_bool_iff in F. discriminate F.
Qed.
(** And not if two channels share an oscillator that is left open: it is set for the first of them, and nobody checks the second. *)
Theorem C64_shared_refuted : exists mods pcs devices oscs res st ch f, compile_freqs mods pcs devices oscs res = Ok st /\ distinct (chans devices) /\ separate oscs /\ In ch (chans devices) /\ lookup (cclock ch) res = Some f /\
  (exists i, options mods ch = Some {| m_if := Some i; m_lo := None |}) /\ (exists g, plays_at st oscs ch g) /\ ~ plays_at st oscs ch f.
Proof.
  eexists (mods (Some 100) None (Some 100) None), pcs, devs, oscs, clocks, _, q1, 6100. split; [vm_compute; reflexivity|]. split; [apply devs_distinct|]. split; [apply oscs_separate|]. split; [cbn; auto|]. split; [reflexivity|]. split; [eexists; reflexivity|]. split.
  - exists 6000. exists osc, 100, (6000 - 100). split; [cbn; auto|]. split; [reflexivity|]. split; [cbn; auto|]. split; [vm_compute; reflexivity | reflexivity].
  - intros [l [i [lo [I [C [Ci [Sl F]]]]]]]. destruct I as [<-|[<-|[]]]; [|discriminate C]. vm_compute in Sl. injection Sl as <-. destruct Ci as [X|[X|[X|[]]]]; try discriminate X. injection X as <-. apply Qeq_bool_iff in F. discriminate F.
Qed.
(** Two different frequencies for one oscillator are an error (the text of the exception exists: "Multiple frequencies assigned to LocalOscillator"). *)
Definition ConflictRejected : Prop := forall mods pcs devices oscs res n pc pc' m m' f f', distinct (chans devices) -> separate oscs -> In pc pcs -> In pc' pcs -> gives mods (chans devices) n pc m -> gives mods (chans devices) n pc' m' ->
  m_lo m = Some f -> m_lo m' = Some f' -> ~ f == f' -> forall st, compile_freqs mods pcs devices oscs res <> Ok st.
Theorem C64_conflict_refuted : ~ ConflictRejected.
Proof.
  intros H. eapply (H (mods (Some 100) (Some 5900) (Some 200) (Some 5500)) pcs devs oscs clocks "lo" ("q0:mw", "q0.01") ("q1:mw", "q1.01") _ _ 5900 5500 devs_distinct oscs_separate);
    [cbn; auto | cbn; auto | exists q0; split; [cbn; auto|]; split; [reflexivity|]; split; reflexivity | exists q1; split; [cbn; auto|]; split; [reflexivity|]; split; reflexivity | reflexivity | reflexivity | intros X; apply Qeq_bool_iff in X; discriminate X | vm_compute; reflexivity].
Qed.
(** The settings do not depend on the order in which Python goes through the set of used ports and clocks. *)
Definition OrderIrrelevant : Prop := forall mods pcs pcs' devices oscs res st st', Permutation pcs pcs' -> distinct (chans devices) -> separate oscs -> compile_freqs mods pcs devices oscs res = Ok st -> compile_freqs mods pcs' devices oscs res = Ok st' ->
  forall l, In l oscs -> settings st (key l) = settings st' (key l).
Theorem C64_order_refuted : ~ OrderIrrelevant.
Proof.
  intros H. eassert (X : _ = _) by (eapply (H (mods (Some 100) (Some 5900) (Some 200) (Some 5500)) pcs [("q1:mw", "q1.01"); ("q0:mw", "q0.01"); ("q0:res", "q0.ro")] devs oscs clocks _ _ (perm_swap _ _ _) devs_distinct oscs_separate);
    [vm_compute; reflexivity | vm_compute; reflexivity | left; reflexivity]). vm_compute in X. discriminate X.
Qed.
(** It does not matter if the options of one oscillator agree. *)
Theorem C64_agreeing : forall mods pcs devices oscs res st l f, compile_freqs mods pcs devices oscs res = Ok st -> distinct (chans devices) -> separate oscs -> ~ In "generic" (map fst devices) -> In l oscs ->
  (exists ch, In ch (chans devices) /\ clo ch = Some (lname l) /\ In (cport ch, cclock ch) pcs /\ options mods ch <> None) ->
  (forall pc m, In pc pcs -> gives mods (chans devices) (lname l) pc m -> m_lo m = Some f) -> settings st (key l) = Some (Some f).
Proof.
  intros mods pcs devices oscs res st l f H D Se G I [ch [Ic [C [Ip O]]]] A. destruct (options mods ch) as [m0|] eqn:Om; [|congruence].
  destruct (compiled _ _ _ _ _ _ H D Se G) as [v [w [Cs [Nn [V [_ [W2 [st0 [L0 [S0 Pl]]]]]]]]]].
  assert (exists pre pc' post m', pcs = (pre ++ pc' :: post)%list /\ gives mods (chans devices) (lname l) pc' m' /\ forall p q, In p post -> ~ gives mods (chans devices) (lname l) p q) as [pre [pc' [post [m' [E [Gv N]]]]]].
  { assert (Gv : gives mods (chans devices) (lname l) (cport ch, cclock ch) m0) by (exists ch; auto). clear - Ip Gv. revert Ip Gv. generalize (cport ch, cclock ch) as pc. revert m0. induction pcs as [|p r IH]; intros m pc Ip Gv; [easy|].
    destruct (existsb (fun p => existsb (fun c => (cport c =? fst p) && (cclock c =? snd p) && match clo c with Some n => n =? lname l | None => false end && match options mods c with Some _ => true | None => false end) (chans devices)) r) eqn:X.
    - apply existsb_exists in X as [p' [Ip' X]]. apply existsb_exists in X as [c [Ic X]]. rewrite !andb_true_iff in X. destruct X as [[[X1 X2] X3] X4]. apply String.eqb_eq in X1, X2. destruct (clo c) as [n|] eqn:C; [|discriminate X3]. apply String.eqb_eq in X3. subst n.
      destruct (options mods c) as [q|] eqn:O; [|discriminate X4].
      destruct (IH q p' Ip') as [pre [pc' [post [m' [-> R]]]]]; [exists c; split; auto; split; [rewrite X1, X2; now destruct p' | auto]|]. exists (p :: pre), pc', post, m'. auto.
    - assert (No : forall p' q, In p' r -> ~ gives mods (chans devices) (lname l) p' q).
      { intros p' q Ip' [c [Ic [<- [C O]]]]. assert (Y : existsb (fun p => existsb (fun c => (cport c =? fst p) && (cclock c =? snd p) && match clo c with Some n => n =? lname l | None => false end && match options mods c with Some _ => true | None => false end) (chans devices)) r = true); [|congruence].
        apply existsb_exists. eexists. split; [exact Ip'|]. apply existsb_exists. exists c. split; auto. cbn [fst snd]. now rewrite !String.eqb_refl, C, O, String.eqb_refl. }
      destruct Ip as [->|Ip]; [exists [], pc, r, m; auto | exfalso; eapply No; eauto]. }
  destruct (C64_setting _ _ _ _ _ _ l m' H D Se G I) as [S1 _]; [exists pre, pc', post; auto|]. apply S1. apply (A pc'); auto. rewrite E. apply in_or_app. right. now left.
Qed.
