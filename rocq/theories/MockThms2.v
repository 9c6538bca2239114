(** C72: what the backend refuses, and where it does not do what a user would expect. *)
From Coq Require Import Permutation Ascii.
From Verif Require Import Base UpdModel UpdProps AcqChanModel AcqChanProps AcqChanProps2 MockModel MockProps MockProps2 MockThms.
From Verif Require PathModel.
Local Open Scope Z_scope.
Local Open Scope string_scope.
Local Open Scope list_scope.

Lemma compile_fold env cfg l p : compile env cfg l = Ok p -> exists s k, generate_acq (tree_of l) = Ok s /\ foldM (comp_step env cfg (labels s)) l kst0 = Ok k.
Proof.
  unfold compile. destruct (generate_acq _) as [s|]; [|discriminate]. cbn [bind]. destruct (g_rate cfg); [|discriminate]. destruct (foldM _ _ _) as [k|] eqn:E; [|discriminate]. eauto.
Qed.

(** Only pulses, traces and averaged single-sideband integrations are compiled. *)
Theorem C72_unsupported : forall env cfg l it, In it l ->
  match m_op it with
  | ONested _ | OOther => True
  | OAcq a _ _ => i_proto a <> Trace /\ (i_proto a <> SSBIntegrationComplex \/ i_mode a <> AVERAGE)
  | OPulse _ => False
  end -> ~ is_ok (compile env cfg l).
Proof.
  intros env cfg l it Hi Hop [p H]. destruct (compile_fold _ _ _ _ H) as [s [k [_ HF]]]. destruct (comp_kinds _ _ _ _ _ _ HF) as [HK HO].
  destruct (m_op it) as [q|a pt c|x|] eqn:Eo; try destruct (HO it Hi) as [[q Eq]|[a' [p' [c' Eq]]]]; try (rewrite Eo in *; discriminate); try contradiction.
  clear Eq. assert (Ha : In {| a_label := m_label it; a_info := a; a_pc := pc pt c |} (acqs l)) by (unfold acqs; apply in_flat_map; exists it; split; [exact Hi|rewrite Eo; left; reflexivity]).
  destruct (HK _ Ha) as [K|[K1 [K2 _]]]; cbn [a_info] in *; intuition congruence.
Qed.

(** Traces with different gains are refused. *)
Theorem C72_gain_conflict : forall env cfg l d a b x y, NoDup (map m_label l) -> same_hash l -> g_gain cfg = Some d ->
  In a (traces_of l) -> In b (traces_of l) -> lookup (a_pc a) d = Some x -> lookup (a_pc b) d = Some y -> ~ (x == y)%Q ->
  ~ is_ok (compile env cfg l).
Proof.
  intros env cfg l d a b x y HN HH Hd Ha Hb Hx Hy Hne [p H]. destruct (compile_fold _ _ _ _ H) as [s [k [HG HF]]].
  pose proof (keys_distinct _ _ _ _ _ HN HG HF) as HD. destruct (comp_inv _ _ _ _ _ HH HD HF) as [_ _ _ _ _ G _ _ _].
  unfold gain_inv in G. rewrite Hd in G. destruct G as [_ G]. apply filter_In in Ha, Hb. destruct Ha as [Ha1 Ha2], Hb as [Hb1 Hb2].
  destruct (G a Ha1 Ha2) as [x' [g [Eg [Ex Exg]]]]. destruct (G b Hb1 Hb2) as [y' [g' [Eg' [Ey Eyg]]]]. apply Hne.
  assert (x' = x) by congruence. assert (y' = y) by congruence. assert (g' = g) by congruence. subst. rewrite Exg, Eyg. reflexivity.
Qed.
(** So are pulses without an intermediate frequency and traces without a gain (if gains are given). *)
Theorem C72_missing_options : forall env cfg l, NoDup (map m_label l) -> same_hash l -> is_ok (compile env cfg l) ->
  (forall p, In p (pulses l) -> exists d f, g_mod cfg = Some d /\ lookup (pc (p_port p) (p_clock p)) d = Some (Some f)) /\
  (forall d a, g_gain cfg = Some d -> In a (traces_of l) -> exists x, lookup (a_pc a) d = Some x).
Proof.
  intros env cfg l HN HH [p H]. destruct (compile_fold _ _ _ _ H) as [s [k [HG HF]]].
  pose proof (keys_distinct _ _ _ _ _ HN HG HF) as HD. destruct (comp_inv _ _ _ _ _ HH HD HF) as [_ _ _ _ _ G W _ _]. split.
  - intros q Hq. destruct W as [W _]. destruct (W q Hq) as [d [f [A [B _]]]]. eauto.
  - intros d a Hd Ha. unfold gain_inv in G. rewrite Hd in G. destruct G as [_ G]. apply filter_In in Ha. destruct Ha as [Ha Ht]. destruct (G a Ha Ht) as [x [_ [_ [Ex _]]]]. eauto.
Qed.

(** Two acquisitions never write to the same location, and every pulse is uploaded, modulated with the frequency of its own port-clock combination. *)
Theorem C72_program : forall env cfg l p, NoDup (map m_label l) -> same_hash l -> compile env cfg l = Ok p ->
  NoDup (map snd (s_trace p) ++ map snd (s_bin p)) /\
  (forall q, In q (pulses l) -> exists d f, g_mod cfg = Some d /\ lookup (pc (p_port q) (p_clock q)) d = Some (Some f) /\ In (env q f) (s_waves p)).
Proof.
  intros env cfg l p HN HH H. destruct (compile_fold _ _ _ _ H) as [s [k [HG HF]]]. unfold compile in H. rewrite HG in H. cbn [bind] in H. destruct (g_rate cfg) as [rate0|]; [|discriminate]. rewrite HF in H. cbn [bind] in H. injection H as <-.
  pose proof (keys_distinct _ _ _ _ _ HN HG HF) as HD. destruct (comp_inv _ _ _ _ _ HH HD HF) as [_ _ _ T B _ W _ _]. cbn [s_trace s_bin s_waves]. split.
  - rewrite T, B. clear. assert (HNN : NoDup (map snd (numbered (acqs l)))) by (rewrite numbered_locs; apply seq_NoDup). revert HNN. generalize (numbered (acqs l)) as N. intros N HNN.
    eapply Permutation_NoDup; [|exact HNN]. clear HNN. induction N as [|x N IH]; [constructor|]. cbn [trace_map bin_map flat_map map]. fold (trace_map N) (bin_map (labels s) N).
    destruct (is_trace (fst x)); cbn [app map snd]; [constructor; exact IH|]. transitivity (snd x :: (map snd (trace_map N) ++ map snd (bin_map (labels s) N))); [constructor; exact IH|apply Permutation_middle].
  - intros q Hq. destruct W as [W _]. destruct (W q Hq) as [d [f [A [C E]]]]. exists d, f. split; [exact A|]. split; [exact C|].
    clear -E. induction (k_waves k) as [|[h w] r IH]; [discriminate|]. cbn [lookup] in E. destruct (String.eqb _ h); [left; cbn; congruence|right; apply IH, E].
Qed.

(** Nothing can be started or retrieved before a program was prepared. *)
Theorem C72_unprepared : forall rnd, start rnd comp0 = Err RuntimeError /\ retrieve comp0 = Err RuntimeError.
Proof. intros rnd. split; reflexivity. Qed.

(** ** Examples and refutations *)
Definition mk (h : string) : pulse := {| p_hash := h; p_port := "q0:res"; p_clock := "q0.ro"; p_wf := true |}.
Definition tr (c : Z) : info := {| i_chan := c; i_proto := Trace; i_mode := AVERAGE; i_index := None; i_coords := 0 |}.
Definition si (c : Z) : info := {| i_chan := c; i_proto := SSBIntegrationComplex; i_mode := AVERAGE; i_index := None; i_coords := 0 |}.
Definition at_ (n t : Z) (o : mop) : item := {| m_label := n; m_time := t; m_op := o |}.
Definition ro (a : info) : mop := OAcq a "q0:res" "q0.ro".
(** the configuration of the module (l.387-405), with a sampling rate that is a multiple of 1 GHz *)
Definition cfg0 : config :=
  {| g_edges := [("mock_rom.input0", "q0:res"); ("mock_rom.input1", "q1:res")]; g_rate := Some 2000000000%Q;
     g_gain := Some [("q0:res-q0.ro", 2%Q); ("q1:res-q1.ro", 2%Q)]; g_mod := Some [("q0:res-q0.ro", Some 100000000%Q); ("q1:res-q1.ro", Some 50000000%Q)] |}.
(** eight samples 0, 1, ..., 7 (and their negatives), shifted by 10 for any pulse but "a" *)
Definition env0 (p : pulse) (f : Q) : wave := map (fun j => let x := (inject_Z (Z.of_nat j) + if String.eqb (p_hash p) "a" then 0 else 10)%Q in (x, - x)%Q) (seq 0 8).

(** a trace between two binned acquisitions of channel 1, added in the order opposite to their times *)
Definition sched0 : list item := [at_ 1 0 (OPulse (mk "a")); at_ 2 300 (ro (si 1)); at_ 3 100 (ro (tr 0)); at_ 4 200 (ro (si 1))].
Example C72_acquisitions_example :
  NoDup (map m_label sched0) /\ same_hash sched0 /\ (exists p, compile env0 cfg0 sched0 = Ok p) /\ hw_ports cfg0 = Ok ["input0"] /\ plain ["input0"] /\ (1000000000 <= 2000000000)%Q /\ acqs sched0 <> [] /\
  (traces_of sched0 <> [] -> exists w, first_wave env0 cfg0 sched0 w /\ forall v g, seen (step_of 2000000000) g w v -> time_points (List.length v) = Z.of_nat (List.length v)).
Proof.
  split; [|split; [|split; [|split; [|split; [|split; [|split]]]]]].
  - repeat constructor; cbn; intuition lia.
  - intros p q [<-|[]] [<-|[]] _. reflexivity.
  - eexists. vm_compute. reflexivity.
  - vm_compute. reflexivity.
  - intros hp [<-|[]]. split; reflexivity.
  - vm_compute. discriminate.
  - vm_compute. discriminate.
  - intros _. eexists. split.
    + exists (mk "a"), []. eexists. eexists. split; [reflexivity|]. split; [reflexivity|]. split; [reflexivity|reflexivity].
    + intros v g [Hv _]. assert (A3 : (3 < List.length v)%nat) by (apply Hv; vm_compute; lia). assert (A4 : ~ (4 < List.length v)%nat) by (rewrite Hv; vm_compute; lia).
      replace (List.length v) with 4%nat by lia. vm_compute. reflexivity.
Qed.
Definition outcome (rnd : nat -> Q) (env : pulse -> Q -> wave) (cfg : config) (l : list item) : result dataset :=
  do p <- compile env cfg l; do c <- start rnd (prepare p comp0); retrieve c.
Definition count (n : nat) : Q := inject_Z (Z.of_nat n).
Example C72_outcome_example : exists d, outcome count env0 cfg0 sched0 = Ok d /\ ds_bins d = [((1, 1), 0%Q); ((1, 0), 1%Q)] /\
  map (fun x => (fst x, map (fun z => (Qred (fst z), Qred (snd z))) (snd x))) (ds_traces d) = [(0, [(0, 0); (4, -4#1); (8, -8#1); (12, -12#1)]%Q)].
Proof. eexists. split; [vm_compute; reflexivity|]. split; vm_compute; reflexivity. Qed.

(** A trace shows the first pulse only, and whatever the times are: here both pulses are played after the trace, and the second one is not seen. *)
Theorem C72_first_pulse_only_refuted : exists l l' d, l <> l' /\ outcome count env0 cfg0 l = Ok d /\ outcome count env0 cfg0 l' = Ok d /\
  l = [at_ 1 0 (ro (tr 0)); at_ 2 1000 (OPulse (mk "a")); at_ 3 2000 (OPulse (mk "b"))] /\
  l' = [at_ 1 0 (ro (tr 0)); at_ 2 1000 (OPulse (mk "a"))].
Proof. eexists. eexists. eexists. split; [|split; [|split; [|split; reflexivity]]]; [discriminate|vm_compute; reflexivity|vm_compute; reflexivity]. Qed.

(** A trace of 15 samples cannot be retrieved: np.arange(0, 15e-9, 1e-9) has 16 points. *)
Theorem C72_fifteen_samples_refuted : exists env p c, compile env cfg0 [at_ 1 0 (OPulse (mk "a")); at_ 2 0 (ro (tr 0))] = Ok p /\
  start count (prepare p comp0) = Ok c /\ (forall q f, List.length (env q f) = 30%nat) /\ retrieve c = Err ValueError.
Proof.
  exists (fun _ _ => repeat (1%Q, 0%Q) 30). eexists. eexists. split; [vm_compute; reflexivity|]. split; [vm_compute; reflexivity|]. split; [reflexivity|vm_compute; reflexivity].
Qed.
(** A trace without any pulse cannot be retrieved. *)
Theorem C72_no_pulse_refuted : outcome count env0 cfg0 [at_ 1 0 (ro (tr 0))] = Err IndexError.
Proof. vm_compute. reflexivity. Qed.
(** A port name with underscores is not understood by the module. *)
Theorem C72_underscore_refuted :
  outcome count env0 {| g_edges := [("mock_rom.complex_input_0", "q0:res")]; g_rate := g_rate cfg0; g_gain := g_gain cfg0; g_mod := g_mod cfg0 |} sched0 = Err ValueError.
Proof. vm_compute. reflexivity. Qed.
(** The connected input of an acquisition's own port is ignored: every acquisition is made on the inputs connected to "q0:res". *)
Theorem C72_other_port_refuted : exists p, compile env0 cfg0 [at_ 1 0 (OPulse (mk "a")); at_ 2 0 (OAcq (tr 0) "q1:res" "q1.ro")] = Ok p /\
  map n_port (s_instr p) = ["input0"] /\ PathModel.neighbors (g_edges cfg0) "q1:res" = ["mock_rom.input1"].
Proof. eexists. split; [vm_compute; reflexivity|]. split; vm_compute; reflexivity. Qed.
(** With a sampling rate below 1 GHz traces cannot be executed. *)
Theorem C72_slow_refuted :
  outcome count env0 {| g_edges := g_edges cfg0; g_rate := Some 500000000%Q; g_gain := g_gain cfg0; g_mod := g_mod cfg0 |} sched0 = Err OtherErr.
Proof. vm_compute. reflexivity. Qed.
Example C72_gain_conflict_example :
  compile env0 {| g_edges := g_edges cfg0; g_rate := g_rate cfg0; g_gain := Some [("q0:res-q0.ro", 2%Q); ("q1:res-q1.ro", 3%Q)]; g_mod := g_mod cfg0 |}
    [at_ 1 0 (OPulse (mk "a")); at_ 2 0 (ro (tr 0)); at_ 3 0 (OAcq (tr 1) "q1:res" "q1.ro")] = Err ValueError.
Proof. vm_compute. reflexivity. Qed.
Example C72_unsupported_example : compile env0 cfg0 [at_ 1 0 (ro {| i_chan := 1; i_proto := SSBIntegrationComplex; i_mode := APPEND; i_index := None; i_coords := 0 |})] = Err NotImplementedErr.
Proof. vm_compute. reflexivity. Qed.
Print Assumptions C72_acquisitions_partial.
