(** C43: a concrete case that meets the hypotheses of the theorems, and the limits of the assignment. *)
From Verif Require Import Base CircModel CircProps CircProps5 PathModel PathStr PathSpec PathProps PathProps2 PathProps3 PathProps4 PathProps5 PathProps6 PathThms PathThms2 PathThms3 PathThms4 PathThms5.
From Coq Require Import Ascii DecimalString Lia Permutation.
Open Scope list_scope.
Open Scope string_scope.
Open Scope Z_scope.

(** ** An example *)
Definition ex_hw : dict hwdesc := [("cluster0", HCluster [(1, QCM); (2, QRM)]); ("lo0", HLO); ("iq0", HOther)].
Definition ex_E : list (string * string) :=
  [("cluster0.module1.complex_output_0", "iq0.if"); ("lo0.output", "iq0.lo"); ("iq0.rf", "q0:mw"); ("cluster0.module1.real_output_2", "q0:fl");
   ("cluster0.module2.complex_output_0", "q0:res"); ("cluster0.module2.complex_input_0", "q0:res")].
Definition ex_used : list (string * string) := [("q0:mw", "q0.01"); ("q0:mw", "q0.12"); ("q0:fl", "cl0.baseband"); ("q0:res", "q0.ro"); ("q0:res", "q0.ro2")].
Definition ex_opts : dict (dict Z) := [("modulation", [("q0:mw-q0.01", 5); ("q0:res-q0.ro", 7)])].
Definition cfg i pc ch me lo op : seqcfg := {| q_idx := i; q_pc := pc; q_ch := ch; q_meas := me; q_lo := lo; q_opts := op |}.
Definition ex_res : list (string * list (Z * list seqcfg)) :=
  [("cluster0",
    [(1, [cfg 0 "q0:fl-cl0.baseband" "real_output_2" None None []; cfg 1 "q0:mw-q0.01" "complex_output_0" None (Some "lo0") [("modulation", 5)]; cfg 2 "q0:mw-q0.12" "complex_output_0" None (Some "lo0") []]);
     (2, [cfg 0 "q0:res-q0.ro" "complex_output_0" (Some ["complex_input_0"]) None [("modulation", 7)]; cfg 1 "q0:res-q0.ro2" "complex_output_0" (Some ["complex_input_0"]) None []])])].

Ltac nodup := repeat (constructor; [cbn; intuition discriminate|]); constructor.
Lemma ex_assigned : assign_sequencers ex_hw ex_E ex_opts ex_used = Ok ex_res.
Proof. vm_compute. reflexivity. Qed.
Lemma ex_wf : WfHw ex_hw.
Proof. split; [nodup|]. intros c mods [h|[h|[h|[]]]]; inversion h; subst. nodup. Qed.
Lemma ex_nodup : NoDup ex_used /\ NoDup (map fst ex_opts). Proof. split; nodup. Qed.
Lemma ex_distinct : Distinct ex_used.
Proof. intros p c p' c' h h' e. cbn in h, h'. repeat (destruct h as [h|h]; [inversion h; subst p c; clear h|]); try destruct h; repeat (destruct h' as [h'|h']; [inversion h'; subst p' c'; clear h'|]); try destruct h'; try discriminate; auto. Qed.
(** the elements mixers of the example can be *)
Lemma at_mixer_inv hw E port x : AtMixer hw E port x -> exists t, In t (neighbors E port) /\ before_last t = Some x /\ is_path hw t = false.
Proof. intros (t & h1 & h2 & h3). exists t. split; [now apply neighbors_in|]. split; [now apply terminal_spec|now apply is_path_false]. Qed.
Lemma ex_mixers port clock x : In (port, clock) ex_used -> AtMixer ex_hw ex_E port x -> port = "q0:mw" /\ x = "iq0".
Proof. intros h hx. apply at_mixer_inv in hx as (t & h1 & h2 & h3).
  cbn in h. repeat (destruct h as [h|h]; [inversion h; subst port clock; clear h|]); try destruct h.
  all: match type of h1 with In _ ?l => let c := eval vm_compute in l in change l with c in h1 end; cbn in h1; repeat (destruct h1 as [h1|h1]; [subst t; vm_compute in h2, h3; try discriminate; inversion h2; auto|]); destruct h1. Qed.
Lemma ex_plain : Plain ex_hw ex_E ex_used.
Proof. intros port clock x h hx. destruct (ex_mixers _ _ _ h hx) as (_ & ->). assert (C : forall pat, contains pat "iq0" = false -> ~ Has pat "iq0") by (intros pat e hp; apply contains_spec in hp; congruence). repeat split; apply C; reflexivity. Qed.
Definition without (c : ascii) (s : string) : bool := negb (existsb (Ascii.eqb c) (list_ascii_of_string s)).
Lemma lacks_of c s : without c s = true -> Lacks c s.
Proof. unfold without, Lacks. intros h hi. apply negb_true_iff in h. assert (existsb (Ascii.eqb c) (list_ascii_of_string s) = true) by (apply existsb_exists; exists c; split; [auto|apply Ascii.eqb_refl]). congruence. Qed.
Lemma ex_direct port : port = "q0:fl" \/ port = "q0:res" -> HasDirect ex_hw ex_E port /\ forall x, ~ AtMixer ex_hw ex_E port x.
Proof. intros h. assert (U : exists clock, In (port, clock) ex_used) by (destruct h as [-> | ->]; eexists; cbn; eauto 10). destruct U as (clock & hu). split.
  - destruct h as [-> | ->]; [exists "cluster0.module1.real_output_2"|exists "cluster0.module2.complex_output_0"]; (split; [left + right; cbn; tauto|]); exists "cluster0"; eexists; (split; [now left|]); (split; [now apply lacks_of|]); right; eexists; reflexivity.
  - intros x hx. destruct (ex_mixers _ _ _ hu hx) as (e & _). destruct h; congruence. Qed.
Lemma ex_mw : ~ HasDirect ex_hw ex_E "q0:mw" /\ AtMixer ex_hw ex_E "q0:mw" "iq0".
Proof. split.
  - intros (n & h1 & h2). apply neighbors_in in h1. match type of h1 with In _ ?l => let c := eval vm_compute in l in change l with c in h1 end. destruct h1 as [<-|[]]. apply is_path_spec in h2. discriminate.
  - exists "iq0.rf". split; [exists "rf"; split; [reflexivity|now apply lacks_of]|]. split; [right; cbn; tauto|]. apply is_path_false. reflexivity. Qed.
(** all theorems apply to it *)
Theorem C43_example : WfHw ex_hw /\ NoDup ex_used /\ Distinct ex_used /\ Plain ex_hw ex_E ex_used /\ assign_sequencers ex_hw ex_E ex_opts ex_used = Ok ex_res /\
  (exists cl m i s, Given ex_res cl i s /\ For s "q0:res" "q0.ro2" /\ Slot m i /\ (forall ch, Uses s ch <-> Direct ex_hw ex_E "q0:res" cl m ch)) /\
  (exists cl m i s, Given ex_res cl i s /\ For s "q0:mw" "q0.12" /\ Slot m i /\ Mixed ex_hw ex_E "q0:mw" cl m (q_ch s)).
Proof. split; [apply ex_wf|]. split; [apply ex_nodup|]. split; [apply ex_distinct|]. split; [apply ex_plain|]. split; [apply ex_assigned|]. split.
  - destruct (ex_direct "q0:res" (or_intror eq_refl)) as (d1 & d2). destruct (C43_all _ _ _ _ _ "q0:res" "q0.ro2" ex_wf (proj1 ex_nodup) ex_distinct ex_plain ex_assigned ltac:(cbn; tauto) d1 d2) as (cl & m & i & s & a & b & c & d & _). exists cl, m, i, s. auto.
  - destruct (C43_mixer _ _ _ _ _ "q0:mw" "q0.12" "iq0" ex_wf (proj1 ex_nodup) ex_distinct ex_plain ex_assigned ltac:(cbn; tauto) (proj1 ex_mw) (proj2 ex_mw)) as (cl & m & i & s & a & b & c & _ & d). exists cl, m, i, s. auto. Qed.

Theorem C43_lo_example : forall cl i s, Given ex_res cl i s -> For s "q0:mw" "q0.12" -> exists lo, q_lo s = Some lo.
Proof. intros cl i s g f. refine (C43_lo_complete _ _ _ _ _ cl i s "q0:mw" "q0.12" ex_wf (proj1 ex_nodup) ex_distinct ex_plain ex_assigned _ _ g f _ (proj1 ex_mw)).
  - intros port clock x n hu hx he. destruct (ex_mixers _ _ _ hu hx) as (-> & _). intros ho. apply (proj1 ex_mw). exists n; auto.
  - intros port clock x port' clock' x' t n t' n' lo hu hu' hx hx' _ _ _ _ _ _. destruct (ex_mixers _ _ _ hu hx) as (_ & ->). destruct (ex_mixers _ _ _ hu' hx') as (_ & ->). reflexivity.
  - cbn. tauto. Qed.
(** a case without mixers, for acceptance and independence of the order *)
Definition dir_E : list (string * string) := [("cluster0.module1.real_output_2", "q0:fl"); ("cluster0.module2.complex_output_0", "q0:res"); ("cluster0.module2.complex_input_0", "q0:res")].
Definition dir_used : list (string * string) := [("q0:fl", "cl0.baseband"); ("q0:res", "q0.ro"); ("q0:res", "q0.ro2")].
Lemma ex_channel m ch : without "." m = true -> without "." ch = true -> Channel ex_hw ("cluster0." ++ m ++ "." ++ ch) "cluster0" m ch.
Proof. intros h1 h2. split; [reflexivity|]. split; [now apply lacks_of|]. split; [now apply lacks_of|]. split; [now apply lacks_of|]. eexists; now left. Qed.
Lemma edge_nbrs E port l : neighbors E port = l -> forall x, Edge E port x <-> In x l.
Proof. intros <- x. symmetry. apply neighbors_in. Qed.
Lemma dir_ready port clock : In (port, clock) dir_used -> Lacks "-" port /\ Lacks "-" clock /\ Ready ex_hw dir_E port.
Proof. intros h. assert (P : port = "q0:fl" \/ port = "q0:res") by (cbn in h; intuition congruence). split; [destruct P as [-> | ->]; now apply lacks_of|]. split; [cbn in h; repeat (destruct h as [h|h]; [inversion h; subst; now apply lacks_of|]); destruct h|].
  destruct P as [-> | ->].
  - exists "cluster0", "module1", 1, [(1, QCM); (2, QRM)], QCM, "real_output_2". split; [now left|]. split; [now left|]. split; [exists (Decimal.D1 Decimal.Nil); repeat split; discriminate|]. split; [discriminate|]. left. split.
    + exists "cluster0.module1.real_output_2". split; [now apply (ex_channel "module1" "real_output_2")|]. intros x. rewrite (edge_nbrs dir_E "q0:fl" ["cluster0.module1.real_output_2"] ltac:(match goal with |- neighbors _ ?p = _ => vm_compute; reflexivity end)). cbn. intuition congruence.
    + left. right. left. exists 2%nat. split; [lia|reflexivity].
  - exists "cluster0", "module2", 2, [(1, QCM); (2, QRM)], QRM, "complex_output_0". split; [now left|]. split; [right; now left|]. split; [exists (Decimal.D2 Decimal.Nil); repeat split; discriminate|]. split; [discriminate|]. right. exists "complex_input_0". split.
    + exists "cluster0.module2.complex_output_0", "cluster0.module2.complex_input_0". split; [now apply (ex_channel "module2" "complex_output_0")|]. split; [now apply (ex_channel "module2" "complex_input_0")|]. split.
      * intros x. rewrite (edge_nbrs dir_E "q0:res" ["cluster0.module2.complex_output_0"; "cluster0.module2.complex_input_0"] ltac:(match goal with |- neighbors _ ?p = _ => vm_compute; reflexivity end)). cbn. intuition congruence.
      * exists [("cluster0.module1.real_output_2", "q0:fl"); ("cluster0.module2.complex_output_0", "q0:res")], [("cluster0.module2.complex_input_0", "q0:res")]. split; [reflexivity|]. split; [right; right; now left|]. intros [h'|h']; cbn in h'; intuition discriminate.
    + split; left; exists 0%nat; (split; [lia|reflexivity]). Qed.
Theorem C43_accept_example : exists res, assign_sequencers ex_hw dir_E ex_opts dir_used = Ok res /\ assign_sequencers ex_hw dir_E ex_opts (rev dir_used) = Ok res.
Proof. assert (nu : NoDup dir_used) by nodup. destruct (C43_accept ex_hw dir_E ex_opts dir_used ex_wf nu dir_ready) as (res & h).
  - intros cl mods i k l hm hi nl hl. assert (len : (List.length l <= List.length dir_used)%nat) by (apply NoDup_incl_length; [auto|]; intros (p, c) h; now apply hl). cbn in len. destruct k; cbn; lia.
  - exists res. split; [exact h|]. refine (C43_order _ _ _ dir_used _ _ ex_wf nu _ (Permutation_rev _) _ h).
    + intros p c p' c' h1 h2 e. apply (key_inj p c p' c' p c); [apply dash_split; now apply (dir_ready _ _ h1)|exact e].
    + intros port clock x hu hx. apply at_mixer_inv in hx as (t & h1 & h2 & h3). cbn in hu. repeat (destruct hu as [hu|hu]; [inversion hu; subst port clock; clear hu|]); try destruct hu.
      all: match type of h1 with In _ ?l => let c := eval vm_compute in l in change l with c in h1 end; cbn in h1; repeat (destruct h1 as [h1|h1]; [subst t; vm_compute in h3; discriminate|]); destruct h1. Qed.

(** ** Limits *)
(** The order in which the connections of a readout port are listed matters: input first is refused as soon as the port is used with two clocks. *)
Definition io_E : list (string * string) := [("cluster0.module2.complex_input_0", "q0:res"); ("cluster0.module2.complex_output_0", "q0:res")].
Theorem C43_refuted_input_first : (exists r, assign_sequencers ex_hw io_E [] [("q0:res", "q0.ro")] = Ok r) /\ assign_sequencers ex_hw io_E [] [("q0:res", "q0.ro"); ("q0:res", "q0.ro2")] = Err ValueError /\
  exists r, assign_sequencers ex_hw (rev io_E) [] [("q0:res", "q0.ro"); ("q0:res", "q0.ro2")] = Ok r.
Proof. split; [eexists; vm_compute; reflexivity|]. split; [vm_compute; reflexivity|eexists; vm_compute; reflexivity]. Qed.
(** One local oscillator behind two mixers: only the sequencer of one of the channels knows it; which one depends on the order in which a set of port-clocks is enumerated. *)
Definition lo_E : list (string * string) :=
  [("cluster0.module1.complex_output_0", "iq0.if"); ("lo0.output", "iq0.lo"); ("iq0.rf", "q0:mw"); ("cluster0.module1.complex_output_1", "iq1.if"); ("lo0.output", "iq1.lo"); ("iq1.rf", "q1:mw")].
Theorem C43_refuted_shared_lo : exists r r', assign_sequencers ex_hw lo_E [] [("q0:mw", "q0.01"); ("q1:mw", "q1.01")] = Ok r /\ assign_sequencers ex_hw lo_E [] [("q1:mw", "q1.01"); ("q0:mw", "q0.01")] = Ok r' /\
  Given r "cluster0" 1 (cfg 0 "q0:mw-q0.01" "complex_output_0" None None []) /\ Given r' "cluster0" 1 (cfg 0 "q0:mw-q0.01" "complex_output_0" None (Some "lo0") []).
Proof. do 2 eexists. split; [vm_compute; reflexivity|]. split; [vm_compute; reflexivity|]. split; do 2 eexists; (split; [left; reflexivity|]); (split; [left; reflexivity|]); left; reflexivity. Qed.
(** On a QRC the sequencers are handed out greedily in alphabetical order: nine port-clocks are refused although they fit, and are accepted under another port name. *)
Definition qrc_hw : dict hwdesc := [("c", HCluster [(1, QRC)])].
Definition qrc_E (p : string) : list (string * string) := [("c.module1.complex_output_2", p); ("c.module1.complex_output_0", "x")].
Definition qrc_used (p : string) : list (string * string) := [(p, "1"); (p, "2"); ("x", "1"); ("x", "2"); ("x", "3"); ("x", "4"); ("x", "5"); ("x", "6"); ("x", "7")].
Theorem C43_refuted_greedy : assign_sequencers qrc_hw (qrc_E "b") [] (qrc_used "b") = Err ValueError /\
  (exists ss, map (fun s => q_pc s) ss = map (fun '(p, c) => p ++ "-" ++ c) (qrc_used "b") /\ NoDup (map q_idx ss) /\ Forall (Connectable QRC) ss /\
     Forall (fun s => forall p c, For s p c -> In (p, c) (qrc_used "b") -> Wired qrc_hw (qrc_E "b") p "c" "module1" (q_ch s)) ss) /\
  exists r, assign_sequencers qrc_hw (qrc_E "y") [] (qrc_used "y") = Ok r.
Proof. split; [vm_compute; reflexivity|]. split; [|eexists; vm_compute; reflexivity].
  pose (o2 := "complex_output_2"). pose (o0 := "complex_output_0").
  exists [cfg 8 "b-1" o2 None None []; cfg 9 "b-2" o2 None None []; cfg 0 "x-1" o0 None None []; cfg 1 "x-2" o0 None None []; cfg 2 "x-3" o0 None None []; cfg 3 "x-4" o0 None None []; cfg 4 "x-5" o0 None None []; cfg 5 "x-6" o0 None None []; cfg 6 "x-7" o0 None None []].
  split; [reflexivity|]. split; [nodup|]. split.
  - assert (D : forall i pc, 8 <= i < 12 -> Connectable QRC (cfg i pc o2 None None [])).
    { intros i pc hi. split; [cbn [q_idx cfg n_sequencers]; lia|]. left. right. change (q_idx (cfg i pc o2 None None [])) with i. destruct (Z.ltb_spec i 8); [lia|]. exists 2%nat. split; [lia|reflexivity]. }
    assert (R : forall i pc, 0 <= i < 8 -> Connectable QRC (cfg i pc o0 None None [])).
    { intros i pc hi. split; [cbn [q_idx cfg n_sequencers]; lia|]. left. right. change (q_idx (cfg i pc o0 None None [])) with i. destruct (Z.ltb_spec i 8); [|lia]. left. exists 0%nat. split; [lia|reflexivity]. }
    repeat (apply Forall_cons; [first [apply D; lia|apply R; lia]|]). apply Forall_nil.
  - assert (C : forall ch, without "." ch = true -> Channel qrc_hw ("c.module1." ++ ch) "c" "module1" ch) by (intros ch hc; split; [reflexivity|]; split; [now apply lacks_of|]; split; [now apply lacks_of|]; split; [now apply lacks_of|]; eexists; now left).
    rewrite Forall_forall. intros s hs p c hf hp. cbn in hs, hp. unfold For in hf.
    repeat (destruct hp as [hp|hp]; [inversion hp; subst p c; clear hp|]); try destruct hp; repeat (destruct hs as [hs|hs]; [subst s; try discriminate hf|]); try destruct hs; left; eexists; (split; [apply C; reflexivity|right; cbn; tauto]). Qed.
(** A used port connected to something that is no channel and no element with terminals gets no sequencer, without an error. *)
Theorem C43_refuted_dropped : assign_sequencers ex_hw [("amplifier", "q0:mw")] [] [("q0:mw", "q0.01")] = Ok [].
Proof. vm_compute. reflexivity. Qed.
(** A port behind two mixers: on two clusters it gets two sequencers, on one cluster only the mixer listed last counts. *)
Definition two_hw : dict hwdesc := [("c0", HCluster [(1, QCM)]); ("c1", HCluster [(1, QCM)]); ("lo0", HLO); ("lo1", HLO)].
Definition two_E (c : string) : list (string * string) :=
  [("c0.module1.complex_output_0", "iq0.if"); ("lo0.output", "iq0.lo"); ("iq0.rf", "q0:mw"); (c ++ ".module1.complex_output_1", "iq1.if"); ("lo1.output", "iq1.lo"); ("iq1.rf", "q0:mw")].
Theorem C43_refuted_two_mixers :
  (exists r s s', assign_sequencers two_hw (two_E "c1") [] [("q0:mw", "q0.01")] = Ok r /\ Given r "c0" 1 s /\ Given r "c1" 1 s' /\ For s "q0:mw" "q0.01" /\ For s' "q0:mw" "q0.01") /\
  (exists r, assign_sequencers two_hw (two_E "c0") [] [("q0:mw", "q0.01")] = Ok r /\ forall cl i s, Given r cl i s -> q_ch s = "complex_output_1").
Proof. split.
  - eexists; exists (cfg 0 "q0:mw-q0.01" "complex_output_0" None (Some "lo0") []), (cfg 0 "q0:mw-q0.01" "complex_output_1" None (Some "lo1") []). split; [vm_compute; reflexivity|]. split; [do 2 eexists; (split; [left; reflexivity|]); (split; [left; reflexivity|]); left; reflexivity|].
    split; [do 2 eexists; (split; [right; left; reflexivity|]); (split; [left; reflexivity|]); left; reflexivity|]. split; reflexivity.
  - eexists. split; [vm_compute; reflexivity|]. intros cl i s (ms & ss & [h|[]] & h2 & h3). inversion h; subst. destruct h2 as [h2|[]]. inversion h2; subst. destruct h3 as [<-|[]]. reflexivity. Qed.
(** Behind a mixer named after a laser all clocks of a port become one. *)
Definition laser_E : list (string * string) := [("cluster0.module1.complex_output_0", "red_laser.if"); ("lo0.output", "red_laser.lo"); ("red_laser.rf", "q0:opt")].
Theorem C43_refuted_laser : exists r, assign_sequencers ex_hw laser_E [] [("q0:opt", "q0.ge0"); ("q0:opt", "q0.01")] = Ok r /\ forall cl i s, Given r cl i s -> For s "q0:opt" "q0.ge0".
Proof. eexists. split; [vm_compute; reflexivity|]. intros cl i s (ms & ss & [h|[]] & h2 & h3). inversion h; subst. destruct h2 as [h2|[]]. inversion h2; subst. destruct h3 as [<-|[]]. reflexivity. Qed.
