(** C40: what is accepted, the acquisition delay, where the claims fail, examples. *)
From Verif Require Import Base TimingModel TableModel CircModel CircSpec CircProps CircProps2 CircProps3 CircProps4.
From Coq Require Import List Arith Lia.
Open Scope string_scope.
Open Scope list_scope.
Open Scope Q_scope.

(** ** What is accepted *)
Lemma device_within cfg : forall o x, Within o x -> forall over o', Device cfg over o o' -> exists over' x', Device cfg over' x x'.
Proof.
  induction 1 as [o|own d r n ops ss k x y Hk _ IH|n b y _ IH|u b y _ IH|e m g r b y _ IH]; intros over o' D; [eauto| | | |]; inversion D; subst; try (eapply IH; eassumption).
  match goal with H : DeviceOps _ _ _ _ |- _ => rename H into HO end. clear D. revert Hk. induction HO as [|over' k0 x0 x0' l l' D0 _ IHl]; intros Hk; [destruct Hk|]. destruct Hk as [Hk|Hk]; [injection Hk as -> ->; eapply IH, D0|apply IHl, Hk].
Qed.
Lemma parts_known cfg over g i qs plain subs : Parts cfg over g i qs plain subs -> forall q, In q qs -> exists c, OnElement cfg q (gtype g) c.
Proof. induction 1; intros x Hx; [destruct Hx| |]; (destruct Hx as [<-|Hx]; [eauto|auto]). Qed.
(** An operation that is neither pulse nor acquisition nor gate is rejected, wherever it occurs; so is a gate on an unknown element, of an unknown type, on an unknown edge (or with the edge in the wrong direction unless it is symmetric). *)
Theorem C40_known_only : forall fuel cfg over o o' id l, c2d fuel cfg over o = Ok o' -> Within o (GLeaf id l) -> empty l ->
  exists g, l_gate l = Some g /\
    ((forall q, In q (elems g) -> exists c, OnElement cfg q (gtype g) c) \/
     exists a b el c, elems g = [a; b] /\ get (elements cfg) a = Some el /\ get el (gtype g) = None /\ OnEdge cfg g a b c).
Proof.
  intros fuel cfg over o o' id l E Hw He. apply C40_sound in E. destruct (device_within _ _ _ Hw _ _ E) as (over' & x & D). inversion D; subst.
  - contradiction.
  - exists g. split; [assumption|]. left. match goal with H : elems g = [_] |- _ => rewrite H end. intros y [<-|[]]. eauto.
  - exists g. split; [assumption|]. right. eauto 10.
  - exists g. split; [assumption|]. left. eapply parts_known; eassumption.
Qed.

(** ** The acquisition delay *)
(** A measurement that does not wait for its acquisition delay: the next operation is moved earlier by the acquisition delay the factory gets. Partial: only if the delay is not overridden and not (for a gate on one element) an argument of the gate. *)
Theorem C40_acq_delay_partial : forall g c i over kw, Supplied g c i -> CalledWith g c i over kw -> skips_delay g ->
  ~ In "next_operation_delay" (gate_keys c) -> overridden g over "next_operation_delay" = None ->
  overridden g over "acq_delay" = None -> (i = None -> ~ In "acq_delay" (gate_keys c)) ->
  exists v w, get kw "acq_delay" = Some v /\ Minus v w /\ get kw "next_operation_delay" = Some w.
Proof.
  intros g c i over kw [_ Hs] Hkw Hd Hn O1 O2 Hi. destruct (Hs Hd) as (v & w & Ha & Hm). exists v, w. split; [|split; [exact Hm|]].
  - apply Hkw. exists v. rewrite O2. split; [|reflexivity]. inversion Ha; subst.
    + apply BA_config; [apply Hi; reflexivity|discriminate|assumption].
    + apply BA_config; [assumption|discriminate|assumption].
    + apply BA_gate; [assumption|discriminate|assumption].
  - apply Hkw. exists w. rewrite O1. split; [|reflexivity]. eapply BA_delay; [exact Hd|intros _; exact Hn|exact Ha|exact Hm].
Qed.

(** ** Examples *)
Definition pulse (p c : string) (a d : Q) : info := {| t0 := 0; dur := d; what := {| TableModel.port := Some p; clock := c; wave := Square a; tag := 0 |}; is_acq := false |}.
Definition acq (p c : string) (t d : Q) (ch : Z) : info := {| t0 := t; dur := d; what := {| TableModel.port := Some p; clock := c; wave := NoWaveform; tag := ch |}; is_acq := true |}.
Definition gleaf (es : list string) (t : string) (sym : bool) (over args : dict val) (meas apply : bool) : leaf :=
  {| l_gate := Some {| elems := es; gtype := t; symmetric := sym; own_overrides := over; args := args; is_measure := meas; apply_acq_delay := apply |}; pulses := []; acqs := [] |}.
Definition num (kw : dict val) (k : string) : result Q := do v <- index kw k; as_num v.
(** operations/pulse_factories.py l.26-84 [rxy_drag_pulse], reduced to a square pulse *)
Definition rxy (q : string) : dict val -> result gop := fun kw =>
  do a <- num kw "amp180"; do th <- num kw "theta"; do d <- num kw "duration"; Ok (GLeaf None {| l_gate := None; pulses := [pulse (q ++ ":mw") (q ++ ".01") (a * th / 180) d]; acqs := [] |}).
(** operations/measurement_factories.py l.27-205 [dispersive_measurement_transmon], reduced: the readout pulse and the acquisition, in a schedule *)
Definition meas (q : string) : dict val -> result gop := fun kw =>
  do ad <- num kw "acq_delay"; do it <- num kw "integration_time"; do ch <- num kw "acq_channel";
  let delay := match get kw "next_operation_delay" with Some (VNum d) => Some d | _ => None end in
  Ok (GSched [] delay new_res 1 [("r", GLeaf None (gleaf [q] "prepare" false [] [] false true)); ("m", GLeaf None {| l_gate := None; pulses := [pulse (q ++ ":res") (q ++ ".ro") 1 it]; acqs := [acq (q ++ ":res") (q ++ ".ro") ad it (Qnum ch)] |})]
        [("r", "r", [tc_first]); ("m", "m", [tc_first])]).
(** an element whose measurement is a single operation, like operations/measurement_factories.py l.407-511 [optical_measurement] *)
Definition meas_op (q : string) : dict val -> result gop := fun kw =>
  do ad <- num kw "acq_delay"; do it <- num kw "integration_time"; do ch <- num kw "acq_channel";
  Ok (GLeaf None {| l_gate := None; pulses := []; acqs := [acq (q ++ ":opt") (q ++ ".ge0") ad it (Qnum ch)] |}).
Definition prepare (q : string) : dict val -> result gop := fun kw => do d <- num kw "duration"; Ok (GLeaf None {| l_gate := None; pulses := [pulse (q ++ ":mw") "cl0.baseband" 0 d]; acqs := [] |}).
Definition flux (q : string) : dict val -> result gop := fun kw => do a <- num kw "amp"; do d <- num kw "duration"; Ok (GLeaf None {| l_gate := None; pulses := [pulse (q ++ ":fl") "cl0.baseband" a d]; acqs := [] |}).
Definition transmon (q : string) (acq_delay : Q) : dict opcfg :=
  [("Rxy", {| factory := Some (rxy q); kwargs := [("amp180", VNum (1#2)); ("duration", VNum 20)]; gate_keys := ["theta"] |});
   ("measure", {| factory := Some (meas q); kwargs := [("acq_delay", VNum acq_delay); ("integration_time", VNum 1000)]; gate_keys := ["acq_channel"] |});
   ("prepare", {| factory := Some (prepare q); kwargs := [("duration", VNum 200)]; gate_keys := [] |});
   ("pulse_compensation", {| factory := None; kwargs := [("port", VStr (q ++ ":fl")); ("max_compensation_amp", VNum (3#10)); ("time_grid", VNum 4); ("sampling_rate", VNum 1000000000)]; gate_keys := [] |})].
Definition ex_cfg : devcfg := {|
  clocks := [("q0.01", Some 5000000000); ("q0.ro", Some 7000000000); ("q1.01", Some 4000000000); ("q1.ro", Some 6000000000); ("nv.ge0", None)];
  elements := [("q0", transmon "q0" 100); ("q1", transmon "q1" 140); ("nv", [("measure", {| factory := Some (meas_op "nv"); kwargs := [("acq_delay", VNum 10); ("integration_time", VNum 300)]; gate_keys := ["acq_channel"] |})])];
  edges := [("q0_q1", [("CZ", {| factory := Some (flux "q0"); kwargs := [("amp", VNum (1#4)); ("duration", VNum 40)]; gate_keys := [] |})])] |}.
Definition x90 : leaf := gleaf ["q0"] "Rxy" false [] [("theta", VNum 90)] false true.
Definition x90' : leaf := gleaf ["q0"] "Rxy" false [("amp180", VNum 1)] [("theta", VNum 90)] false true.
Definition cz : leaf := gleaf ["q1"; "q0"] "CZ" true [] [] false true.
Definition mm : leaf := gleaf ["q0"; "q1"] "measure" false [] [("acq_channel", VList [VNum 0; VNum 1])] true false.
Definition mixed : leaf := gleaf ["nv"; "q1"] "measure" false [] [("acq_channel", VList [VNum 2; VNum 1])] true true.
Definition circuit : gop := GSched [] None new_res 10
  [("x", GLeaf (Some 0%nat) x90); ("l", GLoop 3 (GSched [] None new_res 1 [("y", GLeaf (Some 0%nat) x90); ("z", GLeaf (Some 1%nat) x90')] [("1", "y", [tc_first]); ("2", "z", [tc_first])]));
   ("c", GComp (Some ["q0"; "q1"; "nv"]) [] None None (GLeaf (Some 2%nat) cz)); ("m", GLeaf (Some 3%nat) mm)]
  [("a", "x", [tc_first]); ("b", "l", [tc_first]); ("c", "c", [tc_first]); ("d", "m", [tc_first])].
Lemma configured_in cfg c : Configured cfg c -> In c (flat_map (fun d => map snd (snd d)) (elements cfg ++ edges cfg)).
Proof.
  assert (G : forall A (d : dict A) k v, get d k = Some v -> In (k, v) d). { induction d as [|[k0 v0] d IH]; intros k v H; [discriminate|]. cbn in H. destruct (String.eqb_spec k0 k) as [->|_]; [injection H as ->; left; reflexivity|right; apply IH, H]. }
  intros (x & d & t & H & Ht). apply in_flat_map. exists (x, d). split; [apply in_or_app; destruct H as [H|H]; [left|right]; apply G, H|]. apply in_map_iff. exists (t, c). split; [reflexivity|apply G, Ht].
Qed.
Lemma num_ext kw kw' k : (forall k, get kw k = get kw' k) -> num kw k = num kw' k.
Proof. intros H. unfold num, index. rewrite H. reflexivity. Qed.
Lemma ex_unordered : unordered ex_cfg.
Proof.
  intros c f kw kw' Hc Hf H. apply configured_in in Hc. cbn in Hc.
  repeat (destruct Hc as [<-|Hc]; [cbn in Hf; try discriminate Hf; injection Hf as <-; unfold rxy, meas, meas_op, prepare, flux; rewrite ?(num_ext kw kw' _ H), ?H; reflexivity|]). destruct Hc.
Qed.
Lemma bind_inv {A B} (e : result A) (f : A -> result B) x : bind e f = Ok x -> exists a, e = Ok a /\ f a = Ok x.
Proof. destruct e; [eauto|discriminate]. Qed.
Lemma ex_productive : productive ex_cfg.
Proof.
  intros c f kw dev Hc Hf E. apply configured_in in Hc. cbn in Hc.
  repeat (destruct Hc as [<-|Hc]; [cbn in Hf; try discriminate Hf; injection Hf as <-; unfold rxy, meas, meas_op, prepare, flux in E;
    repeat (apply bind_inv in E; destruct E as (? & _ & E)); injection E as <-;
    first [right; eexists _, _; split; [reflexivity|]; intros [Hp Ha]; discriminate
          |left; split; [unfold is_schedule; eauto 10|]; intros id l g Hw He Hg; inversion Hw; subst; match goal with H : In _ _ |- _ => destruct H as [H|[H|[]]]; injection H as <- <- end; match goal with H : Within _ _ |- _ => inversion H; subst end; cbn in Hg; try discriminate; injection Hg as <-; discriminate]|]). destruct Hc.
Qed.
Ltac within_cases H := repeat match type of H with Within (GSched _ _ _ _ _ _) _ => inversion H; subst; clear H | Within (GLoop _ _) _ => inversion H; subst; clear H end.
Lemma ex_leaves : forall id l, Within circuit (GLeaf id l) -> (id = Some 0%nat /\ l = x90) \/ (id = Some 1%nat /\ l = x90') \/ (id = Some 2%nat /\ l = cz) \/ (id = Some 3%nat /\ l = mm).
Proof.
  intros id l H. inversion H as [|? ? ? ? ? ? ? x ? Hin Hw| | |]; subst. destruct Hin as [E|[E|[E|[E|[]]]]]; injection E as <- <-.
  - inversion Hw; subst. auto.
  - inversion Hw as [| |? ? ? Hb| |]; subst. inversion Hb as [|? ? ? ? ? ? ? x ? Hin Hy| | |]; subst. destruct Hin as [E|[E|[]]]; injection E as <- <-; inversion Hy; subst; auto.
  - inversion Hw as [| | | |? ? ? ? ? ? Hb]; subst. inversion Hb; subst. auto.
  - inversion Hw; subst. auto 6.
Qed.
Lemma ex_no_overrides : no_schedule_overrides circuit.
Proof.
  intros own d r n ops ss H. inversion H as [|? ? ? ? ? ? ? x ? Hin Hw| | |]; subst; [reflexivity|]. destruct Hin as [E|[E|[E|[E|[]]]]]; injection E as <- <-.
  - inversion Hw.
  - inversion Hw as [| |? ? ? Hb| |]; subst. inversion Hb as [|? ? ? ? ? ? ? x ? Hin Hy| | |]; subst; [reflexivity|]. destruct Hin as [E|[E|[]]]; injection E as <- <-; inversion Hy.
  - inversion Hw as [| | | |? ? ? ? ? ? Hb]; subst. inversion Hb.
  - inversion Hw.
Qed.
(** the representation of element [q]'s measurement is a schedule for both transmons *)
Lemma ex_meas g i q over dev c : (q = "q0" \/ q = "q1") -> gtype g = "measure" -> OnElement ex_cfg q (gtype g) c -> Represents g c i over dev -> is_schedule dev.
Proof.
  intros Hq Hg (el & H1 & H2) (f & kw & Hf & _ & _ & E). rewrite Hg in H2. destruct Hq as [-> | ->]; cbn in H1; injection H1 as <-; cbn in H2; injection H2 as <-; cbn in Hf; injection Hf as <-; unfold meas in E; repeat (apply bind_inv in E; destruct E as (? & _ & E)); injection E as <-; unfold is_schedule; eauto 10.
Qed.
Lemma ex_meas_parts over g i qs plain subs : Parts ex_cfg over g i qs plain subs -> gtype g = "measure" -> (forall q, In q qs -> q = "q0" \/ q = "q1") -> plain = [].
Proof.
  induction 1 as [|over g i q qs c dev plain subs Hon Hr Hs _ _|over g i q qs c dev o' plain subs _ _ _ _ _ IH]; intros Hm Hq; [reflexivity| |].
  - exfalso. apply Hs. eapply ex_meas; [|exact Hm|exact Hon|exact Hr]. apply Hq. left. reflexivity.
  - apply IH; [exact Hm|]. intros x Hx. apply Hq. right. exact Hx.
Qed.
Lemma ex_unmixed : unmixed ex_cfg [] circuit.
Proof.
  intros i l g plain subs Hw _ Hg HP. apply ex_leaves in Hw. destruct Hw as [(_ & ->)|[(_ & ->)|[(_ & ->)|(_ & ->)]]]; cbn in Hg; injection Hg as <-; cbn [elems] in HP.
  - inversion HP; subst; match goal with H : Parts _ _ _ _ [] _ _ |- _ => inversion H; subst end; auto.
  - inversion HP; subst; match goal with H : Parts _ _ _ _ [] _ _ |- _ => inversion H; subst end; auto.
  - exfalso. destruct (parts_known _ _ _ _ _ _ _ HP "q1" (or_introl eq_refl)) as (c & el & H1 & H2). cbn in H1. injection H1 as <-. discriminate H2.
  - left. eapply ex_meas_parts; [exact HP|reflexivity|]. intros q [<-|[<-|[]]]; auto.
Qed.
(** what is played in a compiled circuit: ports, amplitudes or acquisition channels, durations, with loops not unrolled *)
Fixpoint played (o : gop) : list (string * shape * Q * Z) :=
  match o with
  | GLeaf _ l => map (fun i => (match TableModel.port (what i) with Some p => p | None => "" end, match wave (what i) with Square a => Square (Qred a) | s => s end, Qred (dur i), tag (what i))) (pulses l ++ acqs l)
  | GLoop _ b | GCond _ b | GComp _ _ _ _ b => played b
  | GSched _ _ _ _ ops _ => flat_map (fun x => played (snd x)) ops
  | GAsm _ _ => []
  end.
Example C40_ex : unordered ex_cfg /\ productive ex_cfg /\ consistent circuit /\ no_schedule_overrides circuit /\ unmixed ex_cfg [] circuit /\ gates_act circuit /\
  exists o', circuit_to_device 5 ex_cfg circuit = Ok o' /\ Device ex_cfg [] circuit o' /\ device_level o' /\
    played o' = [("q0:mw", Square (1#4), 20, 0%Z); ("q0:mw", Square (1#4), 20, 0%Z); ("q0:mw", Square (1#2), 20, 0%Z); ("q0:fl", Square (1#4), 40, 0%Z);
                 ("q0:mw", Square 0, 200, 0%Z); ("q0:res", Square 1, 1000, 0%Z); ("q0:res", NoWaveform, 1000, 0%Z); ("q1:mw", Square 0, 200, 0%Z); ("q1:res", Square 1, 1000, 0%Z); ("q1:res", NoWaveform, 1000, 1%Z)].
Proof.
  split; [apply ex_unordered|]. split; [apply ex_productive|].
  assert (Hc : consistent circuit). { intros i l l' H H'. apply ex_leaves in H. apply ex_leaves in H'. destruct H as [(E & ->)|[(E & ->)|[(E & ->)|(E & ->)]]], H' as [(E' & ->)|[(E' & ->)|[(E' & ->)|(E' & ->)]]]; congruence. }
  assert (Ha : gates_act circuit). { intros id l g H _ Hg. apply ex_leaves in H. destruct H as [(_ & ->)|[(_ & ->)|[(_ & ->)|(_ & ->)]]]; cbn in Hg; injection Hg as <-; discriminate. }
  split; [exact Hc|]. split; [apply ex_no_overrides|]. split; [apply ex_unmixed|]. split; [exact Ha|].
  destruct (circuit_to_device 5 ex_cfg circuit) as [o'|] eqn:E; [|vm_compute in E; discriminate]. exists o'. split; [reflexivity|].
  assert (D : Device ex_cfg [] circuit o'). { unfold circuit_to_device in E. destruct (c2d_obj 5 ex_cfg [] [] circuit) as [[x st]|] eqn:Ex; [|discriminate]. cbn in E. injection E as <-. eapply (obj_sound ex_cfg [] circuit Hc ex_unmixed ex_no_overrides 5 circuit []); [apply W_self|intros i l' H; discriminate|exact Ex]. }
  split; [exact D|]. split; [eapply C40_device_level; [apply ex_productive|exact Ha|exact D]|]. vm_compute in E. injection E as <-. reflexivity.
Qed.
(** ** Where the claims fail *)
(** An operation that is used in two sub-schedules and is represented by an operation on one element and by a schedule on another: at the second place only the part of the first element is played. *)
Theorem C40_shared_refuted : exists cfg o o1 o2, unordered cfg /\ consistent o /\ no_schedule_overrides o /\ Device cfg [] o o1 /\ (forall fuel, (5 <= fuel)%nat -> circuit_to_device fuel cfg o = Ok o2) /\
  List.length (played o1) = 8%nat /\ List.length (played o2) = 5%nat.
Proof.
  set (o := GSched [] None new_res 1 [("a", GLoop 2 (GLeaf (Some 0%nat) mixed)); ("b", GLoop 3 (GLeaf (Some 0%nat) mixed))] [("1", "a", [tc_first]); ("2", "b", [tc_first])]).
  assert (Ho1 : exists o1, c2d 6 ex_cfg [] o = Ok o1 /\ List.length (played o1) = 8%nat) by (eexists; split; [vm_compute; reflexivity|reflexivity]).
  assert (Ho2 : exists o2, (forall fuel, (5 <= fuel)%nat -> circuit_to_device fuel ex_cfg o = Ok o2) /\ List.length (played o2) = 5%nat).
  { eexists. split; [intros fuel Hf; destruct fuel as [|[|[|[|[|f]]]]]; try lia; cbv; reflexivity|reflexivity]. }
  destruct Ho1 as (o1 & E1 & L1), Ho2 as (o2 & E2 & L2). exists ex_cfg, o, o1, o2. split; [apply ex_unordered|].
  assert (Hl : forall id l, Within o (GLeaf id l) -> id = Some 0%nat /\ l = mixed).
  { intros id l H. inversion H as [|? ? ? ? ? ? ? x ? Hin Hw| | |]; subst. destruct Hin as [E|[E|[]]]; injection E as <- <-; inversion Hw as [| |? ? ? Hb| |]; subst; inversion Hb; subst; auto. }
  split; [intros i l l' H H'; destruct (Hl _ _ H) as [_ ->], (Hl _ _ H') as [_ ->]; reflexivity|].
  split; [intros own d r n ops ss H; inversion H as [|? ? ? ? ? ? ? x ? Hin Hw| | |]; subst; [reflexivity|]; destruct Hin as [E|[E|[]]]; injection E as <- <-; inversion Hw as [| |? ? ? Hb| |]; subst; inversion Hb|].
  split; [eapply C40_sound, E1|]. split; [exact E2|]. split; [exact L1|exact L2].
Qed.
(** Overriding the acquisition delay of a measurement leaves the delay of the next operation as it is configured: here the acquisition starts 200 after the measurement, but the next operation is moved 100 earlier. *)
Theorem C40_acq_delay_override_refuted : exists cfg o o', unordered cfg /\ c2d 5 cfg [] o = Ok o' /\
  match o with GLeaf _ l => match l_gate l with Some g => skips_delay g | None => False end | _ => False end /\
  exists own r n x m ss p a d, o' = GSched own (Some d) r n [("r", x); ("m", m)] ss /\ info_of m = (p, [a]) /\ t0 a == 200 /\ d == -100.
Proof.
  exists ex_cfg, (GLeaf None (gleaf ["q0"] "measure" false [("acq_delay", VNum 200)] [("acq_channel", VNum 0)] true false)). eexists. split; [apply ex_unordered|]. split; [vm_compute; reflexivity|]. split; [split; reflexivity|]. eexists _, _, _, _, _, _, _, _, _. split; [reflexivity|]. split; [reflexivity|]. split; reflexivity.
Qed.
(** a factory that returns a loop or a conditional: nothing is added, the gate is left at the gate level *)
Example C40_ex_loop_factory : let c := {| factory := Some (fun kw => do x <- rxy "q0" kw; Ok (GLoop 2 x)); kwargs := [("amp180", VNum 1); ("duration", VNum 20)]; gate_keys := ["theta"] |} in
  c2d 3 {| clocks := []; elements := [("q0", [("Rxy", c)])]; edges := [] |} [] (GLeaf None x90) = Ok (GLeaf None x90).
Proof. reflexivity. Qed.
(** the hypotheses of C40_acq_delay_partial and C40_simultaneous on a concrete gate: measuring q0 and q1 together *)
Example C40_ex_simultaneous : exists parts o', c2d 5 ex_cfg [] (GLeaf None mm) = Ok o' /\ o' = inner_schedule parts /\ List.length parts = 2%nat /\ delay_of_sched o' = Some (-140) /\ map delay_of_sched parts = [Some (-100); Some (-140)].
Proof.
  unfold c2d at 1. set (f4 := c2d 4 ex_cfg). destruct (mux (c2d 4 ex_cfg) ex_cfg [] {| elems := ["q0"; "q1"]; gtype := "measure"; symmetric := false; own_overrides := []; args := [("acq_channel", VList [VNum 0; VNum 1])]; is_measure := true; apply_acq_delay := false |} 0 ["q0"; "q1"] mm false []) as [[[l' flag] subs]|] eqn:E; [|vm_compute in E; discriminate].
  vm_compute in E. injection E as <- <- <-. eexists. eexists. split; [reflexivity|]. split; [reflexivity|]. repeat split; reflexivity.
Qed.
Print Assumptions C40_circuit_to_device.
Print Assumptions C40_simultaneous.
