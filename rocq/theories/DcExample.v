(** C60: a schedule that meets the hypotheses, and what the corrections do not keep. *)
From Verif Require Import Base DcModel DcSpec DcProps DcThms DcAccept.
Local Open Scope string_scope.

(** a square pulse: one sample of 0.5 per ns; the filter doubles every sample *)
Definition square (p : pulse) (r : Q) : result (list Q) := Ok (map (fun _ => 1#2) (seq 0 (Z.to_nat (Qfloor (pdur p * r))))).
Definition doubled (_ : nat) (l : list Q) : result (list Q) := Ok (map (fun x => 2 * x) l).
Definition fl : string * correction := ("q0:fl-cl0.baseband", Software {| rate := 1; filter_func := 0; clipping_values := Some [-(3#4); 3#4] |}).
Definition pulse_on (port : string) (dur : Q) : pulse :=
  {| pport := Some port; pclock := "cl0.baseband"; pt0 := 0; pdur := dur; pref := Some (1#2, "V"); poffset := false; pwave := Function 1 |}.
Definition offset_on (port : string) : pulse :=
  {| pport := Some port; pclock := "cl0.baseband"; pt0 := 0; pdur := 0; pref := None; poffset := true; pwave := Function 2 |}.
Definition operation (n : string) (l : nat) (a : list nat) (d : Q) : obj := Op {| oname := n; opulses := l; oacqs := a; orest := 0; odur := d |}.
(** 0: the schedule, 1: a loop over 2, a pulse; 3: a measurement with two pulses; 4: an operation with an offset; 5: a pulse on another port *)
Definition start : heap :=
  {| objs := [Sched [("a", 1%nat); ("b", 3%nat); ("c", 4%nat); ("d", 5%nat)]; Flow 2%nat; operation "SquarePulse" 0 [] 4; operation "Measure" 1 [7%nat] 9;
              operation "Stitched" 2 [] 4; operation "SquarePulse" 3 [] 4];
     lists := [[pulse_on "q0:fl" 4]; [pulse_on "q1:fl" 3; pulse_on "q0:fl" 2]; [pulse_on "q0:fl" 4; offset_on "q0:fl"]; [pulse_on "q1:fl" 4]]; warned := [] |}.
Definition leaf_of (n : string) (ps : list pulse) (a : list nat) (d : Q) := {| lname := n; lpulses := ps; lacqs := a; lrest := 0; ldur := d |}.
Definition start_tree : tree :=
  TSched [("a", TFlow (TOp (leaf_of "SquarePulse" [pulse_on "q0:fl" 4] [] 4))); ("b", TOp (leaf_of "Measure" [pulse_on "q1:fl" 3; pulse_on "q0:fl" 2] [7%nat] 9));
          ("c", TOp (leaf_of "Stitched" [pulse_on "q0:fl" 4; offset_on "q0:fl"] [] 4)); ("d", TOp (leaf_of "SquarePulse" [pulse_on "q1:fl" 4] [] 4))].
Definition parts : list part := [PObj 0%nat; PObj 1%nat; PObj 2%nat; PList 0%nat; PObj 3%nat; PList 1%nat; PObj 4%nat; PList 2%nat; PObj 5%nat; PList 3%nat].

Lemma start_stores : stores start 0%nat start_tree parts.
Proof.
  change parts with (PObj 0%nat :: ((PObj 1%nat :: [PObj 2%nat; PList 0%nat]) ++ [PObj 3%nat; PList 1%nat] ++ [PObj 4%nat; PList 2%nat] ++ [PObj 5%nat; PList 3%nat] ++ []))%list.
  apply (stores_sched start 0%nat [("a", 1%nat); ("b", 3%nat); ("c", 4%nat); ("d", 5%nat)]); [reflexivity | cbn; repeat constructor; cbn; intuition discriminate|].
  repeat constructor.
  - apply (stores_flow start 1%nat 2%nat); [reflexivity|]. apply (stores_op start 2%nat {| oname := "SquarePulse"; opulses := 0%nat; oacqs := []; orest := 0; odur := 4 |}); reflexivity.
  - apply (stores_op start 3%nat {| oname := "Measure"; opulses := 1%nat; oacqs := [7%nat]; orest := 0; odur := 9 |}); reflexivity.
  - apply (stores_op start 4%nat {| oname := "Stitched"; opulses := 2%nat; oacqs := []; orest := 0; odur := 4 |}); reflexivity.
  - apply (stores_op start 5%nat {| oname := "SquarePulse"; opulses := 3%nat; oacqs := []; orest := 0; odur := 4 |}); reflexivity.
Qed.
Lemma start_unshared : unshared parts.
Proof. unfold unshared, parts. repeat constructor; cbn; intuition discriminate. Qed.
Lemma start_in_order : all_in_order square doubled [fl] start_tree.
Proof.
  assert (Q : forall p, (1 <= Z.to_nat (Qfloor (pdur p * 1)))%nat -> in_order square doubled [fl] p).
  { intros p L. split.
    - assert (L2 : lookup (portclock p) [fl] = Some (snd fl) \/ lookup (portclock p) [fl] = None) by (unfold fl, lookup; destruct (portclock p =? _); auto).
      intros c [H|[ty [H _]]]; destruct L2 as [L2|L2]; rewrite L2 in H; try discriminate H. injection H as <-. unfold square, doubled. cbn [rate].
      destruct (Z.to_nat (Qfloor (pdur p * 1))) as [|k]; [lia|]. cbn. eexists. eexists. eexists. split; [reflexivity|]. cbn. reflexivity.
    - intros ty e H. unfold fl, lookup in H. destruct (portclock p =? _); discriminate H. }
  apply ord_sched. cbn [In]. intros k t [H|[H|[H|[H|[]]]]]; injection H as <- <-; [apply ord_flow| | |]; apply ord_op; cbn [lpulses leaf_of].
  - right. repeat (apply Forall_cons || apply Forall_nil). apply Q. vm_compute. lia.
  - right. repeat (apply Forall_cons || apply Forall_nil); apply Q; vm_compute; lia.
  - left. exists (offset_on "q0:fl"). cbn. auto.
  - right. repeat (apply Forall_cons || apply Forall_nil). apply Q. vm_compute. lia.
Qed.
(** the hypotheses of [C60_applies] hold, and this is the outcome *)
Example start_applies : exists h' r, apply square doubled [fl] 3%nat start 0%nat = Ok (h', r).
Proof. eapply C60_applies; [exact start_stores | exact start_unshared | exact start_in_order | cbn; lia]. Qed.
Definition after : heap := match apply square doubled [fl] 3%nat start 0%nat with Ok (h, _) => h | Err _ => start end.
Definition waves (h : heap) (l : nat) : list waveform := match nth_error (lists h) l with Some ps => map pwave ps | None => [] end.
Example outcome : waves after 0%nat = [Sampled [3#4; 3#4; 3#4; 3#4] [(0 * (4 / 3))%Q; (1 * (4 / 3))%Q; (2 * (4 / 3))%Q; 4]] /\ waves after 1%nat = [Function 1; Sampled [3#4; 3#4] [(0 * 2)%Q; 2]] /\
  waves after 2%nat = [Function 1; Function 2] /\ waves after 3%nat = [Function 1] /\ warned after = [4%nat; 4%nat] /\
  nth_error (objs after) 1 = Some (Flow 6%nat) /\ nth_error (objs after) 3 = nth_error (objs start) 3.
Proof. vm_compute. repeat split; reflexivity. Qed.

(** One operation object in a schedule and in a schedule inside it: its pulse is corrected twice (0.5 becomes 2, not 1), and both uses get the result *)
Definition once : string * correction := ("q0:fl-cl0.baseband", Software {| rate := 1; filter_func := 0; clipping_values := None |}).
Definition resampled (p : pulse) (r : Q) : result (list Q) := match pwave p with Sampled s _ => Ok s | Function _ => square p r end.
Definition shared : heap :=
  {| objs := [Sched [("a", 1%nat); ("b", 2%nat)]; operation "SquarePulse" 0 [] 2; Sched [("a", 1%nat)]]; lists := [[pulse_on "q0:fl" 2]]; warned := [] |}.
Theorem C60_shared_operation_refuted : exists h, apply resampled doubled [once] 3%nat shared 0%nat = Ok (h, None) /\
  nth_error (objs h) 0 = Some (Sched [("a", 3%nat); ("b", 2%nat)]) /\ nth_error (objs h) 2 = Some (Sched [("a", 4%nat)]) /\
  (forall l, In l [3%nat; 4%nat] -> exists o, nth_error (objs h) l = Some (Op o) /\ opulses o = 0%nat) /\
  exists p s t, nth_error (lists h) 0 = Some [p] /\ pwave p = Sampled s t /\ Forall (fun x => x == 2) s /\ s <> [].
Proof.
  eexists. split; [vm_compute; reflexivity|]. split; [reflexivity|]. split; [reflexivity|]. split.
  - intros l [<-|[<-|[]]]; eexists; (split; [reflexivity | reflexivity]).
  - eexists. eexists. eexists. split; [reflexivity|]. split; [reflexivity|]. split; [repeat constructor|discriminate].
Qed.
(** A measurement whose first pulse is corrected is no longer a measurement: its acquisition is lost and its duration is that of the first pulse;
    a corrected pulse loses its reference magnitude *)
Definition measurement : heap := {| objs := [Sched [("m", 1%nat)]; operation "Measure" 0 [7%nat] 9]; lists := [[pulse_on "q0:fl" 2; pulse_on "q1:fl" 3]]; warned := [] |}.
Theorem C60_acquisition_lost_refuted : exists h o p q, apply square doubled [once] 2%nat measurement 0%nat = Ok (h, None) /\ nth_error (objs h) 0 = Some (Sched [("m", 2%nat)]) /\
  nth_error (objs h) 2 = Some (Op o) /\ oacqs o = [] /\ oname o = "NumericalPulse" /\ odur o == 2 /\ nth_error (lists h) (opulses o) = Some [p; q] /\ pref p = None /\ pref q = Some (1#2, "V").
Proof. do 4 eexists. split; [vm_compute; reflexivity|]. repeat split; reflexivity. Qed.
(** A pulse with no samples (shorter than half a sample, or of duration zero) raises IndexError *)
Theorem C60_empty_waveform_refuted : apply square doubled [once] 2%nat {| objs := [Sched [("p", 1%nat)]; operation "SquarePulse" 0 [] 0]; lists := [[pulse_on "q0:fl" 0]]; warned := [] |} 0%nat = Err IndexError.
Proof. vm_compute. reflexivity. Qed.
(** An operation with a voltage offset on another port keeps all its pulses uncorrected; there is only a warning *)
Theorem C60_offset_uncorrected_refuted : forall h', h' = {| objs := [Sched [("p", 1%nat)]; operation "Two" 0 [] 4]; lists := [[pulse_on "q0:fl" 4; offset_on "q1:fl"]]; warned := [] |} ->
  apply square doubled [once] 2%nat h' 0%nat = Ok (warn h' 1%nat, None).
Proof. intros h' ->. vm_compute. reflexivity. Qed.
