(** C41: examples. *)
From Verif Require Import Base TimingModel TableModel CircModel CircSpec CircProps3 CircProps5 ClockSpec ClockProps.
From Coq Require Import List.
Open Scope string_scope.
Open Scope list_scope.
Open Scope Q_scope.
(** The circuit of C40_ex through both passes: the clocks of the outer schedule, of the body of the loop and of the two measurements. *)
Fixpoint all_resources (o : gop) : list (list (string * option (option Q))) :=
  match o with
  | GSched _ _ res _ ops _ => res :: flat_map (fun x => all_resources (snd x)) ops
  | GLoop _ b | GCond _ b | GComp _ _ _ _ b => all_resources b
  | _ => []
  end.
Definition base := [("cl0.baseband", Some (Some 0)); ("digital", Some (Some 0))].
Example C41_ex : exists o1 o2, circuit_to_device 5 ex_cfg circuit = Ok o1 /\ set_pulse_and_acquisition_clock ex_cfg o1 = Ok o2 /\ is_schedule o1 /\
  all_resources o2 = [base ++ [("q0.01", Some (Some 5000000000))]; base ++ [("q0.01", Some (Some 5000000000))]; base; base ++ [("q0.ro", Some (Some 7000000000))]; base ++ [("q1.ro", Some (Some 6000000000))]].
Proof. eexists _, _. split; [vm_compute; reflexivity|]. split; [vm_compute; reflexivity|]. split; [unfold is_schedule; eauto 10|reflexivity]. Qed.
Definition on (c : string) : gop := GLeaf None {| l_gate := None; pulses := [pulse "p" c 1 20]; acqs := [] |}.
Definition sub (res : dict (option freq)) (ops : list (string * gop)) : gop := GSched [] None res 1 ops (map (fun x => (fst x, fst x, [tc_first])) ops).
(** a clock defined in a nested schedule is known to the outer one; the device configuration has another value, which is not used *)
Example C41_ex_nested : exists o2, set_pulse_and_acquisition_clock ex_cfg (sub [] [("a", on "q0.01"); ("b", GLoop 2 (sub [("q0.01", Some (Some 4900000000))] [("c", on "q0.01")]))]) = Ok o2 /\
  all_resources o2 = [[("q0.01", Some (Some 4900000000))]; [("q0.01", Some (Some 4900000000))]].
Proof. eexists. split; reflexivity. Qed.
(** conflicting, unknown and undefined frequencies; gates *)
Example C41_ex_rejected :
  set_pulse_and_acquisition_clock ex_cfg (sub [("c", Some (Some 1))] [("a", on "c"); ("b", sub [("c", Some (Some 2))] [("c", on "c")])]) = Err ValueError /\
  ~ agreeing (definitions (sub [("c", Some (Some 1))] [("a", on "c"); ("b", sub [("c", Some (Some 2))] [("c", on "c")])])) /\
  set_pulse_and_acquisition_clock ex_cfg (sub [] [("a", on "unknown")]) = Err ValueError /\
  set_pulse_and_acquisition_clock ex_cfg (sub [] [("a", on "nv.ge0")]) = Err ValueError /\
  set_pulse_and_acquisition_clock ex_cfg (sub [] [("a", GLeaf None x90)]) = Err RuntimeError.
Proof.
  split; [reflexivity|]. split; [|repeat split; reflexivity]. intros H. destruct (H 0%nat 1%nat "c" (Some 2) (Some 1)) as (q & q' & [= <-] & [= <-] & E); [auto|reflexivity|reflexivity|discriminate E].
Qed.
(** the hypotheses of C41_accepted and C41_one_frequency_partial on a schedule with a loop and a nested schedule *)
Definition nested := sub [] [("a", on "q0.01"); ("b", GLoop 2 (sub [("q1.01", Some (Some 4100000000))] [("c", on "q0.01"); ("d", on "q1.01")]))].
Example C41_ex_hypotheses : is_schedule nested /\ agreeing (definitions nested) /\ no_compensation nested /\ Known ex_cfg nested "q0.01" 5000000000 /\ Known ex_cfg nested "q1.01" 4100000000.
Proof.
  split; [unfold is_schedule; eexists _, _, _, _, _, _; reflexivity|]. split; [|split; [|split]].
  - intros i j c f f' Hij Hi Hj. destruct i as [|i]; [|destruct i; discriminate]. destruct j as [|j]; [inversion Hij|destruct j; discriminate].
  - intros e m g r b H. inversion H as [|? ? ? ? ? ? k x y Hin Hw| | |]; subst. destruct Hin as [E|[E|[]]]; injection E as <- <-; inversion Hw as [| |? ? ? Hb| |]; subst. inversion Hb as [|? ? ? ? ? ? k x y Hin Hw'| | |]; subst. destruct Hin as [E|[E|[]]]; injection E as <- <-; inversion Hw'.
  - right. split; [|reflexivity]. intros f [[= E _]|[]].
  - left. left. reflexivity.
Qed.
