(** C56: concrete cases that meet the hypotheses, and where the guarantees end *)
From Verif Require Import Base CoordModel CoordProps GettModel GettSpec GettProps GettThms GettErr.
Local Open Scope Z_scope.
Local Open Scope string_scope.

(** Two instruments A and B; the schedule number is the amplitude; gettable 1 adds 100 to it. A returns its program on channel 0 (index 0), B on channel 1. *)
Definition hw0 : hw := {| h_stop0 := fun _ => NoAttribute; h_prepare := fun _ => None; h_start := fun _ => None; h_retrieve := fun _ => None; h_stop := fun _ => None;
  h_measure := fun c a => match a with Some a => Some [(if String.eqb c "ic_A" then 0 else 1, 0, inject_Z a)] | None => None end; h_logs := true |}.
Definition prepare_fails (c : string) : hw := {| h_stop0 := fun _ => Stopped; h_prepare := fun x => if String.eqb x c then Some OtherErr else None; h_start := fun _ => None; h_retrieve := fun _ => None; h_stop := fun _ => None; h_measure := h_measure hw0; h_logs := true |}.
Definition retrieve_fails : hw := {| h_stop0 := fun _ => Stopped; h_prepare := fun _ => None; h_start := fun _ => None; h_retrieve := fun _ => Some OtherErr; h_stop := fun _ => None; h_measure := h_measure hw0; h_logs := true |}.
Definition amp (kw : list (string * Z)) : Z := match kw with [("amp", a)] => a | _ => 0 end.
Definition config0 (debug : bool) (s : Z) : result csched := if (s <? 0)%Z then Err ValueError else Ok {| valid := true; instrs := [("A", s); ("B", if debug then s + 1000 else s)] |}.
Definition world0 (always : bool) : world := {|
  w_params := fun _ => Ok None; w_config := config0; w_reps := 1; w_coord := init; w_log := [];
  w_gets := fun i => match i with O => new_gettable [("amp", Param "amp")] (fun kw _ => Ok (amp kw)) always | _ => new_gettable [("amp", Param "amp")] (fun kw _ => Ok (amp kw + 100)) true end |}.
Definition start0 : list action := [Coordinator (Add "ic_A" true); Coordinator (Add "ic_B" true); SetParam "amp" (Some 1)].
Local Notation result_of w := (snd (get 0 hw0 w)).

Example C56_fresh_case : let w := history (world0 true) (start0 ++ [Get 0 hw0; Get 1 hw0; SetParam "amp" (Some 7)]) in
  g_always (w_gets w 0) = true /\ result_of w = Ok [(0, 0, 7#1); (1, 0, 7#1)] /\ compiled_now w 0 false {| valid := true; instrs := [("A", 7); ("B", 7)] |}.
Proof. split; [|split]; [vm_compute; reflexivity..|]. exists [("amp", 7)], 7. split; [|split; vm_compute; reflexivity]. apply evaluate_ok. vm_compute. reflexivity. Qed.
Example C56_once_case : let w := history (world0 false) start0 in let between := [SetParam "amp" (Some 7); Compile 0; Get 0 hw0; Compile 1; Coordinator (Stop (fun _ => None))] in
  snd (initialize 0 hw0 w) = Ok tt /\ g_always (w_gets w 0) = false /\ forallb (leaves 0) between = true /\ result_of (history (fst (initialize 0 hw0 w)) between) = Ok [(0, 0, 1#1); (1, 0, 1#1)].
Proof. vm_compute. repeat split. Qed.
Example C56_again_case : let w := history (world0 false) start0 in snd (get 0 hw0 w) = Ok [(0, 0, 1#1); (1, 0, 1#1)] /\ g_inited (w_gets w 0) = false /\ g_always (w_gets w 0) = false /\
  result_of (history (fst (get 0 hw0 w)) [SetParam "amp" (Some 7)]) = Ok [(0, 0, 1#1); (1, 0, 1#1)].
Proof. vm_compute. repeat split. Qed.
Example C56_none_case : let w := history (world0 true) (start0 ++ [Get 0 hw0; SetParam "amp" None]) in (exists k p, In (k, Param p) (g_kwargs (w_gets w 0)) /\ w_params w p = Ok None) /\ result_of w = Err TypeError.
Proof. split; [exists "amp", "amp"; vm_compute; auto|vm_compute; reflexivity]. Qed.
Example C56_report_case : let w := history (world0 true) start0 in exists w' rep, with_report 0 hw0 w = (w', Ok rep) /\ r_type rep = completed_exp /\ r_data rep = Some [(0, 0, 1#1); (1, 0, 1001#1)].
Proof. eexists. eexists. split; [vm_compute; reflexivity|]. split; reflexivity. Qed.

(** ** Where it fails, without always_initialize *)
(** another gettable used the hardware in between: get() returns the other one's data, with no error, while compiled_schedule still shows its own *)
Theorem C56_other_gettable_refuted : let w := history (world0 false) (start0 ++ [Get 0 hw0; Get 1 hw0]) in
  result_of w = Ok [(0, 0, 101#1); (1, 0, 101#1)] /\ g_compiled (w_gets w 0) = Some {| valid := true; instrs := [("A", 1); ("B", 1)] |}.
Proof. vm_compute. split; reflexivity. Qed.
(** an explicit re-initialization that fails half-way (component A raises after taking its program, so B gets none): the gettable still counts as initialized, and the next get() runs the new program on A and the old one on B *)
Theorem C56_failed_initialize_refuted : let w := history (world0 false) (start0 ++ [Get 0 hw0; SetParam "amp" (Some 7); Initialize 0 (prepare_fails "ic_A")]) in
  result_of w = Ok [(0, 0, 7#1); (1, 0, 1#1)].
Proof. vm_compute. reflexivity. Qed.
(** compile() between two get(): compiled_schedule is not the schedule the data come from *)
Theorem C56_compile_between_refuted : let w := history (world0 false) (start0 ++ [Get 0 hw0; SetReps 3; SetConfig (fun d s => config0 d (s + 50)); Compile 0]) in
  result_of w = Ok [(0, 0, 1#1); (1, 0, 1#1)] /\ g_compiled (w_gets (fst (get 0 hw0 w)) 0) = Some {| valid := true; instrs := [("A", 51); ("B", 51)] |}.
Proof. vm_compute. split; reflexivity. Qed.
(** a failing report makes get() raise RuntimeError for ever, although initialize() had succeeded before and what it uploaded is still there *)
Theorem C56_report_breaks_get_refuted : let w := history (world0 false) (start0 ++ [Get 0 hw0; SetParam "amp" (Some (-1)); Report 0 hw0; SetParam "amp" (Some 1)]) in
  result_of w = Err RuntimeError /\ result_of (history w [Get 0 hw0; SetReps 5]) = Err RuntimeError.
Proof. vm_compute. split; reflexivity. Qed.
(** ** Where it fails, in general *)
(** if retrieving fails, get() raises and the components are left running *)
Theorem C56_left_running_refuted : let w := history (world0 true) start0 in let w' := fst (get 0 retrieve_fails w) in
  snd (get 0 retrieve_fails w) = Err OtherErr /\ running "ic_A" (w_log w') = true /\ running "ic_B" (w_log w') = true.
Proof. vm_compute. repeat split. Qed.
(** the report switches the debug compilation mode on for good: the same get() then runs another program *)
Theorem C56_report_debug_refuted : let w := history (world0 true) start0 in
  result_of w = Ok [(0, 0, 1#1); (1, 0, 1#1)] /\ result_of (history w [Report 0 hw0]) = Ok [(0, 0, 1#1); (1, 0, 1001#1)].
Proof. vm_compute. split; reflexivity. Qed.
(** a report of a failed initialization may contain the keyword arguments and the schedule of an earlier call instead of those that failed *)
Theorem C56_report_stale_refuted : let w := history (world0 true) (start0 ++ [Get 0 hw0; SetParam "amp" None]) in
  exists w' rep, with_report 0 hw0 w = (w', Ok rep) /\ r_type rep = failed_initialization /\ r_error rep = Some TypeError /\ r_kwargs rep = [("amp", 1)] /\ r_schedule rep = 1 /\ w_params w "amp" = Ok None.
Proof. eexists. eexists. split; [vm_compute; reflexivity|]. repeat split. Qed.
