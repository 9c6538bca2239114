(** Vocabulary of C71, independent of the code. *)
From Verif Require Import Base CircModel PathModel RtfModel.
Local Open Scope string_scope.
Local Open Scope list_scope.
Local Open Scope Z_scope.

(** the outputs an analog channel of a baseband module drives, and the markers *)
Definition drives : list (string * list nat) :=
  [("real_output_0", [0]); ("real_output_1", [1]); ("real_output_2", [2]); ("real_output_3", [3]); ("complex_output_0", [0; 1]); ("complex_output_1", [2; 3])]%nat.
Definition digitals : list (string * nat) := [("digital_output_0", 0); ("digital_output_1", 1); ("digital_output_2", 2); ("digital_output_3", 3)]%nat.
Definition inputs : list string := ["complex_input_0"; "complex_input_1"; "real_input_0"; "real_input_1"].
Definition valid_channel (ch : string) : Prop := In ch (map fst drives) \/ In ch (map fst digitals) \/ In ch inputs.
Definition valid (pcs : dict path) : Prop := forall pc p, In (pc, p) pcs -> valid_channel (p_ch p).
Definition used (pcs : dict path) (ch : string) : Prop := exists pc p, In (pc, p) pcs /\ p_ch p = ch.

(** the bit of a filter in the latency compensation of a channel *)
Definition bit (f : filt) : Z := match f with Exp0 => 1 | Exp1 => 2 | Exp2 => 3 | Exp3 => 4 | Fir => 5 end.

(** some channel that drives output [o] is used, described, and has latency compensation [k] *)
Definition compensates (descs : list (string * option chdesc)) (pcs : dict path) (o : nat) (k : Z) : Prop :=
  exists ch d outs, In (ch, Some d) descs /\ used pcs ch /\ In (ch, outs) drives /\ In o outs /\ d_comp d = k.
(** the same for marker [o]: its own channel, or a channel in marker debug mode that drives output [o] *)
Definition compensates_marker (descs : list (string * option chdesc)) (pcs : dict path) (o : nat) (k : Z) : Prop :=
  exists ch d, In (ch, Some d) descs /\ used pcs ch /\ d_comp d = k /\ (In (ch, o) digitals \/ (d_debug d = Some true /\ exists outs, In (ch, outs) drives /\ In o outs)).

(** the option [dc] of a port-clock on channel [ch] is correction [c] for output [o] *)
Inductive corrects : string -> dcopt -> nat -> corr -> Prop :=
  | corrects_real ch o c : In (ch, [o]) drives -> corrects ch (One c) o c
  | corrects_I ch o o' a b r : In (ch, [o; o']) drives -> corrects ch (Several (a :: b :: r)) o a
  | corrects_Q ch o o' a b r : In (ch, [o; o']) drives -> corrects ch (Several (a :: b :: r)) o' b.
Definition assigned (dcs : dict dcopt) (pcs : dict path) (o : nat) (c : corr) : Prop :=
  exists pc dc p, In (pc, dc) dcs /\ get pcs pc = Some p /\ corrects (p_ch p) dc o c.
(** real outputs have one correction, complex ones several (validated by the compiler), digital channels and inputs none *)
Definition fitting (dcs : dict dcopt) (pcs : dict path) : Prop :=
  forall pc dc p, In (pc, dc) dcs -> get pcs pc = Some p ->
    match dc with Soft => True | One _ => exists o, In (p_ch p, [o]) drives | Several _ => exists o o', In (p_ch p, [o; o']) drives end.
(** no output is given two corrections *)
Definition no_overlap (dcs : dict dcopt) (pcs : dict path) : Prop := forall o c c', assigned dcs pcs o c -> assigned dcs pcs o c' -> c = c'.
(** coefficients within the ranges the documentation gives *)
Definition in_range (f : filt) (v : list Q) : Prop :=
  match f with
  | Fir => List.length v = 32%nat /\ forall q, In q v -> (-2 <= q < 2)%Q
  | _ => exists t a, v = [t; a] /\ (6 <= t)%Q /\ (-1 <= a < 1)%Q
  end.
