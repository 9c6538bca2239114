(** Specification for the assignment of port-clock combinations to sequencers (C43). *)
From Verif Require Import Base CircModel PathModel.
From Coq Require Import Ascii DecimalString.
Open Scope list_scope.
Open Scope string_scope.
Open Scope Z_scope.

(** A connection of the connectivity graph, in either direction. *)
Definition Edge (E : list (string * string)) (a b : string) : Prop := In (a, b) E \/ In (b, a) E.
Definition Lacks (c : ascii) (s : string) : Prop := ~ In c (list_ascii_of_string s).
(** The node "cluster.module.channel" of a described cluster. *)
Definition Channel (hw : dict hwdesc) (n cl m ch : string) : Prop :=
  n = cl ++ "." ++ m ++ "." ++ ch /\ Lacks "." cl /\ Lacks "." m /\ Lacks "." ch /\ exists mods, In (cl, HCluster mods) hw.
(** The text before the first dot, if any, names a described cluster. *)
Definition OfCluster (hw : dict hwdesc) (n : string) : Prop :=
  exists cl mods, In (cl, HCluster mods) hw /\ Lacks "." cl /\ (n = cl \/ exists r, n = cl ++ "." ++ r).
Definition OfLO (hw : dict hwdesc) (n lo : string) : Prop :=
  (exists l, In (l, HLO) hw /\ Lacks "." l /\ exists r, n = l ++ "." ++ r) /\ exists a, n = lo ++ "." ++ a /\ Lacks "." a.
(** The port is connected to the channel itself, *)
Definition Direct (hw : dict hwdesc) (E : list (string * string)) (port cl m ch : string) : Prop := exists n, Channel hw n cl m ch /\ Edge E port n.
(** or to a terminal of an element (a mixer) another terminal of which is connected to the channel. *)
Definition Terminal (n x : string) : Prop := exists a, n = x ++ "." ++ a /\ Lacks "." a.
Definition AtMixer (hw : dict hwdesc) (E : list (string * string)) (port x : string) : Prop := exists t, Terminal t x /\ Edge E port t /\ ~ OfCluster hw t.
Definition Behind (hw : dict hwdesc) (E : list (string * string)) (x cl m ch : string) : Prop := exists t n, Terminal t x /\ Edge E t n /\ Channel hw n cl m ch.
Definition Mixed (hw : dict hwdesc) (E : list (string * string)) (port cl m ch : string) : Prop := exists x, AtMixer hw E port x /\ Behind hw E x cl m ch.
Definition Wired hw E port cl m ch : Prop := Direct hw E port cl m ch \/ Mixed hw E port cl m ch.
(** The slot number of "module<decimal numeral>". *)
Definition Slot (m : string) (i : Z) : Prop := forall u, u <> Decimal.Nil -> m = "module" ++ NilEmpty.string_of_uint u -> i = Z.of_uint u.

(** The channels each sequencer of a module can be connected to, from the numbers of channels of the module. *)
Definition name (s : string) (n : nat) : string := s ++ NilEmpty.string_of_uint (Nat.to_uint n).
Definition one_of (s : string) (lo hi : nat) (ch : string) : Prop := exists n, (lo <= n < hi)%nat /\ ch = name s n.
Definition n_sequencers (k : kind) : Z := match k with QRC => 12 | QTM => 8 | _ => 6 end.
Definition Output (k : kind) (i : Z) (ch : string) : Prop :=
  match k with
  | QCM => one_of "complex_output_" 0 2 ch \/ one_of "real_output_" 0 4 ch \/ one_of "digital_output_" 0 4 ch
  | QRM => one_of "complex_output_" 0 1 ch \/ one_of "real_output_" 0 2 ch \/ one_of "digital_output_" 0 4 ch
  | QCM_RF | QRM_RF => one_of "complex_output_" 0 2 ch \/ one_of "digital_output_" 0 2 ch
  | QRC => one_of "digital_output_" 0 1 ch \/ if i <? 8 then one_of "complex_output_" 0 2 ch \/ ch = name "complex_output_" (2 + Z.to_nat (i mod 4)) else one_of "complex_output_" 2 6 ch
  | QTM => one_of "digital_output_" 0 8 ch
  end.
Definition Input (k : kind) (i : Z) (ch : string) : Prop :=
  match k with
  | QCM | QCM_RF => False
  | QRM => one_of "complex_input_" 0 1 ch \/ one_of "real_input_" 0 2 ch
  | QRM_RF => one_of "complex_input_" 0 1 ch
  | QRC => i < 8 /\ one_of "complex_input_" 0 2 ch
  | QTM => one_of "digital_input_" 0 8 ch
  end.
(** The sequencer exists and its channels are among those it can be connected to: without an additional channel any, otherwise an output and additional inputs. *)
Definition Connectable (k : kind) (s : seqcfg) : Prop :=
  0 <= q_idx s < n_sequencers k /\
  match q_meas s with
  | None => Output k (q_idx s) (q_ch s) \/ Input k (q_idx s) (q_ch s)
  | Some l => Output k (q_idx s) (q_ch s) /\ forall ch, In ch l -> Input k (q_idx s) ch
  end.
(** A channel of the sequencer. *)
Definition Uses (s : seqcfg) (ch : string) : Prop := ch = q_ch s \/ exists l, q_meas s = Some l /\ In ch l.

(** Sequencer [s] of the module in slot [i] of cluster [cl] is in use for the port-clock. *)
Definition Given (res : list (string * list (Z * list seqcfg))) (cl : string) (i : Z) (s : seqcfg) : Prop := exists ms ss, In (cl, ms) res /\ In (i, ss) ms /\ In s ss.
Definition For (s : seqcfg) (port clock : string) : Prop := q_pc s = port ++ "-" ++ clock.
(** Dictionaries have unique keys, a set has no repetitions. *)
Definition WfHw (hw : dict hwdesc) : Prop := NoDup (map fst hw) /\ forall c mods, In (c, HCluster mods) hw -> NoDup (map fst mods).
(** The port has a connection to a cluster. *)
Definition HasDirect hw E port : Prop := exists n, Edge E port n /\ OfCluster hw n.
(** Different port-clock combinations have different names "port-clock". *)
Definition Distinct (used : list (string * string)) : Prop := forall p c p' c', In (p, c) used -> In (p', c') used -> p ++ "-" ++ c = p' ++ "-" ++ c' -> p = p' /\ c = c'.
Definition Has (pat s : string) : Prop := exists a b, s = a ++ pat ++ b.
(** no mixer of a used port is named after one of the lasers *)
Definition Plain hw E (used : list (string * string)) : Prop := forall port clock x, In (port, clock) used -> AtMixer hw E port x -> ~ Has "spinpump_laser" x /\ ~ Has "green_laser" x /\ ~ Has "red_laser" x.

(** ** Sufficient conditions for acceptance *)
Definition Number (m : string) (i : Z) : Prop := exists u, u <> Decimal.Nil /\ m = "module" ++ NilEmpty.string_of_uint u /\ i = Z.of_uint u.
(** The port has one connection, to a channel, *)
Definition Single hw E port cl m ch : Prop := exists n, Channel hw n cl m ch /\ forall n', Edge E port n' <-> n' = n.
(** or two, to an output and an input of one module, and the output is listed first. *)
Definition OutIn hw E port cl m out inp : Prop := exists n n', Channel hw n cl m out /\ Channel hw n' cl m inp /\ (forall x, Edge E port x <-> x = n \/ x = n') /\ exists A B, E = (A ++ B)%list /\ Edge A port n /\ ~ Edge A port n'.
Definition Readout (k : kind) (out inp : string) : Prop :=
  match k with
  | QRM => (one_of "complex_output_" 0 1 out \/ one_of "real_output_" 0 2 out) /\ (one_of "complex_input_" 0 1 inp \/ one_of "real_input_" 0 2 inp)
  | QRM_RF => one_of "complex_output_" 0 2 out /\ one_of "complex_input_" 0 1 inp
  | _ => False
  end.
(** The connections of the port are those of a described module of which all sequencers are alike. *)
Definition Ready hw E port : Prop := exists cl m i mods k ch, In (cl, HCluster mods) hw /\ In (i, k) mods /\ Number m i /\ k <> QRC /\
  (Single hw E port cl m ch /\ (Output k 0 ch \/ Input k 0 ch) \/ exists inp, OutIn hw E port cl m ch inp /\ Readout k ch inp).
