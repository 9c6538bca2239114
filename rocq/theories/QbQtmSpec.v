(** What a user expects of [prepare] on a QTM. *)
From Verif Require Import Base JsonModel QbModel QbSpec.
Local Open Scope string_scope.

(** Where the times of a binned acquisition count from *)
Inductive RefValue (s : tset) : string -> string -> Prop :=
  | rv_timestamp : RefValue s "timestamp" "sequencer"
  | rv_port : forall n, time_ref_channel s = Some n -> RefValue s "port" ("first" ++ dec_Z n)
  | rv_port_none : time_ref_channel s = None -> RefValue s "port" "firstNone"
  | rv_other : forall r, r <> "timestamp" -> r <> "port" -> RefValue s r r.
(** [QtmWants i s l p v]: sequencer [i] with settings [s] wants parameter [p] of [l] to be [v] *)
Inductive QtmWants (i : nat) (s : tset) : loc -> string -> value -> Prop :=
  | q_sync : QtmWants i s (LSeq i) "sync_en" (VBool (tt_sync_en s))
  | q_sequence : forall q, tt_sequence s = Some q -> QtmWants i s (LSeq i) "sequence" (VSeq q)
  | q_nosequence : tt_sequence s = None -> QtmWants i s (LSeq i) "sequence" VNone
  | q_invert : forall a t b, In (a, t) (tt_triggers s) -> t_invert t = Some b -> QtmWants i s (LSeq i) ("trigger" ++ dec_Z a ++ "_threshold_invert") (VBool b)
  | q_count : forall a t n, In (a, t) (tt_triggers s) -> t_count t = Some n -> QtmWants i s (LSeq i) ("trigger" ++ dec_Z a ++ "_count_threshold") (VNum (inject_Z n))
  | q_input : forall ch, In ch (tt_ins s) -> QtmWants i s (LIo ch) "mode" (VStr "input")
  | q_output : forall ch, In ch (tt_outs s) -> QtmWants i s (LIo ch) "mode" (VStr "output")
  | q_threshold : forall q, analog_threshold s = Some q -> QtmWants i s (LIo i) "analog_threshold" (VNum q)
  | q_forward : QtmWants i s (LIo i) "forward_trigger_en" (VBool false)
  | q_invalid : QtmWants i s (LIo i) "binned_acq_on_invalid_time_delta" (VStr "record_0")
  | q_trigger_mode : trace_type s = Some "scope" \/ trace_type s = Some "timetag" -> QtmWants i s (LIo i) "scope_trigger_mode" (VStr "sequencer")
  | q_scope : trace_type s = Some "scope" -> QtmWants i s (LIo i) "scope_mode" (VStr "scope")
  | q_timetag : trace_type s = Some "timetag" -> QtmWants i s (LIo i) "scope_mode" (VStr "timetags-windowed")
  | q_source : forall t, time_source s = Some t -> QtmWants i s (LIo i) "binned_acq_time_source" (VStr t)
  | q_ref : forall r v, time_ref s = Some r -> RefValue s r v -> QtmWants i s (LIo i) "binned_acq_time_ref" (VStr v)
  | q_high : QtmWants i s (LIo i) "thresholded_acq_trigger_address_high" (VNum (inject_Z (addr_high s)))
  | q_mid : QtmWants i s (LIo i) "thresholded_acq_trigger_address_mid" (VNum (inject_Z (addr_mid s)))
  | q_low : QtmWants i s (LIo i) "thresholded_acq_trigger_address_low" (VNum (inject_Z (addr_low s)))
  | q_addr_invalid : QtmWants i s (LIo i) "thresholded_acq_trigger_address_invalid" (VNum (inject_Z (addr_invalid s)))
  | q_en : forall b, tt_write_en s = Some b -> QtmWants i s (LIo i) "thresholded_acq_trigger_en" (VBool b).
(** The dicts of the program have distinct keys, and no channel is both an input and an output *)
Record QtmProgram (p : program tset) : Prop := {
  qp_seqs : NoDup (map fst (p_seqs p));
  qp_trig : forall n s, In (n, s) (p_seqs p) -> NoDup (map fst (tt_triggers s));
  qp_mode : forall n s m t ch, In (n, s) (p_seqs p) -> In (m, t) (p_seqs p) -> In ch (tt_ins s) -> ~ In ch (tt_outs t) }.
(** What the program as a whole wants *)
Definition ProgWants (p : program tset) (l : loc) (q : string) (v : value) : Prop := exists i s, In (seq_name i, s) (p_seqs p) /\ QtmWants i s l q v.
