(** Concrete programs that meet the hypotheses of the theorems on retrieving data, and programs whose data is not retrieved. *)
From Verif Require Import Base AcqChanModel NumericModel JsonModel PathModel QbModel RetModel RetSpec RetProps RetOwn RetWhole RetMerge RetParts RetThms RetAccept RetCluster.
Local Open Scope string_scope.
Local Open Scope list_scope.
Local Open Scope nat_scope.

Definition acq (k : nat) (i q t : list num) (sc : nat -> list Q) : string * hwacq := (dec_Z (Z.of_nat k), {| a_index := k; integ0 := i; integ1 := q; thr := t; avg_cnt := [Some 5%Q; None; Some 2%Q]; cnt := None; timedelta := []; scope_path := sc |}).
Definition bin (k b st : nat) : hwbin := {| h_index := k; h_bin := b; h_stride := st; h_meta := None |}.
(** channel "a" appends with sequencer 0, channel "b" averages with both, "t" is a trace and "d" a distribution *)
Definition ex_hw : hardware := {|
  acquisitions := fun st i => match i with
    | 0 => [acq 0 [Some 4; None; Some 8; Some 12]%Q [Some 2; Some 6; Some 10; Some 14]%Q [] (fun _ => []); acq 1 [] [] [Some 1%Q] (fun _ => []); acq 2 [] [] [] (fun _ => [])]
    | _ => [acq 0 [] [] [None] (fun _ => []); acq 1 [] [] [] (fun p => match st with Some (1, "1") => [inject_Z (Z.of_nat p); 7; 8]%Q | _ => [] end)]
    end;
  io_samples := fun _ => []; io_events := fun _ => [] |}.
Definition ex_data : list (string * chandata) := [
  ("a", {| c_proto := SSBIntegrationComplex; c_mode := APPEND; c_coords := CoordList [[("amp", "0.1")]; [("freq", "5")]] |});
  ("b", {| c_proto := ThresholdedAcquisition; c_mode := AVERAGE; c_coords := CoordList [[]; []] |});
  ("t", {| c_proto := Trace; c_mode := AVERAGE; c_coords := CoordDict [("x", "1")] |});
  ("d", {| c_proto := TriggerCount; c_mode := DISTRIBUTION; c_coords := CoordDict [] |})].
Definition ex_mapping : list (string * list (string * hwmap)) := [
  ("seq0", [("a", Bins [(0, bin 0 0 2); (1, bin 0 1 2)]); ("b", Bins [(0, bin 1 0 1)]); ("d", Whole 2)]);
  ("seq1", [("b", Bins [(1, bin 0 0 1)]); ("t", Whole 1)])].
Definition ex_g : RetModel.manager := {| g_kind := QRM_manager; g_data := ex_data; g_mapping := ex_mapping; g_durations := [("seq0", Some 4%Z); ("seq1", Some 2%Z)];
  g_seq := seq_index QRM; g_reps := 2; g_scope := Some (1, 1); g_inputs := fun s => if String.eqb s "seq1" then Some [2; 3]%Z else None; g_dummy := false |}.
Lemma ex_reads s ch hm : Reads ex_g s ch hm <-> (s = "seq0" /\ (ch = "a" /\ hm = Bins [(0, bin 0 0 2); (1, bin 0 1 2)] \/ ch = "b" /\ hm = Bins [(0, bin 1 0 1)] \/ ch = "d" /\ hm = Whole 2)) \/ (s = "seq1" /\ (ch = "b" /\ hm = Bins [(1, bin 0 0 1)] \/ ch = "t" /\ hm = Whole 1)).
Proof. unfold Reads. cbn [ex_g g_mapping]. unfold ex_mapping. split.
  - intros (chans & [e|[e|[]]] & h2); injection e as <- <-; cbn in h2; repeat (destruct h2 as [h2|h2]; [injection h2 as <- <-; intuition|]); destruct h2.
  - intros [(-> & h)|(-> & h)]; eexists; (split; [cbn; eauto|]); cbn; intuition (subst; auto). Qed.
Example ex_dicts : Dicts ex_g.
Proof. constructor.
  - cbn. repeat (constructor; [cbn; intuition discriminate|]). constructor.
  - cbn. intros s chans [e|[e|[]]]; injection e as <- <-; cbn; repeat (constructor; [cbn; intuition discriminate|]); constructor.
  - intros s ch l R. apply ex_reads in R. destruct R as [(_ & [[_ e]|[[_ e]|[_ e]]])|(_ & [[_ e]|[_ e]])]; try discriminate e; injection e as ->; cbn; repeat (constructor; [cbn; intuition discriminate|]); constructor.
  - cbn. repeat (constructor; [cbn; intuition discriminate|]). constructor.
  - cbn. repeat (constructor; [cbn; intuition discriminate|]). constructor.
  - cbn. intros ch c coords dict [e|[e|[e|[e|[]]]]]; injection e as <- <-; cbn; intros q; try discriminate q; injection q as <-; cbn; intros [<-|[<-|[]]]; cbn; repeat (constructor; [cbn; intuition discriminate|]); constructor. Qed.
Example ex_apart : Apart ex_g.
Proof. intros s s' ch hm hm' R R' ns. apply ex_reads in R. apply ex_reads in R'.
  assert (X : ch = "b" /\ ((hm = Bins [(0, bin 1 0 1)] /\ hm' = Bins [(1, bin 0 0 1)]) \/ (hm = Bins [(1, bin 0 0 1)] /\ hm' = Bins [(0, bin 1 0 1)]))).
  { destruct R as [(-> & R)|(-> & R)], R' as [(-> & R')|(-> & R')]; try easy; destruct R as [[-> ->]|[[-> ->]|[-> ->]]] || destruct R as [[-> ->]|[-> ->]]; destruct R' as [[e ->]|[[e ->]|[e ->]]] || destruct R' as [[e ->]|[e ->]]; try discriminate e; auto. }
  destruct X as [-> X]. split; [intros c h; unfold ProtoOf in h; cbn in h; intuition (subst; try discriminate); match goal with h : (_, _) = ("b", _) |- _ => injection h as <-; discriminate end|].
  destruct X as [[-> ->]|[-> ->]]; eexists; eexists; (split; [reflexivity|]); (split; [reflexivity|]); cbn; intros a [<-|[]] [h|[]]; discriminate h. Qed.
Example ex_complete : Complete ex_g 6 ex_hw.
Proof. constructor.
  - cbn. intros s chans [e|[e|[]]]; injection e as <- <-; [exists 0|exists 1]; reflexivity.
  - cbn. intros i k e. injection e as <- <-. lia.
  - intros s ch hm R. apply ex_reads in R. destruct R as [(-> & [[-> ->]|[[-> ->]|[-> ->]]])|(-> & [[-> ->]|[-> ->]])].
    + eexists _, (Some 4%Z). split; [cbn; eauto|]. split; [cbn; auto|]. split; [apply su_weighed; cbn; auto|]. eapply de_binned; [now right|reflexivity|cbn; intros a [<-|[<-|[]]]; lia|cbn; lia|intros _; exists 4%Z; split; [auto|lia]|intros [h|h]; discriminate h|].
      intros a b r h hr. cbn [ex_g g_reps] in hr. assert (r = 0 \/ r = 1) as [-> | ->] by (destruct hr as [->|[_ hr]]; lia); cbn in h; destruct h as [h|[h|[]]]; injection h as <- <-; eexists; eexists; (split; [exists 0; split; reflexivity|]); (split; [reflexivity|]); cbn.
      * eapply bv_amplitude; [reflexivity|split; reflexivity|reflexivity|lia].
      * eapply bv_iq_nan; [reflexivity|auto|split; reflexivity|auto].
      * eapply bv_amplitude; [reflexivity|split; reflexivity|reflexivity|lia].
      * eapply bv_amplitude; [reflexivity|split; reflexivity|reflexivity|lia].
    + eexists _, (Some 4%Z). split; [cbn; eauto|]. split; [cbn; auto|]. split; [apply su_weighed; cbn; unfold thr_protocol; auto|]. eapply de_binned; [now left|reflexivity|cbn; intros a [<-|[]]; lia|cbn; lia|cbn; discriminate|discriminate|].
      intros a b r h hr. assert (r = 0) as -> by (destruct hr as [->|[hr _]]; [auto|discriminate hr]). cbn in h. destruct h as [h|[]]. injection h as <- <-. eexists. eexists. split; [exists 0; split; reflexivity|]. split; [reflexivity|]. eapply bv_thr; [reflexivity|now left|reflexivity].
    + eexists _, (Some 4%Z). split; [cbn; eauto 6|]. split; [cbn; auto|]. split; [apply su_count; auto|]. eapply de_distribution; [reflexivity|reflexivity|reflexivity|reflexivity|exists 0; split; reflexivity|reflexivity].
    + eexists _, (Some 2%Z). split; [cbn; eauto|]. split; [cbn; auto|]. split; [apply su_weighed; cbn; unfold thr_protocol; auto|]. eapply de_binned; [now left|reflexivity|cbn; intros a [<-|[]]; lia|cbn; lia|cbn; discriminate|discriminate|].
      intros a b r h hr. assert (r = 0) as -> by (destruct hr as [->|[hr _]]; [auto|discriminate hr]). cbn in h. destruct h as [h|[]]. injection h as <- <-. eexists. eexists. split; [exists 1; split; reflexivity|]. split; [reflexivity|]. eapply bv_thr_nan; [reflexivity|now left|reflexivity].
    + eexists _, (Some 2%Z). split; [cbn; eauto|]. split; [cbn; auto|]. split; [apply su_scope|]. eapply (de_scope _ _ _ _ _ 1 _ _ 2 3 2); [reflexivity|reflexivity|reflexivity|reflexivity|lia|exists 1; split; reflexivity|left; auto|cbn; lia|cbn; lia].
  - intros s s' ch hm hm' c R R' ns P. apply ex_reads in R. apply ex_reads in R'. assert (ch = "b") as ->.
    { destruct R as [(-> & R)|(-> & R)], R' as [(-> & R')|(-> & R')]; try easy; destruct R as [[-> ->]|[[-> ->]|[-> ->]]] || destruct R as [[-> ->]|[-> ->]]; destruct R' as [[e ->]|[[e ->]|[e ->]]] || destruct R' as [[e ->]|[e ->]]; try discriminate e; auto. }
    unfold ProtoOf in P. cbn in P. destruct P as [P|[P|[P|[P|[]]]]]; try discriminate P. injection P as <-. reflexivity. Qed.
(** its data *)
Example ex_result : match retrieve ex_g 6 ex_hw with
  | Ok ds => map fst ds = ["a"; "b"; "d"; "t"] /\ option_map d_vals (RetModel.get "a" ds) = Some [[[Some (4 / 4, 2 / 4)]; [None]]; [[Some (8 / 4, 10 / 4)]; [Some (12 / 4, 14 / 4)]]]%Q /\
      option_map d_vals (RetModel.get "b" ds) = Some [[[Some (1, 0)]; [Some (-1 # 1, 0)]]]%Q /\ option_map d_vals (RetModel.get "t" ds) = Some [[[Some (2, 3); Some (7, 7)]]]%Q /\
      option_map d_coord (RetModel.get "a" ds) = Some [("amp", [CUser "0.1"; CNan]); ("freq", [CNan; CUser "5"])] /\ option_map d_coord (RetModel.get "d" ds) = Some [("counts_d", [CCount 1; CCount 3])]
  | Err _ => False end.
Proof. vm_compute. repeat split. Qed.
(** the scope acquisition of the trace is stored *)
Example ex_scope : scope_seq QRM (trace_flags ex_g) (trace_mapping ex_g) = Ok (Some (1, 1%Z)) /\ of_program QRM ex_g (Some (1, 1%Z)).
Proof. split; [vm_compute; reflexivity|split; [reflexivity|auto]]. Qed.

(** ** A channel that appends cannot be acquired with two sequencers, although its indices are different *)
Definition split_g : RetModel.manager := {| g_kind := QRM_manager; g_data := [("a", {| c_proto := SSBIntegrationComplex; c_mode := APPEND; c_coords := CoordList [[]; []] |})];
  g_mapping := [("seq0", [("a", Bins [(0, bin 0 0 1)])]); ("seq1", [("a", Bins [(1, bin 0 0 1)])])]; g_durations := [("seq0", Some 4%Z); ("seq1", Some 4%Z)];
  g_seq := seq_index QRM; g_reps := 2; g_scope := None; g_inputs := fun _ => None; g_dummy := false |}.
Definition split_hw : hardware := {| acquisitions := fun _ _ => [acq 0 [Some 1; Some 2]%Q [Some 3; Some 4]%Q [] (fun _ => [])]; io_samples := fun _ => []; io_events := fun _ => [] |}.
Theorem C55_append_split_refuted : ~ (forall g n hw, Dicts g -> Apart g -> (forall s ch hm, Reads g s ch hm -> exists c dur, ProtoOf g ch c /\ In (s, dur) (g_durations g) /\ Supported (g_kind g) (c_proto c) (c_mode c) /\ Delivered g hw s c dur hm) -> (forall s chans, In (s, chans) (g_mapping g) -> exists i, g_seq g s = Some i) -> (forall i k, g_scope g = Some (i, k) -> i < n) -> exists ds, retrieve g n hw = Ok ds).
Proof. intros H.
  assert (RD : forall s ch hm, Reads split_g s ch hm -> ch = "a" /\ (s = "seq0" /\ hm = Bins [(0, bin 0 0 1)] \/ s = "seq1" /\ hm = Bins [(1, bin 0 0 1)])).
  { intros s ch hm (chans & [e|[e|[]]] & h2); injection e as <- <-; cbn in h2; destruct h2 as [h2|[]]; injection h2 as <- <-; auto. }
  destruct (H split_g 6 split_hw) as [ds e].
  - constructor.
    + cbn. repeat (constructor; [cbn; intuition discriminate|]). constructor.
    + cbn. intros s chans [e|[e|[]]]; injection e as <- <-; cbn; repeat (constructor; [cbn; intuition discriminate|]); constructor.
    + intros s ch l R. apply RD in R. destruct R as (_ & [[_ e]|[_ e]]); injection e as ->; cbn; repeat (constructor; [cbn; intuition discriminate|]); constructor.
    + cbn. repeat (constructor; [cbn; intuition discriminate|]). constructor.
    + cbn. repeat (constructor; [cbn; intuition discriminate|]). constructor.
    + cbn. intros ch c coords dict [e|[]]; injection e as <- <-; cbn; intros q; injection q as <-; cbn; intros [<-|[<-|[]]]; constructor.
  - intros s s' ch hm hm' R R' ns. apply RD in R. apply RD in R'. destruct R as (-> & R), R' as (_ & R'). split; [intros c [e|[]]; injection e as <-; discriminate|].
    destruct R as [[-> ->]|[-> ->]], R' as [[-> ->]|[-> ->]]; try easy; eexists; eexists; (split; [reflexivity|]); (split; [reflexivity|]); cbn; intros a [<-|[]] [h|[]]; discriminate h.
  - intros s ch hm R. apply RD in R. destruct R as (-> & R). eexists _, (Some 4%Z). split; [left; reflexivity|]. split; [destruct R as [[-> _]|[-> _]]; cbn; auto|]. split; [apply su_weighed; cbn; auto|].
    assert (X : exists i a, g_seq split_g s = Some i /\ hm = Bins [(a, bin 0 0 1)] /\ a < 2) by (destruct R as [[-> ->]|[-> ->]]; [exists 0, 0|exists 1, 1]; auto). destruct X as (i & a & si & -> & la).
    eapply de_binned; [now right|reflexivity|cbn; intros x [<-|[]]; lia|cbn; lia|intros _; exists 4%Z; split; [auto|lia]|intros [h|h]; discriminate h|].
    intros a' b r h hr. cbn [split_g g_reps] in hr. assert (r = 0 \/ r = 1) as [-> | ->] by (destruct hr as [->|[_ hr]]; lia); cbn in h; destruct h as [h|[]]; injection h as <- <-; eexists; eexists; (split; [exists i; split; [exact si|reflexivity]|]); (split; [reflexivity|]); cbn; (eapply bv_amplitude; [reflexivity|split; reflexivity|reflexivity|lia]).
  - cbn. intros s chans [e|[e|[]]]; injection e as <- <-; [exists 0|exists 1]; reflexivity.
  - discriminate.
  - vm_compute in e. discriminate e. Qed.
(** ** Time tags of a QTM *)
Definition qtm_g : RetModel.manager := {| g_kind := QTM_manager; g_data := [("tt", {| c_proto := TimetagTrace; c_mode := APPEND; c_coords := CoordList [[]; []] |}); ("c", {| c_proto := TriggerCount; c_mode := SUM; c_coords := CoordList [[]] |})];
  g_mapping := [("seq0", [("tt", Bins [(0, bin 0 0 2); (1, bin 0 1 2)])]); ("seq1", [("c", Bins [(0, bin 0 0 1)])])]; g_durations := [("seq0", None); ("seq1", None)];
  g_seq := fun s => if String.eqb s "seq0" then Some 0 else if String.eqb s "seq1" then Some 1 else None; g_reps := 1; g_scope := None; g_inputs := fun _ => None; g_dummy := false |}.
Definition qtm_windows : list window := [{| w_open := 0; w_tags := [2048; 6144]; w_close := 9000; w_base := 1024 |}; {| w_open := 10000; w_tags := []; w_close := 19000; w_base := 1024 |}]%Z.
Definition qtm_hw : hardware := {| acquisitions := fun _ _ => [("0", {| a_index := 0; integ0 := []; integ1 := []; thr := []; avg_cnt := []; cnt := Some [Some (7 # 2)]; timedelta := [Some (1024 # 1); None]; scope_path := fun _ => [] |})]; io_samples := fun _ => []; io_events := fun i => match i with 0 => flat_map w_events qtm_windows | _ => [] end |}.
Example qtm_result : match retrieve qtm_g 8 qtm_hw with
  | Ok ds => option_map d_vals (RetModel.get "tt" ds) = Some [[[Some ((1024 + 2048 - 2048) / 2048, 0); Some ((1024 + 6144 - 2048) / 2048, 0)]; [None; None]]]%Q /\ option_map d_vals (RetModel.get "c" ds) = Some [[[Some (3, 0)]]]%Q
  | Err _ => False end.
Proof. vm_compute. repeat split. Qed.
Example qtm_first : forall j w y, nth_error qtm_windows j = Some w -> nth_error [Some (1024 # 1); None] j = Some y -> FirstTag w y.
Proof. intros [|[|j]] w y h1 h2; cbn in h1, h2; try discriminate; [injection h1 as <-; injection h2 as <-; reflexivity|injection h1 as <-; exact I|destruct j; discriminate]. Qed.
