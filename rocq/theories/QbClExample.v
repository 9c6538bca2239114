(** C53: cases that meet the hypotheses, and refutations by example. *)
From Verif Require Import QbExample Base PathModel JsonModel QbModel QbSpec QbProps QbAccept QbQtmSpec QbQtm QbClModel QbClSpec QbClProps QbClThms QbClThms2.
From Coq Require Import Lia.
Local Open Scope string_scope.
Local Open Scope list_scope.

Definition aprog (seqs : list (string * aset)) (hwm : option hw_mapping) : mprog := Analog {| p_settings := None; p_seqs := seqs; p_mapping := hwm |}.
Definition tseq (i : nat) : tset := {|
  tt_sync_en := true; tt_outs := []; tt_ins := [i]; tt_sequence := Some "tt"; tt_triggers := []; tt_write_en := Some false;
  analog_threshold := Some (1 # 2)%Q; time_source := Some "first"; time_ref := Some "port"; time_ref_channel := Some 3%Z; trace_type := Some "timetag"; trace_duration := Some 100%Z; addr_low := 1%Z; addr_mid := 0%Z; addr_high := 2%Z; addr_invalid := 0%Z |}.
Definition tprog : mprog := Timetag {| p_settings := None; p_seqs := [("seq2", tseq 2); ("seq5", tseq 5)]; p_mapping := Some [("seq2", [("ch2", None)])] |}.
Definition md (s : nat) (k : kind) : module := {| slot := s; knd := k; drv := QbExample.drv false; cmp := boot |}.
Definition cl0 : cluster := {| mods := [("A", md 1 QCM); ("B", md 2 QRM); ("C", md 4 QTM)]; prog := None; root := boot; cdrv := QbExample.drv false; sent := [] |}.
Definition s (name : string) : aset := sq name 100%Q None.
Definition pr (a b : list (string * aset)) : cprogram := {| reference := "external"; ext := Some {| e_slot := 4; e_channel := 8; e_threshold := Some (3 # 10)%Q; e_args := "t" |}; c_data := [("ch0", false)]; c_mods := [("A", aprog a None); ("B", aprog b (Some [("seq0", [("ch0", Some 0%Z)])])); ("C", tprog)] |}.
Definition p1 : cprogram := pr [("seq0", s "a")] [("seq0", s "b"); ("seq1", s "c")].
Local Notation run p cl := (fst (prepare_cl p cl)).
(** prepared and started: three modules, with an external trigger on the last channel of the QTM *)
Example C53_example : snd (prepare_cl p1 cl0) = Ok tt /\ snd (start (run p1 cl0)) = Ok tt /\ running (fst (start (run p1 cl0))) = [("C", 5); ("C", 2); ("B", 1); ("B", 0); ("A", 0)]%nat /\
  sent (fst (start (run p1 cl0))) = [StopAll; Arm "A" 0; Clear "B" 0; Arm "B" 0; Arm "B" 1; Clear "C" 2; Arm "C" 2; Arm "C" 5; SyncExt 4 8 "t"; StartAll] /\ retrieved (run p1 cl0) = ["B"; "C"].
Proof. vm_compute. auto. Qed.
Lemma p_distinct a b : Distinct (c_mods (pr a b)).
Proof. unfold Distinct. cbn. repeat constructor; cbn; intuition discriminate. Qed.
Lemma cl0_distinct : Distinct (mods cl0).
Proof. unfold Distinct. cbn. repeat constructor; cbn; intuition discriminate. Qed.
Lemma cl0_fresh : AllFresh cl0.
Proof. intros n m h. left. cbn in h. destruct h as [h|[h|[h|[]]]]; injection h as <- <-; apply boot_coherent. Qed.
Lemma tprog_good : GoodProgram tprog.
Proof. cbn [GoodProgram tprog]. constructor.
  - cbn. repeat constructor; cbn; intuition discriminate.
  - intros n t h. cbn in h. destruct h as [h|[h|[]]]; injection h as <- <-; constructor.
  - intros n t m u ch h1 h2 _ h3. cbn in h2. destruct h2 as [h2|[h2|[]]]; injection h2 as <- <-; destruct h3. Qed.
Lemma aprog_good a hwm : NoDup (map fst a) -> (forall n t, In (n, t) a -> NoDup (map fst (triggers t))) -> GoodProgram (aprog a hwm).
Proof. intros h1 h2. constructor; auto. Qed.
(** the hypotheses of [C53_sync]: stop, then prepare *)
Example C53_sync_example : snd (stop cl0) = Ok tt /\ snd (prepare_cl p1 (fst (stop cl0))) = Ok tt /\ (forall n q, In (n, q) (c_mods p1) -> GoodProgram q) /\ (forall n m, In (n, m) (mods cl0) -> GoodCalibration (QbClModel.drv m)).
Proof. do 2 (split; [vm_compute; reflexivity|]). split.
  - assert (T : NoDup (map fst (triggers (s "x")))) by (cbn; repeat constructor; cbn; intuition discriminate). intros n q h. cbn [p1 pr c_mods In] in h. destruct h as [h|[h|[h|[]]]]; injection h as <- <-; [apply aprog_good|apply aprog_good|apply tprog_good].
    + cbn. repeat constructor; cbn; intuition discriminate.
    + intros n t [h|[]]. injection h as <- <-. exact T.
    + cbn. repeat constructor; cbn; intuition discriminate.
    + intros n t [h|[h|[]]]; injection h as <- <-; exact T.
  - intros n m h. cbn in h. destruct h as [h|[h|[h|[]]]]; injection h as <- <-; apply drv_good. Qed.

(** A program rejected by the first module: the other modules keep their old programs, and [start] arms them. *)
Definition p2 : cprogram := pr [("seq0", s "bad")] [("seq0", s "b2")].
Theorem C53_failed_prepare_refuted : exists cl pa pb ca cb cc e n i, Distinct (mods cl) /\ Distinct (c_mods pa) /\ Distinct (c_mods pb) /\ prepare_cl pa cl = (ca, Ok tt) /\ prepare_cl pb ca = (cb, Err e) /\ start cb = (cc, Ok tt) /\
  In (n, i) (running cc) /\ ~ exists q, In (n, q) (c_mods pb) /\ In (seq_name i) (seq_names q).
Proof. exists cl0, p1, p2, (run p1 cl0), (run p2 (run p1 cl0)), (fst (start (run p2 (run p1 cl0)))), OtherErr, "B", 1%nat.
  split; [apply cl0_distinct|]. split; [apply p_distinct|]. split; [apply p_distinct|].
  split; [apply result_pair; vm_compute; reflexivity|]. split; [apply result_pair; vm_compute; reflexivity|]. split; [apply result_pair; vm_compute; reflexivity|]. split.
  - assert (E : existsb (fun x => String.eqb (fst x) "B" && Nat.eqb (snd x) 1) (running (fst (start (run p2 (run p1 cl0))))) = true) by (vm_compute; reflexivity).
    apply existsb_exists in E. destruct E as ([n i] & h & e). apply andb_true_iff in e. destruct e as [e1 e2]. apply String.eqb_eq in e1. apply Nat.eqb_eq in e2. cbn [fst snd] in e1, e2. subst. exact h.
  - intros (q & h1 & h2). cbn [p2 pr c_mods In] in h1. destruct h1 as [h1|[h1|[h1|[]]]]; try discriminate. injection h1 as <-. cbn in h2. intuition discriminate. Qed.

(** Without [stop] in between, the sequencers of a module that the new program does not use still wait for synchronisation. *)
Definition p3 : cprogram := {| reference := "external"; ext := None; c_data := []; c_mods := [("A", aprog [("seq0", s "a")] None)] |}.
Theorem C53_sync_refuted : exists cl pa pb ca cb cc n m i, Distinct (mods cl) /\ Distinct (c_mods pa) /\ Distinct (c_mods pb) /\ AllFresh cl /\ prepare_cl pa cl = (ca, Ok tt) /\ start ca = (cb, Ok tt) /\ prepare_cl pb cb = (cc, Ok tt) /\
  In (n, m) (mods cc) /\ (i < sequencers (knd m))%nat /\ Synced m i /\ ~ In n (map fst (c_mods pb)).
Proof. assert (G : exists m, get_mod "B" (mods (run p3 (fst (start (run p1 cl0))))) = Some m /\ knd m = QRM /\ py_eq (hw (mem (cmp m) (LSeq 1) "sync_en")) (VBool true) = true).
  { destruct (get_mod "B" (mods (run p3 (fst (start (run p1 cl0)))))) as [m|] eqn:E.
    - exists m. split; [auto|]. assert (X : option_map (fun m => match knd m with QRM => py_eq (hw (mem (cmp m) (LSeq 1) "sync_en")) (VBool true) | _ => false end) (get_mod "B" (mods (run p3 (fst (start (run p1 cl0)))))) = Some true) by (vm_compute; reflexivity).
      rewrite E in X. cbn [option_map] in X. injection X as X. clear E. revert X. destruct (knd m); intros X; try discriminate X. split; [reflexivity|exact X].
    - exfalso. assert (X : match get_mod "B" (mods (run p3 (fst (start (run p1 cl0))))) with Some _ => true | None => false end = true) by (vm_compute; reflexivity). rewrite E in X. discriminate X. }
  destruct G as (m & g1 & g2 & g3). exists cl0, p1, p3, (run p1 cl0), (fst (start (run p1 cl0))), (run p3 (fst (start (run p1 cl0)))), "B", m, 1%nat.
  split; [apply cl0_distinct|]. split; [apply p_distinct|]. split; [repeat constructor; cbn; intuition discriminate|]. split; [apply cl0_fresh|].
  split; [apply result_pair; vm_compute; reflexivity|]. split; [apply result_pair; vm_compute; reflexivity|]. split; [apply result_pair; vm_compute; reflexivity|].
  split; [now apply get_in|]. split; [rewrite g2; cbn; lia|]. split; [exact g3|]. cbn. intuition discriminate. Qed.

(** C54: a program with two sequencers on a fresh module *)
Definition tp : program tset := {| p_settings := None; p_seqs := [("seq2", tseq 2); ("seq5", tseq 5)]; p_mapping := Some [("seq2", [("ch2", None)])] |}.
Example C54_example : QtmProgram tp /\ Coherent (mem boot) /\ snd (prepare_qtm (QbExample.drv false) tp boot) = Ok tt /\
  (forall v, ProgWants tp (LIo 5) "binned_acq_time_ref" v <-> v = VStr "first3") /\ ProgWants tp (LIo 5) "scope_mode" (VStr "timetags-windowed").
Proof. split; [exact tprog_good|]. split; [apply boot_coherent|]. split; [vm_compute; reflexivity|]. split.
  - intros v. split.
    + intros (i & t & h1 & h2). inversion h2; subst; cbn [tp p_seqs In] in h1; destruct h1 as [h1|[h1|[]]]; assert (h3 := f_equal snd h1); cbn [snd] in h3; subst t; cbn [tseq time_ref] in *; match goal with e : Some _ = Some _ |- _ => injection e as <- end; match goal with r : RefValue _ _ _ |- _ => inversion r; subst; cbn [tseq time_ref_channel] in * end; try congruence; match goal with e : Some _ = Some _ |- _ => injection e as <- end; reflexivity.
    + intros ->. exists 5%nat, (tseq 5). split; [cbn; auto|]. eapply q_ref; [reflexivity|]. apply (rv_port (tseq 5) 3%Z). reflexivity.
  - exists 5%nat, (tseq 5). split; [cbn; auto|]. now constructor. Qed.
