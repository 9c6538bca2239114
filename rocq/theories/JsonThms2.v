(** C45: the theorems, examples that meet their hypotheses, and what cannot be stored. *)
From Coq Require Import DecimalString Ascii.
From Verif Require Import Base PathModel JsonModel JsonSpec JsonProps JsonProps2 JsonProps3 JsonProps4 JsonThms JsonHash JsonSame JsonCheck.
Open Scope string_scope.
Open Scope list_scope.

(** * Theorems *)

(** What has been read back is stored as the very same document, at every recursion limit. *)
Theorem C45_same_document_partial : forall w v, storable w AnyValue v -> forall n, to_json w n (restore w v) = to_json w n v.
Proof. intros w v h n. symmetry. exact (main2 w v AnyValue h n). Qed.

(** A second round trip changes nothing. *)
Theorem C45_second_trip_partial : forall w v, complex_text w -> storable w AnyValue v -> stored_as w (restore w v) (restore w v).
Proof. intros w v hc h. destruct (C45_round_trip_partial w v hc h) as (N & j & h1 & h2). exists N, j. split; [|exact h2]. intros n hn. rewrite C45_same_document_partial by exact h. now apply h1. Qed.

(** The text in the file does not depend on which of the two is stored, so every document that is read back
    and stored again is unchanged. *)
Theorem C45_document_stable_partial : forall w v n j v', complex_text w -> storable w AnyValue v -> to_json w n v = Ok j -> from_json w j = Ok v' -> to_json w n v' = Ok j.
Proof. intros w v n j v' hc h hj hr. destruct (C45_round_trip_partial w v hc h) as (N & j' & h1 & h2).
  assert (e : j' = j).
  { assert (mono : forall n v j, encode w n v = Ok j -> encode w (S n) v = Ok j).
    { clear. induction n as [|n IH]; intros v j; [discriminate|]. intros hv. 
      assert (ml : forall l js, mapR (encode w n) l = Ok js -> mapR (encode w (S n)) l = Ok js).
      { induction l as [|x l IHl]; intros js hl; [exact hl|]. rewrite mapR_cons in *. destruct (encode w n x) as [jx|] eqn:E; [|discriminate]. rewrite (IH _ _ E). cbn [bind] in *. destruct (mapR (encode w n) l) as [js'|]; [|discriminate]. rewrite (IHl _ eq_refl). exact hl. }
      assert (md : forall l js, mapR (fun p : val * val => do k <- json_key w (fst p); do j <- encode w n (snd p); Ok (k, j)) l = Ok js -> mapR (fun p : val * val => do k <- json_key w (fst p); do j <- encode w (S n) (snd p); Ok (k, j)) l = Ok js).
      { induction l as [|x l IHl]; intros js hl; [exact hl|]. rewrite mapR_cons in *. destruct (json_key w (fst x)); [|discriminate]. cbn [bind] in *. destruct (encode w n (snd x)) as [jx|] eqn:E; [|discriminate]. rewrite (IH _ _ E). cbn [bind] in *. match type of hl with (do ys <- ?m; _) = _ => destruct m as [js'|] eqn:E2; [|discriminate] end. rewrite (IHl _ eq_refl). exact hl. }
      change (encode w (S (S n)) v) with (match v with
      | VNone => Ok JNull | VBool b => Ok (JBool b) | VInt z => Ok (JInt z) | VFloat _ f => Ok (JFloat (anon f)) | VStr s | VStrEnum _ s => Ok (JStr s)
      | VList l | VTuple l => do l' <- mapR (encode w (S n)) l; Ok (JArr l')
      | VDict d => do d' <- mapR (fun p => do k <- json_key w (fst p); do j <- encode w (S n) (snd p); Ok (k, j)) d; Ok (JObj d')
      | _ => encode w (S n) (default w v) end).
      change (encode w (S n) v) with (match v with
      | VNone => Ok JNull | VBool b => Ok (JBool b) | VInt z => Ok (JInt z) | VFloat _ f => Ok (JFloat (anon f)) | VStr s | VStrEnum _ s => Ok (JStr s)
      | VList l | VTuple l => do l' <- mapR (encode w n) l; Ok (JArr l')
      | VDict d => do d' <- mapR (fun p => do k <- json_key w (fst p); do j <- encode w n (snd p); Ok (k, j)) d; Ok (JObj d')
      | _ => encode w n (default w v) end) in hv.
      destruct v; try exact hv; try (now apply IH).
      - destruct (mapR (encode w n) l) as [js|] eqn:E; [|discriminate]. rewrite (ml _ _ E). exact hv.
      - destruct (mapR (encode w n) l) as [js|] eqn:E; [|discriminate]. rewrite (ml _ _ E). exact hv.
      - match type of hv with (do ys <- ?m; _) = _ => destruct m as [js'|] eqn:E2; [|discriminate] end. rewrite (md _ _ E2). exact hv. }
    assert (up : forall k, encode w (k + n) v = Ok j) by (induction k as [|k IHk]; [exact hj|now apply mono]).
    specialize (h1 (N + n)%nat ltac:(lia)). unfold to_json in h1. rewrite up in h1. congruence. }
  subst j'. rewrite h2 in hr. injection hr as <-. rewrite C45_same_document_partial by exact h. exact hj. Qed.

(** Values that are read back exactly as they were. *)
Fixpoint exact_val (w : world) (v : val) : Prop :=
  match v with
  | VFloat np f => np = false /\ cflt f
  | VStrEnum _ _ | VTuple _ => False
  | VList l => Allp (exact_val w) l
  | VDict d => Allp (fun p => exact_val w (fst p) /\ exact_val w (snd p)) d
  | VObj c a => map fst a = fields (w_kind w c) /\ Allp (fun p => exact_val w (snd p)) a
  | _ => True
  end.
Lemma pick_all fs a : NoDup fs -> map fst a = fs -> pick fs a = a.
Proof. intros nd <-. assert (H : forall b, (forall k v, In (k, v) b -> aget k a = Some v) -> pick (map fst b) a = b).
  { induction b as [|[k v] b IH]; intros h; [reflexivity|]. unfold pick in *. cbn [map flat_map fst]. rewrite (h k v (or_introl eq_refl)). cbn [app]. rewrite IH; [reflexivity|]. intros k' v' hi. apply h. now right. }
  apply H. intros k v hi. clear H. induction a as [|[k' v'] a IH]; [contradiction|]. cbn in nd |- *. inversion nd; subst. destruct hi as [e|hi]; [inversion e; now rewrite String.eqb_refl|]. destruct (String.eqb_spec k' k) as [->|]; [exfalso; apply H1; exact (in_map fst _ _ hi)|auto]. Qed.
Lemma exact_restore w : forall v, exact_val w v -> restore w v = v.
Proof. induction v using val_ind'; cbn [exact_val restore]; try contradiction; try reflexivity.
  - intros [-> h]. destruct f as [| |[|]]; try reflexivity. contradiction.
  - intros h. f_equal. rewrite <- (map_id l) at 2. apply map_ext_in. rewrite Forall_forall in H. intros x hx. exact (H x hx (Allp_in _ _ _ h hx)).
  - intros h. f_equal. rewrite <- (map_id d) at 2. apply map_ext_in. rewrite Forall_forall in H. intros [x y] hx. destruct (H _ hx) as [h1 h2], (Allp_in _ _ _ h hx) as [h3 h4]. cbn in *. now rewrite h1, h2.
  - intros [hf h]. assert (e : map (fun p => (fst p, restore w (snd p))) a = a).
    { clear hf. rewrite <- (map_id a) at 2. apply map_ext_in. rewrite Forall_forall in H. intros [k y] hx. pose proof (H _ hx (Allp_in _ _ _ h hx)) as h1. cbn in *. now rewrite h1. }
    rewrite e. f_equal. apply pick_all; [|exact hf]. destruct (w_kind w c); repeat constructor; cbn; intuition discriminate. Qed.
Theorem C45_exact_partial : forall w v, complex_text w -> storable w AnyValue v -> exact_val w v -> stored_as w v v.
Proof. intros w v hc h he. rewrite <- (exact_restore w v he) at 2. now apply C45_round_trip_partial. Qed.

(** An operation that is stored and read back is equal ([==]) to the original, and has the same duration. *)
Theorem C45_operation_equal_partial : forall w c a, complex_text w -> storable w AnyValue (VObj c a) -> w_kind w c = KOperation -> nan_free (VObj c a) ->
  exists N j v', (forall n, (N <= n)%nat -> to_json w n (VObj c a) = Ok j) /\ from_json w j = Ok v' /\ op_eq w (VObj c a) v' = Ok true /\
    exists a' u u', v' = VObj c a' /\ aget "_duration" a = Some u /\ aget "_duration" a' = Some u' /\ num u' = num u.
Proof. intros w c a hc h hk hn. destruct (C45_round_trip_partial w _ hc h) as (N & j & h1 & h2). exists N, j, (restore w (VObj c a)). split; [exact h1|]. split; [exact h2|].
  pose proof h as (_ & hw & _). unfold well_formed in hw. rewrite hk in hw. destruct hw as (d & hd & [z ez] & _ & u & _ & hu). split.
  - unfold op_eq. rewrite (hash_same w _ AnyValue h hn), ez. cbn. now rewrite Z.eqb_refl.
  - exists (pick (fields KOperation) (map (fun p => (fst p, restore w (snd p))) a)), u, (restore w u). split; [cbn [restore]; rewrite hk; reflexivity|]. split; [exact hu|]. split; [|apply num_restore]. rewrite aget_pick. cbn [fields existsb]. rewrite String.eqb_refl. cbn. now rewrite aget_map, hu. Qed.

(** A schedule that is stored and read back has the same class and the same hash, and under every key whose
    value is a dictionary (in particular the schedulables and the operations) the same names in the same order. *)
Definition names_at (w : world) (k : string) (v : val) : option (list (option string)) :=
  match mapping w v with Some d => match dget (VStr k) d with Some (VDict s) => Some (map (fun p => text (fst p)) s) | _ => None end | None => None end.
Theorem C45_schedule_partial : forall w c a, complex_text w -> storable w AnyValue (VObj c a) -> (w_kind w c = KSchedule \/ w_kind w c = KCompiled) ->
  exists N j a', (forall n, (N <= n)%nat -> to_json w n (VObj c a) = Ok j) /\ from_json w j = Ok (VObj c a') /\
    (nan_free (VObj c a) -> make_hash w (VObj c a') = make_hash w (VObj c a)) /\
    (forall k, names_at w k (VObj c a') = names_at w k (VObj c a)) /\
    exists ns, names_at w "schedulables" (VObj c a) = Some (map Some ns).
Proof. intros w c a hc h hk. destruct (C45_round_trip_partial w _ hc h) as (N & j & h1 & h2). exists N, j, (pick (fields (w_kind w c)) (map (fun p => (fst p, restore w (snd p))) a)). split; [exact h1|]. split; [exact h2|].
  split; [intros hn; exact (hash_same w _ AnyValue h hn)|].
  assert (hd : exists d sd, aget "data" a = Some (VDict d) /\ dget (VStr "schedulables") d = Some (VDict sd) /\ string_keys sd).
  { destruct h as (_ & hw & ha). unfold well_formed in hw. destruct hk as [hk|hk]; rewrite hk in *.
    - destruct hw as (d & hd & sd & hsd). exists d, sd. split; [exact hd|]. split; [exact hsd|]. pose proof (Allp_in _ _ _ ha (aget_in _ _ _ hd) (or_introl eq_refl)) as hst. cbn in hst. destruct hst as [_ h3]. destruct (dget_in _ _ _ hsd) as (p & hp & ht & ep). pose proof (Allp_in _ _ _ h3 hp) as h4. cbn in h4. rewrite ep in h4. apply h4.
    - destruct hw as (d & ci & hd & (sd & hsd) & _). exists d, sd. split; [exact hd|]. split; [exact hsd|]. pose proof (Allp_in _ _ _ ha (aget_in _ _ _ hd) (or_introl eq_refl)) as hst. cbn [attr_place fst snd] in hst. rewrite String.eqb_refl in hst. destruct hst as [_ h3]. destruct (dget_in _ _ _ hsd) as (p & hp & ht & ep). pose proof (Allp_in _ _ _ h3 hp) as h4. cbn [inside] in h4. rewrite ht, ep in h4. apply h4. }
  destruct hd as (d & sd & hd & hsd & hsk).
  assert (e1 : mapping w (VObj c a) = Some d) by (cbn [mapping]; destruct hk as [hk|hk]; rewrite hk, hd; reflexivity).
  assert (e2 : mapping w (VObj c (pick (fields (w_kind w c)) (map (fun p => (fst p, restore w (snd p))) a))) = Some (map (fun p => (restore w (fst p), restore w (snd p))) d)).
  { cbn [mapping]. destruct hk as [hk|hk]; rewrite hk; cbn [fields]; rewrite (pick1 w _ _ _ hd); reflexivity. }
  split.
  - intros k. unfold names_at. rewrite e1, e2, dget_restore. destruct (dget (VStr k) d) as [[]|]; cbn [option_map restore]; try reflexivity. f_equal. rewrite map_map. apply map_ext. intros p. apply text_rest.
  - destruct hsk as (ks & e & _). exists ks. unfold names_at. rewrite e1, hsd. now rewrite e. Qed.

(** * A compiled schedule that can be stored *)
Definition sch (n : string) : cls := Cls "quantify_scheduler.schedules.schedule" n.
Definition gate (n : string) : cls := Cls "quantify_scheduler.operations.gate_library" n.
Definition plib (n : string) : cls := Cls "quantify_scheduler.operations.pulse_library" n.
Definition F (z : Z) (d : positive) : val := VFloat false (Fin (Qmake z d)).
Definition S_ := VStr.
Definition operation (c : cls) (name : string) (gate_info : list (val * val)) (pulses acqs : list val) (dur : val) : val :=
  VObj c [("data", VDict [(S_ "name", S_ name); (S_ "gate_info", VDict gate_info); (S_ "pulse_info", VList pulses); (S_ "acquisition_info", VList acqs); (S_ "logic_info", VDict [])]);
          ("_duration", dur)].
Definition demo_pulse : val :=
  operation (plib "SquarePulse") "SquarePulse" []
    [VDict [(S_ "wf_func", S_ "quantify_scheduler.waveforms.square"); (S_ "amp", VComplex false (Fin (1#2)) (Fin 0));
            (S_ "reference_magnitude", VObj (plib "ReferenceMagnitude") [("value", F 1 4); ("unit", S_ "dBm")]);
            (S_ "duration", VFloat true (Fin (20#1000000000))); (S_ "t0", VInt 0); (S_ "port", S_ "q0:mw"); (S_ "clock", VNone)]] []
    (VFloat true (Fin (inject_Z 0 + (20#1000000000)))).
Definition demo_measure : val :=
  operation (gate "Measure") "Measure q0"
    [(S_ "device_elements", VList [S_ "q0"]); (S_ "tex", S_ "measure"); (S_ "acq_channel", VInt 0); (S_ "bin_mode", VStrEnum (enum_cls "BinMode") "average"); (S_ "unitary", VArr [VArr [VFloat true (Fin 1); VFloat true (Fin 0)]])]
    [] [VDict [(S_ "t0", F 1 10); (S_ "duration", F 1 1); (S_ "acq_return_type", VType (py "complex")); (S_ "protocol", S_ "SSBIntegrationComplex"); (S_ "coords", VTuple [VInt 1; VNpInt true 2])]] (F 11 10).
Definition tc (ref : val) : val :=
  VObj (sch "TimingConstraint") [("ref_schedulable", ref); ("ref_pt", VNone); ("ref_pt_new", S_ "start"); ("rel_time", VInt 0)].
Definition schedulable (name op : string) (ref : val) : val :=
  VObj (sch "Schedulable") [("data", VDict [(S_ "name", S_ name); (S_ "operation_id", S_ op); (S_ "timing_constraints", VList [tc ref]); (S_ "label", S_ name)])].
Definition demo_compiled : val :=
  VObj (sch "CompiledSchedule")
    [("data", VDict
       [(S_ "operation_dict", VDict [(S_ "op1", demo_pulse); (S_ "op2", demo_measure)]);
        (S_ "schedulables", VDict [(S_ "pulse", schedulable "pulse" "op1" VNone); (S_ "acq", schedulable "acq" "op2" (S_ "pulse"))]);
        (S_ "name", S_ "T1"); (S_ "repetitions", VInt 1024);
        (S_ "resource_dict", VDict [(S_ "cl0.baseband", VObj (Cls "quantify_scheduler.resources" "ClockResource") [("data", VDict [(S_ "name", S_ "cl0.baseband"); (S_ "freq", VInt 0)])])]);
        (S_ "compiled_instructions", VObj (Cls "quantify_scheduler.backends.qblox.schedule" "CompiledInstructions")
           [("data", VDict [(S_ "cluster0", VDict [(S_ "settings", VDict [(S_ "reference_source", S_ "internal")]);
               (S_ "acq_channels_data", VDict [(VInt 0, VObj acd_cls [("acq_index_dim_name", S_ "acq_index_0"); ("protocol", S_ "SSBIntegrationComplex"); ("bin_mode", VStrEnum (enum_cls "BinMode") "average"); ("coords", VList [VDict []])]);
                                               (S_ "ch_1", VObj acd_cls [("acq_index_dim_name", S_ "acq_index_ch_1"); ("protocol", S_ "Trace"); ("bin_mode", S_ "append"); ("coords", VDict [])])])])])])]);
     ("_hardware_timing_table", VNone)].
Example demo_storable : storable demo AnyValue demo_compiled.
Proof. apply storable_check. vm_compute. reflexivity. Qed.
Example demo_op_storable : storable demo AnyValue demo_pulse /\ nan_free demo_pulse /\ w_kind demo (plib "SquarePulse") = KOperation.
Proof. split; [apply storable_check; vm_compute; reflexivity|]. split; [cbn; tauto|reflexivity]. Qed.
Example demo_trip : (do j <- to_json demo 40 demo_compiled; from_json demo j) = Ok (restore demo demo_compiled).
Proof. vm_compute. reflexivity. Qed.
(** A schedule body that is read back exactly. *)
Definition demo_exact : val :=
  VObj (sch "Schedule") [("data", VDict [(S_ "operation_dict", VDict [(S_ "op2", operation (gate "X") "X q0" [(S_ "device_elements", VList [S_ "q0"])] [] [] (VInt 0))]); (S_ "schedulables", VDict [(S_ "x", schedulable "x" "op2" VNone)]); (S_ "name", S_ "s"); (S_ "repetitions", VInt 1)])].
Example demo_exact_ok : storable demo AnyValue demo_exact /\ exact_val demo demo_exact.
Proof. split; [apply storable_check; vm_compute; reflexivity|]. cbn. tauto. Qed.
Example demo_exact_trip : (do j <- to_json demo 40 demo_exact; from_json demo j) = Ok demo_exact.
Proof. vm_compute. reflexivity. Qed.
(** A NaN makes the read-back operation different. *)
Definition nan_op : val := operation (gate "X") "X q0" [(S_ "theta", VFloat false (Nan 3))] [] [] (VInt 0).
Example nan_op_ok : storable demo AnyValue nan_op. Proof. apply storable_check. vm_compute. reflexivity. Qed.
