(** C45: what does not survive.  Wherever possible these are stated for every world and every value. *)
From Coq Require Import DecimalString Ascii Lqa.
From Verif Require Import Base PathModel JsonModel JsonSpec JsonProps JsonProps2 JsonProps3 JsonProps4 JsonThms JsonHash JsonSame JsonCheck JsonThms2.
Open Scope Q_scope.
Open Scope string_scope.
Open Scope list_scope.

Definition trip (w : world) (limit : nat) (v : val) : result val := do j <- to_json w limit v; from_json w j.
Definition placeholder (name : string) : val := VDict [(VStr "unserializable_object", VBool true); (VStr "type", VStr name)].

Lemma placeholder_stored w v e : (forall n, encode w (S n) v = encode w n (default w v)) -> default_try w v = Err e -> stored_as w v (placeholder (type_name v)).
Proof. intros h t. apply stored_stored_as, rt_default; [exact h|]. unfold default. rewrite t.
  apply rt_plain_dict; [exists ["unserializable_object"; "type"]; split; [reflexivity|split; [repeat constructor; cbn; intuition discriminate|cbn; intuition discriminate]]|].
  constructor; [apply entry_str, rt_bool|]. constructor; [apply entry_str, rt_str|]. constructor. Qed.

(** An operation that cannot be hashed is lost without an error: a placeholder is stored instead. *)
Theorem C45_unhashable_operation_refuted : forall w c a e, w_kind w c = KOperation -> make_hash w (VObj c a) = Err e -> stored_as w (VObj c a) (placeholder (cname c)).
Proof. intros w c a e hk hh. apply (placeholder_stored w (VObj c a) e); [reflexivity|]. cbn [default_try]. rewrite hk, hh. reflexivity. Qed.
(** For instance one with a parameter whose keys are of mixed types. *)
Definition mixed_op : val := operation (gate "X") "X q0" [(S_ "table", VDict [(VInt 1, VInt 1); (S_ "a", VInt 2)])] [] [] (VInt 0).
Example mixed_op_lost : trip demo 20 mixed_op = Ok (placeholder "X"). Proof. vm_compute. reflexivity. Qed.

(** A compiled schedule with a component that has no [in] (such as the Zurich Instruments device
    configuration, a dataclass) is lost as a whole, without an error. *)
Theorem C45_component_object_refuted : forall w c a d sd ci k comp,
  w_kind w c = KCompiled -> aget "data" a = Some (VDict d) -> dget (VStr "schedulables") d = Some (VDict sd) ->
  dget (VStr "compiled_instructions") d = Some (VDict ci) -> In (k, comp) ci -> contains_key w "acq_channels_data" comp = Err TypeError ->
  stored_as w (VObj c a) (placeholder (cname c)).
Proof. intros w c a d sd ci k comp hk ha hg hci hin hc.
  assert (H : exists e, mapR (fun p => do x <- getstate_component w (snd p); Ok (fst p, x)) ci = Err e).
  { clear hci. induction ci as [|[k' x] ci IH]; [contradiction|]. rewrite mapR_cons. cbn [fst snd]. destruct (getstate_component w x) as [y|e] eqn:E; [|now exists e]. cbn [bind]. destruct hin as [h|h].
    - inversion h. subst. unfold getstate_component in E. rewrite hc in E. discriminate.
    - destruct (IH h) as [e ->]. now exists e. }
  destruct H as [e he]. apply (placeholder_stored w (VObj c a) e); [reflexivity|]. cbn [default_try]. rewrite hk. cbn [bind]. unfold getstate. rewrite hk. unfold getstate_compiled, getstate_schedule, attr. rewrite ha. cbn [bind as_dict]. unfold item at 1. rewrite hg. cbn [bind as_dict]. unfold state2 at 1. cbn [as_dict bind]. rewrite item_data2. cbn [bind as_dict].
  unfold item. rewrite dget_dput_ne by discriminate. rewrite hci. cbn [bind]. unfold with_values. cbn [mapping]. rewrite he. reflexivity. Qed.
Definition zi_compiled : val :=
  VObj (sch "CompiledSchedule") [("data", VDict [(S_ "operation_dict", VDict []); (S_ "schedulables", VDict []); (S_ "name", S_ "T1"); (S_ "repetitions", VInt 1);
    (S_ "compiled_instructions", VDict [(S_ "ic_hdawg0", VObj (Cls "quantify_scheduler.backends.zhinst_backend" "ZIDeviceConfig") [("name", S_ "hdawg0"); ("clock_select", VInt 0)])])])].
Example zi_lost : trip demo 20 zi_compiled = Ok (placeholder "CompiledSchedule"). Proof. vm_compute. reflexivity. Qed.

(** Integer keys of a dictionary are read back as strings. *)
Theorem C45_int_keys_refuted : forall w z v, complex_text w -> storable w AnyValue v -> dec_Z z <> "deserialization_type" -> stored_as w (VDict [(VInt z, v)]) (VDict [(VStr (dec_Z z), restore w v)]).
Proof. intros w z v hc h hz. destruct (C45_round_trip_partial w v hc h) as (N & j & h1 & h2). exists (S N), (JObj [(dec_Z z, j)]). split.
  - intros [|n] hn; [lia|]. cbn. unfold to_json in h1. rewrite h1 by lia. reflexivity.
  - cbn. unfold from_json in h2. rewrite h2. cbn. unfold decode_dict. cbn [dget]. rewrite key_str. destruct (String.eqb_spec (dec_Z z) "deserialization_type"); [contradiction|reflexivity]. Qed.
(** So two channels [1] and ["1"] become one. *)
Theorem C45_keys_collide_refuted : trip demo 20 (VDict [(VInt 1, S_ "a"); (S_ "1", S_ "b")]) = Ok (VDict [(S_ "1", S_ "b")]).
Proof. vm_compute. reflexivity. Qed.
(** The hardware mapping of a compiled Qblox program is keyed by the acquisition channels, like the
    acquisition channels data, but only the latter are stored with their keys: after reading back, the
    channel in the mapping is no key of the channels data (instrument_coordinator/components/qblox.py
    l.1728-1735 looks it up there). *)
Definition qblox_compiled (ch : val) : val :=
  VObj (sch "CompiledSchedule") [("data", VDict [(S_ "operation_dict", VDict []); (S_ "schedulables", VDict []); (S_ "name", S_ "T1"); (S_ "repetitions", VInt 1);
    (S_ "compiled_instructions", VDict [(S_ "cluster0_module1", VDict [
       (S_ "acq_channels_data", VDict [(ch, VObj acd_cls [("acq_index_dim_name", S_ "acq_index_0"); ("protocol", S_ "Trace"); ("bin_mode", S_ "average"); ("coords", VDict [])])]);
       (S_ "acq_hardware_mapping", VDict [(S_ "seq0", VDict [(ch, VInt 0)])])])])])].
(** The channels of the mapping that are no key of the channels data. *)
Definition unknown_channels (w : world) (v : val) : option (list val) :=
  match mapping w v with
  | None => None
  | Some d =>
      match dget (VStr "compiled_instructions") d with
      | Some (VDict [(_, VDict prog)]) =>
          match dget (VStr "acq_channels_data") prog, dget (VStr "acq_hardware_mapping") prog with
          | Some (VDict chans), Some (VDict [(_, VDict mapping)]) =>
              Some (filter (fun k => match dget k chans with Some _ => false | None => true end) (map fst mapping))
          | _, _ => None
          end
      | _ => None
      end
  end.
Theorem C45_qblox_int_channel_refuted :
  unknown_channels demo (qblox_compiled (VInt 0)) = Some [] /\
  match trip demo 30 (qblox_compiled (VInt 0)) with Ok v => unknown_channels demo v = Some [VStr "0"] | Err _ => False end.
Proof. vm_compute. auto. Qed.
(** With a str channel the lookup still works. *)
Theorem C45_qblox_str_channel : match trip demo 30 (qblox_compiled (VStr "ch0")) with Ok v => unknown_channels demo v = Some [] | Err _ => False end.
Proof. vm_compute. reflexivity. Qed.
(** A tuple as acquisition channel is stored, but cannot be read back. *)
Definition tuple_channel : val :=
  VObj (sch "CompiledSchedule") [("data", VDict [(S_ "operation_dict", VDict []); (S_ "schedulables", VDict []); (S_ "name", S_ "T1"); (S_ "repetitions", VInt 1);
    (S_ "compiled_instructions", VDict [(S_ "cluster0_module1", VDict [
       (S_ "acq_channels_data", VDict [(VTuple [VInt 0; VInt 1], VObj acd_cls [("acq_index_dim_name", S_ "acq_index_0"); ("protocol", S_ "Trace"); ("bin_mode", S_ "average"); ("coords", VDict [])])])])])])].
Theorem C45_tuple_channel_refuted : is_ok (to_json demo 30 tuple_channel) /\ trip demo 30 tuple_channel = Err TypeError.
Proof. vm_compute. eauto. Qed.

(** Values without attributes that are not among the known types (numpy.float32, numpy.bool_, sets, ...) are
    read back as None from Python 3.11 on. *)
Theorem C45_opaque_refuted : forall w t r, w_py311 w = true -> stored_as w (VOpaque t r) VNone.
Proof. intros w t r h. apply stored_stored_as. apply (rt_try w _ VNone); [reflexivity|cbn [default_try]; now rewrite h|apply rt_none]. Qed.
(** A class other than the ten known types is stored, but cannot be read back (unless the main script has a
    class called [type]). *)
Theorem C45_class_object_refuted : forall w c, existsb (cls_eqb c) DEFAULT_TYPES = false -> w_import w "__main__" "type" = None -> w_legacy w "type" = None ->
  exists N j, (forall n, (N <= n)%nat -> to_json w n (VType c) = Ok j) /\ from_json w j = Err OtherErr.
Proof. intros w c h1 h2 h3. exists 3%nat, (JObj [("deserialization_type", JStr "type"); ("mode", JStr "type"); ("data", JStr (cmod c ++ "." ++ cname c)%string)]). split.
  - intros [|[|[|n]]] hn; try lia. unfold to_json. change (encode w (S (S (S n))) (VType c)) with (encode w (S (S n)) (default w (VType c))). unfold default. cbn [default_try]. rewrite h1. reflexivity.
  - unfold from_json. cbn [decode]. match goal with |- (do d' <- ?m; _) = _ => change m with (Ok [(VStr "deserialization_type", VStr "type"); (VStr "mode", VStr "type"); (VStr "data", VStr (cmod c ++ "." ++ cname c)%string)]) end. cbn [bind].
    rewrite dict_of_distinct by (cbn; repeat split). unfold decode_dict. match goal with |- match ?x with _ => _ end = _ => change x with (Some (VStr "type")) end. cbn iota beta. unfold get_type. change (classes "type") with (@None cls). cbn iota. unfold import_object. change (rsplit "type") with (@None (string * string)). cbn iota. rewrite h2, h3. reflexivity. Qed.
(** Nor can a member of a plain enumeration. *)
Theorem C45_plain_enum_refuted : forall w c m, classes (cname c) = None -> import_object w (cname c) = None -> w_legacy w (cname c) = None ->
  exists N j, (forall n, (N <= n)%nat -> to_json w n (VEnum c m) = Ok j) /\ from_json w j = Err OtherErr.
Proof. intros w c m h1 h2 h3. exists 3%nat, (JObj [("deserialization_type", JStr (cname c)); ("mode", JStr "__init__"); ("data", JStr (cname c ++ "." ++ m)%string)]). split.
  - intros [|[|[|n]]] hn; try lia. reflexivity.
  - unfold from_json. cbn [decode]. match goal with |- (do d' <- ?x; _) = _ => change x with (Ok [(VStr "deserialization_type", VStr (cname c)); (VStr "mode", VStr "__init__"); (VStr "data", VStr (cname c ++ "." ++ m)%string)]) end. cbn [bind].
    rewrite dict_of_distinct by (cbn; repeat split). unfold decode_dict. match goal with |- match ?x with _ => _ end = _ => change x with (Some (VStr (cname c))) end. cbn iota beta. unfold get_type. rewrite h1, h2, h3. reflexivity. Qed.
(** A dictionary that happens to have the reserved key. *)
Theorem C45_reserved_key_refuted : trip demo 20 (VDict [(S_ "deserialization_type", S_ "my own value")]) = Err OtherErr.
Proof. vm_compute. reflexivity. Qed.
(** A class defined in the main script is looked up by its bare name, so one called like a known type or
    enumeration is taken for that. *)
Theorem C45_main_class_refuted : forall w c0 n, classes n = Some c0 -> get_type w (export_path (Cls "__main__" n)) = Ok c0 /\ c0 <> Cls "__main__" n.
Proof. intros w c0 n h. unfold export_path. cbn [cmod cname]. cbn [String.eqb Ascii.eqb Bool.eqb]. unfold get_type. rewrite h. split; [reflexivity|]. intros ->. unfold classes in h.
  destruct (List.find _ DEFAULT_TYPES) eqn:E; [inversion h; subst; apply find_some in E as [hi _]; cbn in hi; intuition discriminate|]. destruct (List.find _ enums); inversion h. Qed.

(** Legacy gate information: the entry ["qubits"] is dropped and never becomes ["device_elements"]. *)
Theorem C45_legacy_qubits_refuted : forall d g q, dget (VStr "gate_info") d = Some (VDict g) -> dget (VStr "qubits") g = Some q -> q <> VNone ->
  exists d', op_legacy d = Ok d' /\ dget (VStr "gate_info") d' = Some (VDict (dpop "qubits" g)) /\ dget (VStr "device_elements") (dpop "qubits" g) = dget (VStr "device_elements") g.
Proof. intros d g q h1 h2 h3. unfold op_legacy, dget_none. rewrite h1, h2. exists (dput (VStr "gate_info") (VDict (dpop "qubits" g)) d). split; [destruct q; try reflexivity; contradiction|]. split; [apply dget_dput|].
  clear. unfold dpop. induction g as [|[k v] g IH]; [reflexivity|]. cbn [filter fst dget]. destruct (key_eqb k (VStr "qubits")) eqn:E; cbn [negb dget]; [|now rewrite IH].
  rewrite IH. assert (ek : text k = Some "qubits") by (destruct k; cbn in E |- *; try discriminate; try (destruct f; discriminate); apply String.eqb_eq in E; now subst). now rewrite (text_key _ _ _ ek). Qed.
(** A NaN parameter: the operation read back is not equal to the stored one (in this world). *)
Theorem C45_nan_refuted : match trip demo 20 nan_op with Ok v => op_eq demo nan_op v = Ok false | Err _ => False end.
Proof. vm_compute. reflexivity. Qed.
(** The hardware timing table and waveforms of a compiled schedule are not stored. *)
Theorem C45_hardware_tables_refuted : match trip demo 40 demo_compiled with Ok (VObj _ a) => aget "_hardware_timing_table" a = None | _ => False end.
Proof. vm_compute. reflexivity. Qed.
(** Tuples become lists. *)
Theorem C45_tuple_refuted : forall w l, complex_text w -> storable w AnyValue (VTuple l) -> stored_as w (VTuple l) (VList (map (restore w) l)).
Proof. intros w l hc h. exact (C45_round_trip_partial w _ hc h). Qed.

(** Keys that are None or booleans become the strings JSON uses for them. *)
Theorem C45_constant_keys_refuted : forall w v, complex_text w -> storable w AnyValue v ->
  stored_as w (VDict [(VNone, v)]) (VDict [(VStr "null", restore w v)]) /\
  stored_as w (VDict [(VBool true, v)]) (VDict [(VStr "true", restore w v)]) /\
  stored_as w (VDict [(VBool false, v)]) (VDict [(VStr "false", restore w v)]).
Proof. intros w v hc h. destruct (C45_round_trip_partial w v hc h) as (N & j & h1 & h2). unfold to_json in h1. unfold from_json in h2.
  split; [|split]; [exists (S N), (JObj [("null", j)])|exists (S N), (JObj [("true", j)])|exists (S N), (JObj [("false", j)])].
  all: split; [intros [|n] hn; [lia|]; cbn; rewrite h1 by lia; reflexivity|cbn; rewrite h2; reflexivity]. Qed.

(** ** The duration of an operation that is read back *)
Definition end_of (info : val) (q : Q) : Prop :=
  exists d t l x y, info = VDict d /\ dget (VStr "t0") d = Some t /\ dget (VStr "duration") d = Some l /\ num t = Some x /\ num l = Some y /\ q == x + y.
(** It is the latest end of its pulses and acquisitions, and 0 when it has none. *)
Theorem C45_duration : forall d u ps qs, dget (VStr "pulse_info") d = Some (VList ps) -> dget (VStr "acquisition_info") d = Some (VList qs) -> op_update d = Ok u ->
  exists q, num u = Some q /\ (forall i, In i (ps ++ qs) -> exists e, end_of i e /\ e <= q) /\ (ps ++ qs = [] /\ q == 0 \/ exists i, In i (ps ++ qs) /\ end_of i q).
Proof. intros d u ps qs h1 h2 h. unfold op_update, item in h. rewrite h1, h2 in h. cbn [bind] in h.
  assert (E : forall i v, info_end i = Ok v -> exists q, num v = Some q /\ end_of i q).
  { intros i v hi. unfold info_end, item in hi. destruct i; try discriminate. cbn [as_dict bind] in hi. destruct (dget (VStr "t0") kvs) as [t|] eqn:Et; [|discriminate]. cbn [bind] in hi. destruct (dget (VStr "duration") kvs) as [l|] eqn:El; [|discriminate]. cbn [bind] in hi.
    assert (H : exists x y q, num t = Some x /\ num l = Some y /\ num v = Some q /\ (q == x + y)%Q).
    { destruct t; try discriminate; destruct l; try discriminate; cbn in hi; try discriminate; repeat match goal with f : flt |- _ => destruct f; try discriminate end; inversion hi; subst; cbn; do 3 eexists; (split; [reflexivity|]); (split; [reflexivity|]); (split; [reflexivity|]); rewrite ?inject_Z_plus; reflexivity. }
    destruct H as (x & y & q & e1 & e2 & e3 & e4). exists q. split; [exact e3|]. exists kvs, t, l, x, y. auto 10. }
  destruct (mapM info_end (ps ++ qs)) as [es|] eqn:Em; [|discriminate]. cbn [bind] in h.
  assert (A : Forall2 (fun i v => info_end i = Ok v) (ps ++ qs) es).
  { clear h. revert es Em. induction (ps ++ qs) as [|x l IH]; intros es Em; [inversion Em; constructor|]. cbn [mapM] in Em. destruct (info_end x) eqn:Ex; [|discriminate]. cbn [bind] in Em. destruct (mapM info_end l); [|discriminate]. inversion Em. constructor; auto. }
  assert (B : Forall2 (fun i v => exists q, num v = Some q /\ end_of i q) (ps ++ qs) es) by (clear - A E; induction A; constructor; auto). clear A Em h1 h2.
  destruct B as [|i v is vs [q0 [e0 g0]] B]; [inversion h; subst; exists (inject_Z 0); split; [reflexivity|]; split; [contradiction|]; left; split; reflexivity|].
  assert (G : forall vs is m q, Forall2 (fun i v => exists q, num v = Some q /\ end_of i q) is vs -> num m = Some q -> foldM (fun m x => do b <- nlt m x; Ok (if b : bool then x else m)) vs m = Ok u ->
     exists q', num u = Some q' /\ q <= q' /\ (forall i, In i is -> exists e, end_of i e /\ e <= q') /\ (q' == q \/ exists i, In i is /\ end_of i q')).
  { clear. induction vs as [|v vs IH]; intros is m q B hm hf.
    - inversion B; subst. cbn in hf. inversion hf; subst. exists q. split; [exact hm|]. split; [lra|]. split; [contradiction|now left].
    - inversion B as [|i v' is' vs' [qv [ev gv]] B']; subst. cbn [foldM] in hf. unfold nlt in hf at 1. rewrite hm, ev in hf. cbn [bind] in hf. unfold Qlt_bool in hf. destruct (Qle_bool qv q) eqn:Eq; cbn [negb] in hf.
      + apply Qle_bool_iff in Eq. destruct (IH _ _ _ B' hm hf) as (q' & k1 & k2 & k3 & k4). exists q'. split; [exact k1|]. split; [exact k2|]. split.
        * intros j [<-|hj]; [exists qv; split; [exact gv|lra]|auto].
        * destruct k4 as [k4|(j & hj & gj)]; [now left|right; exists j; split; [now right|exact gj]].
      + assert (hlt : q < qv) by (apply Qnot_le_lt; intros c; apply Qle_bool_iff in c; congruence). destruct (IH _ _ _ B' ev hf) as (q' & k1 & k2 & k3 & k4). exists q'. split; [exact k1|]. split; [lra|]. split.
        * intros j [<-|hj]; [exists qv; split; [exact gv|lra]|auto].
        * right. destruct k4 as [k4|(j & hj & gj)]; [exists i; split; [now left|]|exists j; split; [now right|exact gj]]. destruct gv as (d & t & l & x & y & r1 & r2 & r3 & r4 & r5 & r6). exists d, t, l, x, y. repeat (split; [assumption|]). lra. }
  destruct (G vs is v q0 B e0 h) as (q' & k1 & k2 & k3 & k4). exists q'. split; [exact k1|]. split.
  - intros j [<-|hj]; [exists q0; auto|auto].
  - right. destruct k4 as [k4|(j & hj & gj)]; [exists i; split; [now left|]|exists j; split; [now right|exact gj]]. destruct g0 as (d' & t & l & x & y & r1 & r2 & r3 & r4 & r5 & r6). exists d', t, l, x, y. repeat (split; [assumption|]). lra. Qed.
Example demo_duration : exists d, demo_measure = VObj (gate "Measure") [("data", VDict d); ("_duration", F 11 10)] /\ op_update d = Ok (F 11 10).
Proof. eexists. split; [reflexivity|]. vm_compute. reflexivity. Qed.
