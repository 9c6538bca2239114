(** What a user expects of the data retrieved from Qblox modules. *)
From Verif Require Import Base AcqChanModel NumericModel JsonModel PathModel QbModel RetModel.
Local Open Scope string_scope.
Local Open Scope list_scope.
Local Open Scope nat_scope.

(** ** Data arrays *)
(** [Value d r a t v]: at repetition [r], acquisition index [a] (a label) and trace index [t] the array holds [v] *)
Definition Value (d : darray) (r a t : nat) (v : cx) : Prop :=
  exists j row cell, nth_error (d_index d) j = Some a /\ nth_error (d_vals d) r = Some row /\ nth_error row j = Some cell /\ nth_error cell t = Some v.
(** coordinate [k] of acquisition index [a] *)
Definition Coordinate (d : darray) (k : string) (a : nat) (v : cval) : Prop :=
  exists j l, nth_error (d_index d) j = Some a /\ In (k, l) (d_coord d) /\ nth_error l j = Some v.
Definition Shape (d : darray) (reps : option nat) (trace : option nat) : Prop := d_reps d = reps /\ d_trace d = trace /\ NoDup (d_index d).

(** ** The values of bins *)
Definition Both (a : hwacq) (b : nat) (i q : num) : Prop := nth_error (integ0 a) b = Some i /\ nth_error (integ1 a) b = Some q.
Definition iq_protocol (p : proto) : Prop := p = WeightedIntegratedSeparated \/ p = NumericalSeparatedWeightedIntegration.
Definition thr_protocol (p : proto) : Prop := p = ThresholdedAcquisition \/ p = WeightedThresholdedAcquisition.
(** A QTM counts in "count", a QRM in "avg_cnt" *)
Definition Counted (a : hwacq) (b : nat) (x : num) : Prop := match cnt a with Some l => nth_error l b = Some x | None => nth_error (avg_cnt a) b = Some x end.
(** [n] is [q] without its fraction *)
Definition Truncated (q : Q) (n : Z) : Prop := (0 <= q -> inject_Z n <= q /\ q < inject_Z (n + 1))%Q /\ (q < 0 -> inject_Z (n - 1) < q /\ q <= inject_Z n)%Q.
(** [BinValue k p mode reps dur a b meta v]: what bin [b] of the acquisition [a] stands for with protocol [p] *)
Inductive BinValue (k : mkind) (mode : bmode) (reps : nat) (dur : option Z) (a : hwacq) (b : nat) (meta : option (Z * condition)) : proto -> cx -> Prop :=
  | bv_iq : forall p x y, k = QRM_manager -> iq_protocol p -> Both a b (Some x) (Some y) -> BinValue k mode reps dur a b meta p (Some (x, y))
  | bv_amplitude : forall x y d, k = QRM_manager -> Both a b (Some x) (Some y) -> dur = Some d -> d <> 0%Z -> BinValue k mode reps dur a b meta SSBIntegrationComplex (Some (x / inject_Z d, y / inject_Z d)%Q)
  | bv_real : forall x y, k = QRM_manager -> Both a b (Some x) (Some y) -> BinValue k mode reps dur a b meta NumericalWeightedIntegration (Some (x + y, 0)%Q)
  | bv_iq_nan : forall p i q, k = QRM_manager -> iq_protocol p \/ p = SSBIntegrationComplex \/ p = NumericalWeightedIntegration -> Both a b i q -> i = None \/ q = None -> BinValue k mode reps dur a b meta p None
  | bv_thr : forall p q, k = QRM_manager -> thr_protocol p -> nth_error (thr a) b = Some (Some q) -> BinValue k mode reps dur a b meta p (Some (q, 0%Q))
  | bv_thr_nan : forall p, k = QRM_manager -> thr_protocol p -> nth_error (thr a) b = Some None -> BinValue k mode reps dur a b meta p (Some (inject_Z (-1), 0%Q))
  (** counts; a QTM averages over the repetitions in bin mode SUM, so it is multiplied *)
  | bv_count : forall p q n z, Counted a b (Some q) -> Truncated q n -> p = TriggerCount \/ (p = DualThresholdedTriggerCount /\ k = QTM_manager) ->
      z = (if match k, p, mode with QTM_manager, TriggerCount, SUM => true | _, _, _ => false end then Z.of_nat reps * n else n)%Z -> BinValue k mode reps dur a b meta p (Some (inject_Z z, 0%Q))
  (** thresholded counts: 1 if the condition holds, 0 if not, -1 without data *)
  | bv_meets : forall t c q, meta = Some (t, c) -> Counted a b (Some q) -> (match c with GreaterEqual => t <= py_round q | LessThan => py_round q < t end)%Z -> BinValue k mode reps dur a b meta ThresholdedTriggerCount (Some (inject_Z 1, 0%Q))
  | bv_misses : forall t c q, meta = Some (t, c) -> Counted a b (Some q) -> ~ (match c with GreaterEqual => t <= py_round q | LessThan => py_round q < t end)%Z -> BinValue k mode reps dur a b meta ThresholdedTriggerCount (Some (inject_Z 0, 0%Q))
  | bv_count_nan : forall m, meta = Some m -> Counted a b None -> BinValue k mode reps dur a b meta ThresholdedTriggerCount (Some (inject_Z (-1), 0%Q))
  | bv_timetag : forall q, k = QTM_manager -> nth_error (timedelta a) b = Some (Some q) -> BinValue k mode reps dur a b meta Timetag (Some (q / 2048, 0)%Q)
  | bv_timetag_nan : k = QTM_manager -> nth_error (timedelta a) b = Some None -> BinValue k mode reps dur a b meta Timetag None.

(** ** Programs *)
(** [Reads g s ch hm]: the program acquires channel [ch] with sequencer [s] *)
Definition Reads (g : manager) (s ch : string) (hm : hwmap) : Prop := exists chans, In (s, chans) (g_mapping g) /\ In (ch, hm) chans.
Definition ProtoOf (g : manager) (ch : string) (c : chandata) : Prop := In (ch, c) (g_data g).
(** Dicts have distinct keys *)
Record Dicts (g : manager) : Prop := {
  di_seq : NoDup (map fst (g_mapping g));
  di_chan : forall s chans, In (s, chans) (g_mapping g) -> NoDup (map fst chans);
  di_bins : forall s ch l, Reads g s ch (Bins l) -> NoDup (map fst l);
  di_data : NoDup (map fst (g_data g));
  di_durations : NoDup (map fst (g_durations g));
  di_coords : forall ch c coords dict, In (ch, c) (g_data g) -> c_coords c = CoordList coords -> In dict coords -> NoDup (map fst dict) }.
(** Acquisition indices of a channel are given once (C23); channels without bins are acquired by one sequencer *)
Definition Apart (g : manager) : Prop :=
  forall s s' ch hm hm', Reads g s ch hm -> Reads g s' ch hm' -> s <> s' ->
  (forall c, ProtoOf g ch c -> c_proto c <> Trace) /\ exists l l', hm = Bins l /\ hm' = Bins l' /\ forall a, In a (map fst l) -> ~ In a (map fst l').
(** The scope acquisition stored before the data is fetched *)
Definition stored (g : manager) : option (nat * string) := match g_kind g, g_scope g with QRM_manager, Some (i, k) => Some (i, dec_Z (Z.of_nat k)) | _, _ => None end.
(** [Fetched g hw s k a]: the data of acquisition [k] of sequencer [s] of the hardware *)
Definition Fetched (g : manager) (hw : hardware) (s : string) (k : nat) (a : hwacq) : Prop :=
  exists i, g_seq g s = Some i /\ RetModel.get (dec_Z (Z.of_nat k)) (acquisitions hw (stored g) i) = Some a.
Definition binned (c : chandata) : Prop := is_binned_average (c_proto c) (c_mode c) = true \/ is_binned_append (c_proto c) (c_mode c) = true.
Definition appended (c : chandata) : Prop := is_binned_append (c_proto c) (c_mode c) = true.

(** ** Distributions *)
(** [runs j]: the number of runs in which exactly [j + 1] triggers were counted. The hardware gives for each [j] in how many runs more than [j] triggers were counted, or nan if none had exactly that many *)
Fixpoint total (runs : nat -> Q) (j n : nat) : Q := match n with O => 0%Q | S n => (runs j + total runs (S j) n)%Q end.
Definition Cumulative (runs : nat -> Q) (l : list num) : Prop :=
  forall j x, nth_error l j = Some x -> match x with Some q => (q == total runs j (List.length l - j))%Q | None => (runs j == 0)%Q end.

(** ** Windows of a QTM *)
Record window := { w_open : Z; w_tags : list Z; w_close : Z; w_base : Z (* the time its tags are relative to *) }.
Definition w_events (w : window) : list (string * Z) := ("OPEN", w_open w) :: map (fun t => ("RISE", t)) (w_tags w) ++ [("CLOSE", w_close w)].
(** The hardware gives, for each window, the time of its first tag relative to the base *)
Definition FirstTag (w : window) (x : num) : Prop := match w_tags w with [] => True | t :: _ => x = Some (inject_Z (t - w_base w)) end.

(** ** What the modules support: the protocols with their bin modes *)
Inductive Supported : mkind -> proto -> bmode -> Prop :=
  | su_weighed : forall p m, iq_protocol p \/ thr_protocol p \/ p = SSBIntegrationComplex \/ p = NumericalWeightedIntegration -> m = APPEND \/ m = AVERAGE -> Supported QRM_manager p m
  | su_scope : Supported QRM_manager Trace AVERAGE
  | su_count : forall m, m = APPEND \/ m = SUM \/ m = DISTRIBUTION -> Supported QRM_manager TriggerCount m
  | su_count_thr : forall k, Supported k ThresholdedTriggerCount APPEND
  | su_digital_count : forall m, m = APPEND \/ m = SUM -> Supported QTM_manager TriggerCount m
  | su_dual : Supported QTM_manager DualThresholdedTriggerCount APPEND
  | su_timetag : forall m, m = APPEND \/ m = AVERAGE -> Supported QTM_manager Timetag m
  | su_timetag_trace : Supported QTM_manager TimetagTrace APPEND
  | su_digital : Supported QTM_manager Trace FIRST.
(** the acquisitions of the hardware a channel needs *)
Definition Needs (hm : hwmap) (k : nat) : Prop := match hm with Whole k' => k = k' | Bins l => exists a b, In (a, b) l /\ k = h_index b end.
(** The paths of the scope: of the second pair of inputs if the sequencer is connected to it *)
Definition ScopePaths (inputs : option (list Z)) (p q : nat) : Prop := (inputs = Some [2; 3]%Z /\ p = 2 /\ q = 3) \/ (inputs <> Some [2; 3]%Z /\ p = 0 /\ q = 1).

(** ** Complete hardware data *)
(** [Delivered g hw s hm c dur]: the hardware delivers what the channel needs *)
Inductive Delivered (g : manager) (hw : hardware) (s : string) (c : chandata) (dur : option Z) : hwmap -> Prop :=
  | de_binned : forall l coords, binned c -> c_coords c = CoordList coords -> (forall a, In a (map fst l) -> a < List.length coords) -> (appended c -> 0 < g_reps g) ->
      (c_proto c = SSBIntegrationComplex -> exists d, dur = Some d /\ d <> 0%Z) -> (thr_protocol (c_proto c) -> dur <> None) ->
      (forall a b r, In (a, b) l -> (r = 0 \/ appended c /\ r < g_reps g) -> exists x v, Fetched g hw s (h_index b) x /\ a_index x = h_index b /\ BinValue (g_kind g) (c_mode c) (g_reps g) dur x (h_bin b + r * h_stride b) (h_meta b) (c_proto c) v) ->
      Delivered g hw s c dur (Bins l)
  | de_scope : forall k coords x p q N, g_kind g = QRM_manager -> c_proto c = Trace -> c_coords c = CoordDict coords -> dur = Some (Z.of_nat N) -> (Z.of_nat N <= 16384)%Z -> Fetched g hw s k x -> ScopePaths (g_inputs g s) p q -> N <= List.length (scope_path x p) -> N <= List.length (scope_path x q) -> Delivered g hw s c dur (Whole k)
  | de_digital : forall k coords x i N, g_kind g = QTM_manager -> c_proto c = Trace -> c_coords c = CoordDict coords -> dur = Some (Z.of_nat N) -> Fetched g hw s k x -> g_seq g s = Some i -> N <= List.length (io_samples hw i) -> Delivered g hw s c dur (Whole k)
  | de_distribution : forall k x, g_kind g = QRM_manager -> c_proto c = TriggerCount -> c_mode c = DISTRIBUTION -> c_coords c = CoordDict [] -> Fetched g hw s k x -> a_index x = k -> Delivered g hw s c dur (Whole k).
Record Complete (g : manager) (n : nat) (hw : hardware) : Prop := {
  co_seq : forall s chans, In (s, chans) (g_mapping g) -> exists i, g_seq g s = Some i;
  co_scope : forall i k, g_scope g = Some (i, k) -> i < n;
  co_data : forall s ch hm, Reads g s ch hm -> exists c dur, ProtoOf g ch c /\ In (s, dur) (g_durations g) /\ Supported (g_kind g) (c_proto c) (c_mode c) /\ Delivered g hw s c dur hm;
  (** a channel that is acquired with several sequencers is averaged *)
  co_split : forall s s' ch hm hm' c, Reads g s ch hm -> Reads g s' ch hm' -> s <> s' -> ProtoOf g ch c -> is_binned_average (c_proto c) (c_mode c) = true }.
