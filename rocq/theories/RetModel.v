(** Model of the retrieval of acquisitions from Qblox modules: instrument_coordinator/components/qblox.py l.1647-2742 (acquisition managers), l.2941-2966 (cluster), instrument_coordinator/utility.py l.129-247. *)
From Verif Require Import Base AcqChanModel NumericModel JsonModel PathModel QbModel.
Local Open Scope string_scope.
Local Open Scope list_scope.
Local Open Scope nat_scope.

(** ** Data *)
(** Numbers of the hardware: None is nan *)
Definition num := option Q.
(** Complex results; nan if a part is nan *)
Definition cx := option (Q * Q).
(** What [get_acquisitions] returns for one acquisition: "index", "acquisition" -> "bins" and "scope". A key that is absent for the type of module is an empty list ("count": only a QTM has it); the out-of-range flags only cause a warning *)
Record hwacq := {
  a_index : nat;
  integ0 : list num; integ1 : list num; thr : list num; avg_cnt : list num; cnt : option (list num); timedelta : list num;
  scope_path : nat -> list Q }.
(** The driver of a module. [acquisitions st i]: the acquisitions of sequencer [i], where [st] is the scope acquisition last stored with store_scope_acquisition; io channels of a QTM: samples, or events (l.2689-2693) *)
Record hardware := { acquisitions : option (nat * string) -> nat -> list (string * hwacq); io_samples : nat -> list Q; io_events : nat -> list (string * Z) }.

(** backends/types/common.py l.600-609, enums.py [TriggerCondition] *)
Inductive condition := GreaterEqual | LessThan.
(** qblox_acq_index_manager.py l.30-75: a mapping of acquisition indices to bins, or an acquisition index *)
Record hwbin := { h_index : nat; h_bin : nat; h_stride : nat; h_meta : option (Z * condition) }.
Inductive hwmap := Whole (index : nat) | Bins (l : list (nat * hwbin)).
(** schedules/schedule.py [AcquisitionChannelData]; acquisition channels are strings; values of coordinates are strings *)
Inductive chcoords := CoordList (l : list (list (string * string))) | CoordDict (d : list (string * string)).
Record chandata := { c_proto : proto; c_mode : bmode; c_coords : chcoords }.
(** [_AcquisitionManagerBase.__init__] l.1672-1688, [_QRMAcquisitionManager.__init__] l.2124-2145; [g_inputs]: connected_input_indices of the sequencer, if known *)
Inductive mkind := QRM_manager | QTM_manager.
Record manager := {
  g_kind : mkind; g_data : list (string * chandata); g_mapping : list (string * list (string * hwmap)); g_durations : list (string * option Z);
  g_seq : string -> option nat; g_reps : nat; g_scope : option (nat * nat); g_inputs : string -> option (list Z); g_dummy : bool }.

(** The DataArray of a channel: dimensions repetition (if any), acquisition index, trace index (if any); coordinates on the acquisition index *)
Inductive cval := CUser (s : string) | CCount (n : nat) | CNan.
Record darray := { d_reps : option nat; d_index : list nat; d_trace : option nat; d_vals : list (list (list cx)); d_coord : list (string * list cval) }.

(** ** Access *)
Fixpoint get {A} (k : string) (l : list (string * A)) : option A := match l with [] => None | (x, v) :: r => if String.eqb k x then Some v else get k r end.
Definition item {A} (k : string) (l : list (string * A)) : result A := match get k l with Some v => Ok v | None => Err KeyError end.
Definition at_ {A} (l : list A) (n : nat) : result A := match nth_error l n with Some v => Ok v | None => Err IndexError end.
(** l.1813-1815 *)
Definition acq_name (k : nat) : string := dec_n k.
(** l.1800-1811 [_get_bin_data] *)
Definition bin_data (h : list (string * hwacq)) (k : nat) : result hwacq :=
  do a <- item (acq_name k) h; if Nat.eqb (a_index a) k then Ok a else Err RuntimeError.
(** i + q * 1j *)
Definition complex (i q : num) : cx := match i, q with Some x, Some y => Some (x, y) | _, _ => None end.
Definition real (x : num) : cx := option_map (fun q => (q, 0%Q)) x.
(** int(x): truncates; nan raises *)
Definition to_int (x : num) : result Z := match x with Some q => Ok (Z.quot (Qnum q) (Zpos (Qden q))) | None => Err ValueError end.
Definition zcx (z : Z) : cx := Some (inject_Z z, 0%Q).
(** l.1993, l.2047: the counts of a QTM or a QRM *)
Definition counts (a : hwacq) : list num := match cnt a with Some l => l | None => avg_cnt a end.

(** ** Values of bins *)
Definition bin_function := nat -> nat -> option (Z * condition) -> result cx.
(** l.1986-2013 *)
Definition trigger_bin (mul : bool) (mode : bmode) (reps : nat) (h : list (string * hwacq)) : bin_function := fun k b _ =>
  do a <- bin_data h k; do x <- at_ (counts a) b; do n <- to_int x;
  Ok (zcx (if mul && match mode with SUM => true | _ => false end then Z.of_nat reps * n else n)%Z).
(** l.2053-2085 *)
Definition trigger_thr_bin (h : list (string * hwacq)) : bin_function := fun k b meta =>
  match meta with
  | None => Err AssertionErr
  | Some (t, c) => do a <- bin_data h k; do x <- at_ (counts a) b;
      match x with
      | None => Ok (zcx (-1))
      | Some q => Ok (zcx (if match c with GreaterEqual => Z.leb t (py_round q) | LessThan => Z.ltb (py_round q) t end then 1 else 0))
      end
  end.
(** l.2353-2364 *)
Definition separated_bin (h : list (string * hwacq)) : bin_function := fun k b _ =>
  do a <- bin_data h k; do i <- at_ (integ0 a) b; do q <- at_ (integ1 a) b; Ok (complex i q).
(** l.2409-2420; the duration is an int *)
Definition amplitude_bin (dur : Z) (h : list (string * hwacq)) : bin_function := fun k b _ =>
  do a <- bin_data h k; do i <- at_ (integ0 a) b; do q <- at_ (integ1 a) b;
  if Z.eqb dur 0 then Err OtherErr else Ok (option_map (fun '(x, y) => (x / inject_Z dur, y / inject_Z dur)%Q) (complex i q)).
(** l.2461-2472 *)
Definition real_bin (h : list (string * hwacq)) : bin_function := fun k b _ =>
  do a <- bin_data h k; do i <- at_ (integ0 a) b; do q <- at_ (integ1 a) b; Ok (option_map (fun '(x, y) => (x + y, 0)%Q) (complex i q)).
(** l.2514-2524 *)
Definition threshold_bin (h : list (string * hwacq)) : bin_function := fun k b _ =>
  do a <- bin_data h k; do x <- at_ (thr a) b; Ok (match x with Some q => Some (q, 0%Q) | None => zcx (-1) end).
(** l.2730-2736 *)
Definition timetag_bin (h : list (string * hwacq)) : bin_function := fun k b _ =>
  do a <- bin_data h k; do x <- at_ (timedelta a) b; Ok (real (option_map (fun q => (q / 2048)%Q) x)).

(** ** Coordinates: utility.py l.179-247 *)
Fixpoint dedup (l : list string) : list string := match l with [] => [] | x :: r => x :: filter (fun y => negb (String.eqb x y)) (dedup r) end.
(** [add_acquisition_coords_binned]; the keys (a set) in the order of the first dict that has them *)
Definition coords_binned (coords : list (list (string * string))) (index : list nat) : result (list (string * list cval)) :=
  do cs <- mapM (at_ coords) index;
  Ok (map (fun k => (k, map (fun c => match get k c with Some v => CUser v | None => CNan end) cs)) (dedup (flat_map (map fst) coords))).
(** [add_acquisition_coords_nonbinned]: lists of one value on a dimension of [n]; xarray raises if the sizes differ *)
Definition coords_nonbinned (coords : list (string * string)) (n : nat) : result (list (string * list cval)) :=
  match coords with [] => Ok [] | _ => if Nat.eqb n 1 then Ok (map (fun '(k, v) => (k, [CUser v])) coords) else Err ValueError end.

(** ** l.1817-1906 [_get_binned_data] *)
Definition binned_data (f : bin_function) (c : chandata) (reps : nat) (hm : hwmap) : result darray :=
  match hm, c_coords c with
  | Bins l, CoordList coords =>
      if is_binned_average (c_proto c) (c_mode c) then
        do vs <- mapM (fun '(_, b) => f (h_index b) (h_bin b) (h_meta b)) l;
        do cs <- coords_binned coords (map fst l);
        Ok {| d_reps := None; d_index := map fst l; d_trace := None; d_vals := [map (fun v => [v]) vs]; d_coord := cs |}
      else if is_binned_append (c_proto c) (c_mode c) then
        do rows <- mapM (fun r => mapM (fun '(_, b) => f (h_index b) (h_bin b + r * h_stride b) (h_meta b)) l) (List.seq 0 reps);
        if Nat.eqb reps 0 then Err ValueError else
        do cs <- coords_binned coords (map fst l);
        Ok {| d_reps := Some reps; d_index := map fst l; d_trace := None; d_vals := map (map (fun v => [v])) rows; d_coord := cs |}
      else Err AssertionErr
  | _, _ => Err AssertionErr
  end.
(** ** l.1955-1974 [_convert_from_cumulative]: the loop runs from the last entry to the first; here the result is in increasing order, as after [::-1] *)
Fixpoint from_cumulative (k : nat) (l : list num) : Q * list (nat * Q) :=
  match l with
  | [] => (0%Q, [])
  | v :: r => let '(last, res) := from_cumulative (S k) r in
              match v with
              | Some q => if Qeq_bool last q then (last, res) else (q, (S k, (q - last)%Q) :: res)
              | None => (last, res)
              end
  end.
(** l.1943-1987: bin mode DISTRIBUTION *)
Definition distribution_data (ch : string) (c : chandata) (hm : hwmap) (h : list (string * hwacq)) : result darray :=
  match hm with
  | Bins _ => Err AssertionErr
  | Whole k =>
      do a <- bin_data h k;
      let res := snd (from_cumulative 0 (avg_cnt a)) in
      match c_coords c with
      | CoordList _ => Err AssertionErr
      | CoordDict coords =>
          do cs <- coords_nonbinned coords (List.length res);
          Ok {| d_reps := None; d_index := List.seq 0 (List.length res); d_trace := None; d_vals := [map (fun e => [Some (snd e, 0%Q)]) res]; d_coord := ("counts_" ++ ch, map (fun e => CCount (fst e)) res)%string :: cs |}
      end
  end.
(** l.1908-2021 [_get_trigger_count_data] *)
Definition trigger_data (mul : bool) (ch : string) (c : chandata) (reps : nat) (hm : hwmap) (h : list (string * hwacq)) : result darray :=
  match c_mode c with
  | DISTRIBUTION => distribution_data ch c hm h
  | SUM | APPEND => binned_data (trigger_bin mul (c_mode c) reps h) c reps hm
  | _ => Err AssertionErr
  end.
(** l.2229-2319 [_get_scope_data]; the broadcasting of a path with a single sample is not modelled *)
Definition scope_data (c : chandata) (dur : option Z) (inputs : option (list Z)) (dummy : bool) (hm : hwmap) (h : list (string * hwacq)) : result darray :=
  match dur with
  | None => Err TypeError
  | Some dur =>
      if Z.ltb dur 0 || Z.ltb 16384 dur then Err ValueError else
      match hm, c_coords c with
      | Whole k, CoordDict coords =>
          do a <- item (acq_name k) h;
          let '(p, q) := match inputs with Some [2; 3]%Z => (scope_path a 2, scope_path a 3) | _ => (scope_path a 0, scope_path a 1) end in
          let n := Z.to_nat dur in
          let i := firstn n p in let q := firstn n q in
          let data := match i, q with
                      | [], [] => if dummy then Ok (repeat None n) else Ok []
                      | _, _ => if Nat.eqb (List.length i) (List.length q) then Ok (map (fun '(x, y) => Some (x, y)) (combine i q)) else Err ValueError
                      end in
          do d <- data;
          if Nat.eqb (List.length d) n then
            do cs <- coords_nonbinned coords 1;
            Ok {| d_reps := None; d_index := [0]; d_trace := Some n; d_vals := [[d]]; d_coord := cs |}
          else Err ValueError
      | _, _ => Err AssertionErr
      end
  end.
(** l.2584-2612 [_get_digital_trace_data]; the duration is not negative *)
Definition digital_trace (c : chandata) (dur : option Z) (samples : list Q) : result darray :=
  match c_coords c, dur with
  | CoordDict coords, Some dur =>
      let n := Z.to_nat dur in let d := firstn n samples in
      if Nat.eqb (List.length d) n then
        do cs <- coords_nonbinned coords 1;
        Ok {| d_reps := None; d_index := [0]; d_trace := Some n; d_vals := [[map (fun x => Some (x, 0%Q)) d]]; d_coord := cs |}
      else Err ValueError
  | CoordDict _, None => Err TypeError
  | CoordList _, _ => Err AssertionErr
  end.
(** l.2682-2719 [_split_timetag_trace_data_per_window] *)
Fixpoint add_last {A} (x : A) (l : list (list A)) : result (list (list A)) :=
  match l with [] => Err IndexError | [w] => Ok [w ++ [x]] | w :: r => do r' <- add_last x r; Ok (w :: r') end.
Definition windows (events : list (string * Z)) : result (list (list Z)) :=
  foldM (fun acc '(e, t) => if String.eqb e "OPEN" then Ok (acc ++ [[]]) else if String.eqb e "CLOSE" then Ok acc else add_last t acc) events [].
Definition relative (ref : num) (w : list Z) : list cx :=
  map (fun t => real (option_map (fun r => ((r + inject_Z t - inject_Z (hd 0%Z w)) / 2048)%Q) ref)) w.
Definition split_windows (tags : list num) (events : list (string * Z)) : result (list (list cx)) :=
  do ws <- windows events; Ok (map (fun '(r, w) => relative r w) (combine tags ws)).
Definition pad (n : nat) (l : list cx) : list cx := l ++ repeat None (n - List.length l).
(** l.2614-2680 [_get_timetag_trace_data] *)
Definition timetag_trace (c : chandata) (reps : nat) (hm : hwmap) (h : list (string * hwacq)) (events : list (string * Z)) : result darray :=
  match hm, c_coords c with
  | Bins [], CoordList _ => Err OtherErr
  | Bins (((_, b0) :: _) as l), CoordList coords =>
      do a <- item (acq_name (h_index b0)) h;
      do traces <- split_windows (timedelta a) events;
      match traces with
      | [] => Err ValueError
      | _ =>
          let n := list_max (map (@List.length cx) traces) in
          do rows <- mapM (fun r => mapM (fun '(_, b) => do t <- at_ traces (h_bin b + r * h_stride b); Ok (pad n t)) l) (List.seq 0 reps);
          if Nat.eqb (List.length coords) (List.length l) then
            do cs <- coords_binned coords (map fst l);
            Ok {| d_reps := Some reps; d_index := map fst l; d_trace := Some n; d_vals := rows; d_coord := cs |}
          else Err ValueError
      end
  | _, _ => Err AssertionErr
  end.

(** ** The protocols: l.2147-2159 (QRM), l.2555-2566 (QTM); amplitude and threshold functions raise without a duration (l.2403-2407, l.2511-2515) *)
Definition acquisition_function (g : manager) (ch : string) (c : chandata) (dur : option Z) (sname : string) (i : nat) (hm : hwmap) (h : list (string * hwacq)) (hw : hardware) : result darray :=
  match g_kind g, c_proto c with
  | QRM_manager, (WeightedIntegratedSeparated | NumericalSeparatedWeightedIntegration) => binned_data (separated_bin h) c (g_reps g) hm
  | QRM_manager, NumericalWeightedIntegration => binned_data (real_bin h) c (g_reps g) hm
  | QRM_manager, SSBIntegrationComplex => match dur with Some d => binned_data (amplitude_bin d h) c (g_reps g) hm | None => Err RuntimeError end
  | QRM_manager, (ThresholdedAcquisition | WeightedThresholdedAcquisition) => match dur with Some _ => binned_data (threshold_bin h) c (g_reps g) hm | None => Err RuntimeError end
  | QRM_manager, ThresholdedTriggerCount => binned_data (trigger_thr_bin h) c (g_reps g) hm
  | QRM_manager, Trace => scope_data c dur (g_inputs g sname) (g_dummy g) hm h
  | QRM_manager, TriggerCount => trigger_data false ch c (g_reps g) hm h
  | QTM_manager, TriggerCount => trigger_data true ch c (g_reps g) hm h
  | QTM_manager, ThresholdedTriggerCount => binned_data (trigger_thr_bin h) c (g_reps g) hm
  | QTM_manager, DualThresholdedTriggerCount => trigger_data false ch c (g_reps g) hm h
  | QTM_manager, Trace => digital_trace c dur (io_samples hw i)
  | QTM_manager, Timetag => binned_data (timetag_bin h) c (g_reps g) hm
  | QTM_manager, TimetagTrace => timetag_trace c (g_reps g) hm h (io_events hw i)
  | _, _ => Err KeyError
  end.
(** backends/qblox/operation_handling/bin_mode_compat.py l.14-33; None: the protocol is not in the table *)
Definition compatible (k : mkind) (p : proto) : option (list bmode) :=
  match k, p with
  | QRM_manager, (SSBIntegrationComplex | ThresholdedAcquisition | WeightedThresholdedAcquisition | WeightedIntegratedSeparated | NumericalSeparatedWeightedIntegration | NumericalWeightedIntegration) => Some [APPEND; AVERAGE]
  | QRM_manager, Trace => Some [AVERAGE]
  | QRM_manager, TriggerCount => Some [APPEND; SUM; DISTRIBUTION]
  | QRM_manager, ThresholdedTriggerCount => Some [APPEND]
  | QTM_manager, TriggerCount => Some [APPEND; SUM]
  | QTM_manager, (ThresholdedTriggerCount | DualThresholdedTriggerCount | TimetagTrace) => Some [APPEND]
  | QTM_manager, Timetag => Some [APPEND; AVERAGE]
  | QTM_manager, Trace => Some [FIRST]
  | _, _ => None
  end.
Definition each {A} (l : list A) (f : A -> result unit) : result unit := foldM (fun _ x => f x) l tt.
(** l.2161-2175, l.2568-2582 [_check_bin_mode_compatible] *)
Definition check_modes (g : manager) : result unit :=
  each (g_mapping g) (fun '(_, chans) => each chans (fun '(ch, _) =>
    do c <- item ch (g_data g);
    match compatible (g_kind g) (c_proto c) with
    | None => Err KeyError
    | Some l => if existsb (fun b => if bmode_eq_dec (c_mode c) b then true else false) l then Ok tt else Err OtherErr
    end)).
(** l.1778-1793 [_assert_acquisition_data_exists] *)
Definition data_exists (h : list (string * hwacq)) (k : nat) : result unit := match get (acq_name k) h with Some _ => Ok tt | None => Err KeyError end.
Definition indices_exist (h : list (string * hwacq)) (hm : hwmap) : result unit :=
  match hm with Whole k => data_exists h k | Bins l => each l (fun '(_, b) => data_exists h (h_index b)) end.

(** ** Merging: utility.py l.129-176 and xarray.Dataset.merge *)
Definition dataset := list (string * darray).
Definition value_at (d : darray) (r j t : nat) : cx := match nth_error (d_vals d) r with Some row => match nth_error row j with Some c => match nth_error c t with Some v => v | None => None end | None => None end | None => None end.
Fixpoint position (a : nat) (l : list nat) : option nat := match l with [] => None | x :: r => if Nat.eqb a x then Some 0 else option_map S (position a r) end.
Definition n_reps (d : darray) : nat := match d_reps d with Some r => r | None => 1 end.
Definition n_trace (d : darray) : nat := match d_trace d with Some n => n | None => 1 end.
(** the value at repetition, acquisition index (by label) and trace index; nan where there is none *)
Definition labelled (d : darray) (r a t : nat) : cx := match position a (d_index d) with Some j => value_at d r j t | None => None end.
Definition is_nan (v : cx) : bool := match v with None => true | Some _ => false end.
(** The positions common to both (join="inner"), as rows along the first dimension *)
Definition common_rows (n c : darray) : list (list (nat * nat * nat)) :=
  let idx := filter (fun a => existsb (Nat.eqb a) (d_index c)) (d_index n) in
  let ts := List.seq 0 (Nat.min (n_trace n) (n_trace c)) in
  match d_reps n with
  | Some _ => map (fun r => flat_map (fun a => map (fun t => (r, a, t)) ts) idx) (List.seq 0 (Nat.min (n_reps n) (n_reps c)))
  | None => map (fun a => map (fun t => (0, a, t)) ts) idx
  end.
(** l.153-164: [conflict.values != [1]] raises for a row with more than one entry ("truth value ... is ambiguous"), and vectorize raises if there are rows without any *)
Definition check_row (n c : darray) (row : list (nat * nat * nat)) : result bool :=
  match row with
  | [(r, a, t)] => Ok (negb (is_nan (labelled n r a t) || is_nan (labelled c r a t)))
  | _ => Err ValueError
  end.
Definition check_existing (n c : darray) : result unit :=
  do cs <- mapM (check_row n c) (common_rows n c); if existsb (fun b => b) cs then Err RuntimeError else Ok tt.
Fixpoint insert (a : nat) (l : list nat) : list nat := match l with [] => [a] | x :: r => if Nat.leb a x then a :: l else x :: insert a r end.
Definition nsort (l : list nat) : list nat := fold_right insert [] l.
(** join="outer": equal indices stay as they are, otherwise the sorted union; missing values are nan. Merged coordinates: the value of one or the other *)
Definition merge_index (c n : list nat) : list nat := if list_eq_dec Nat.eq_dec c n then c else nsort (c ++ filter (fun a => negb (existsb (Nat.eqb a) c)) n).
Definition merge_value (a b : cx) : cx := match a with Some _ => a | None => b end.
Definition coord_at (d : darray) (k : string) (a : nat) : cval :=
  match get k (d_coord d), position a (d_index d) with Some l, Some j => match nth_error l j with Some v => v | None => CNan end | _, _ => CNan end.
Definition merge_array (c n : darray) : darray :=
  let idx := merge_index (d_index c) (d_index n) in
  let R := Nat.max (n_reps c) (n_reps n) in let T := Nat.max (n_trace c) (n_trace n) in
  {| d_reps := match d_reps c with Some _ => Some R | None => None end; d_index := idx; d_trace := match d_trace c with Some _ => Some T | None => None end;
     d_vals := map (fun r => map (fun a => map (fun t => merge_value (labelled c r a t) (labelled n r a t)) (List.seq 0 T)) idx) (List.seq 0 R);
     d_coord := map (fun k => (k, map (fun a => match coord_at c k a with CNan => coord_at n k a | v => v end) idx)) (dedup (map fst (d_coord c) ++ map fst (d_coord n))) |}.
Fixpoint put (k : string) (v : darray) (l : dataset) : dataset := match l with [] => [(k, v)] | (x, y) :: r => if String.eqb k x then (k, v) :: r else (x, y) :: put k v r end.
Definition merge_channel (ds : dataset) (e : string * darray) : result dataset :=
  let '(ch, n) := e in
  match get ch ds with
  | None => Ok (put ch n ds)
  | Some c => do _ <- check_existing n c; Ok (put ch (merge_array c n) ds)
  end.
(** all channels of the new dataset are checked before any is merged; the channels are distinct, so the order makes no difference except for which error is raised *)
Definition merge_dataset (ds new : dataset) : result dataset := foldM merge_channel new ds.

(** ** l.1710-1764 [retrieve_acquisition]; l.2177-2227 for the QRM: the scope acquisition is stored first *)
Definition store_scope (g : manager) (n_sequencers : nat) : result (option (nat * string)) :=
  match g_kind g, g_scope g with
  | QRM_manager, Some (i, k) => if Nat.ltb i n_sequencers then Ok (Some (i, acq_name k)) else Err ValueError
  | _, _ => Ok None
  end.
Definition retrieve_channel (g : manager) (hw : hardware) (sname : string) (i : nat) (h : list (string * hwacq)) (ch : string) (hm : hwmap) : result darray :=
  do c <- item ch (g_data g);
  do _ <- indices_exist h hm;
  do dur <- item sname (g_durations g);
  acquisition_function g ch c dur sname i hm h hw.
Definition retrieve_seq (g : manager) (hw : hardware) (st : option (nat * string)) (ds : dataset) (e : string * list (string * hwmap)) : result dataset :=
  let '(sname, chans) := e in
  match g_seq g sname with
  | None => Err KeyError
  | Some i => let h := acquisitions hw st i in
              foldM (fun ds '(ch, hm) => do d <- retrieve_channel g hw sname i h ch hm; merge_channel ds (ch, d)) chans ds
  end.
Definition retrieve (g : manager) (n_sequencers : nat) (hw : hardware) : result dataset :=
  do st <- store_scope g n_sequencers;
  do _ <- check_modes g;
  foldM (retrieve_seq g hw st) (g_mapping g) [].
(** l.2941-2966 of the cluster: the modules of the program that have a manager, in order; None without any data *)
Definition retrieve_cluster (ms : list (manager * nat * hardware)) : result (option dataset) :=
  do ds <- foldM (fun ds '(g, n, hw) => do new <- retrieve g n hw; merge_dataset ds new) ms [];
  Ok (match ds with [] => None | _ => Some ds end).
