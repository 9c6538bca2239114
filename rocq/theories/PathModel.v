(** Model of backends/qblox_backend.py l.964-1400, l.1455-1827, l.1879-1937 and backends/types/common.py l.389-404: which sequencer of which module of which cluster plays a port-clock combination. Hardware configs of version 0.1 ([_add_support_input_channel_names], l.1830-1876) and the mode validations of gains and distortion corrections (l.1401-1448) are not modelled. *)
From Verif Require Import Base CircModel.
From Verif Require DistModel.
From Coq Require Import Ascii.
Open Scope string_scope.
Open Scope list_scope.
Open Scope Z_scope.

(** ** Strings *)
(** [s.split(c)] *)
Fixpoint split_on (c : ascii) (s : string) : list string :=
  match s with
  | EmptyString => [""]
  | String x r => if Ascii.eqb x c then "" :: split_on c r else match split_on c r with t :: l => String x t :: l | [] => [String x ""] end
  end.
(** [s[: s.rindex(".")]]; [None] if there is no dot (ValueError) *)
Fixpoint before_last (s : string) : option string :=
  match s with
  | EmptyString => None
  | String x r => match before_last r with Some t => Some (String x t) | None => if Ascii.eqb x "." then Some "" else None end
  end.
(** [pat in s] *)
Fixpoint contains (pat s : string) : bool := String.prefix pat s || match s with EmptyString => false | String _ r => contains pat r end.
(** [s.replace("module", "")]: after a match the next five characters are skipped *)
Fixpoint drop_module (skip : nat) (s : string) : string :=
  match s with
  | EmptyString => ""
  | String x r => match skip with
                  | S k => drop_module k r
                  | O => if String.prefix "module" s then drop_module 5 r else String x (drop_module 0 r)
                  end
  end.
(** [int(s)] of a string of decimal digits. Simplification: signs, blanks and underscores, which Python accepts as well, are refused. *)
Definition digit (c : ascii) : option Z := let n := Z.of_nat (nat_of_ascii c) in if (48 <=? n) && (n <=? 57) then Some (n - 48) else None.
Fixpoint digits (acc : Z) (s : string) : option Z := match s with EmptyString => Some acc | String c r => match digit c with Some d => digits (10 * acc + d) r | None => None end end.
Definition py_int (s : string) : result Z := match s with EmptyString => Err ValueError | _ => match digits 0 s with Some z => Ok z | None => Err ValueError end end.

(** ** Connectivity *)
(** common.py l.389-404: edges whose ends may be lists of ports *)
Definition unroll (l : list (list string * list string)) : list (string * string) := flat_map (fun '(a, b) => flat_map (fun p0 => map (fun p1 => (p0, p1)) b) a) l.
Definition memb (x : string) (l : list string) : bool := existsb (String.eqb x) l.
(** keeps the first occurrences *)
Fixpoint uniq (seen l : list string) : list string := match l with [] => [] | x :: r => if memb x seen then uniq seen r else x :: uniq (x :: seen) r end.
(** nodes and neighbours of a networkx.Graph made from a list of edges, in their order of insertion *)
Definition nodes (E : list (string * string)) : list string := uniq [] (flat_map (fun '(a, b) => [a; b]) E).
Definition neighbors (E : list (string * string)) (n : string) : list string :=
  uniq [] (flat_map (fun '(a, b) => if String.eqb a n then [b] else if String.eqb b n then [a] else []) E).

(** ** Hardware description *)
Inductive kind := QCM | QRM | QCM_RF | QRM_RF | QRC | QTM.
(** hardware_description.items(): clusters with their modules (slot, instrument type), local oscillators, and anything else (mixers, optical modulators) *)
Inductive hwdesc := HCluster (mods : list (Z * kind)) | HLO | HOther.
Definition clusters (hw : dict hwdesc) : dict (list (Z * kind)) := flat_map (fun '(n, d) => match d with HCluster m => [(n, m)] | _ => [] end) hw.
Definition lo_names (hw : dict hwdesc) : list string := flat_map (fun '(n, d) => match d with HLO => [n] | _ => [] end) hw.

(** ** Channel paths *)
(** l.1879-1937 [ChannelPath]; the set channel_name_measure is a list without repetitions (its order is not specified in Python) *)
Record path := { p_cl : string; p_mod : string; p_ch : string; p_idx : Z; p_meas : option (list string) }.
(** l.1890-1900 [from_path] *)
Definition from_path (s : string) : result path :=
  match split_on "." s with
  | [c; m; ch] => do i <- py_int (drop_module 0 m); Ok {| p_cl := c; p_mod := m; p_ch := ch; p_idx := i; p_meas := None |}
  | _ => Err ValueError
  end.
(** l.1915-1937 [add_channel_name_measure] *)
Definition add_meas (p : path) (ch : string) : path :=
  match p_meas p with
  | None => if contains "input" ch
            then {| p_cl := p_cl p; p_mod := p_mod p; p_ch := p_ch p; p_idx := p_idx p; p_meas := Some [ch] |}
            else {| p_cl := p_cl p; p_mod := p_mod p; p_ch := ch; p_idx := p_idx p; p_meas := Some [p_ch p] |}
  | Some l => if memb ch l then p else {| p_cl := p_cl p; p_mod := p_mod p; p_ch := p_ch p; p_idx := p_idx p; p_meas := Some (l ++ [ch]) |}
  end.

(** ** Port-clocks to channel paths, l.1071-1210 *)
(** The ChannelPath objects are mutable and shared: [heap] holds them, the dictionaries cluster -> port-clock and cluster -> local oscillator refer to them. *)
Record state := { heap : list path; pcs : dict (dict nat); los : dict (dict nat) }.
Fixpoint set_nth {A} (l : list A) (n : nat) (x : A) : list A := match l, n with [], _ => [] | _ :: r, O => x :: r | y :: r, S k => y :: set_nth r k x end.
Definition first_part (s : string) : string := hd "" (split_on "." s).
(** l.1085-1094 [is_path], [is_lo_port] *)
Definition is_path (hw : dict hwdesc) (v : string) : bool := existsb (fun '(n, _) => String.eqb n (first_part v)) (clusters hw).
Definition is_lo_port (hw : dict hwdesc) (v : string) : bool := memb (first_part v) (lo_names hw).
(** l.1095-1100 [get_all_mixer_nodes] *)
Definition mixer_nodes (E : list (string * string)) (mixer : string) : list string :=
  filter (fun n => match before_last n with Some t => String.eqb t mixer | None => false end) (nodes E).
(** l.1102-1104 *)
Definition port_to_clocks (used : list (string * string)) : dict (list string) :=
  fold_left (fun d '(p, c) => put d p (match get d p with Some l => l ++ [c] | None => [c] end)) used [].
(** l.1106-1121 [get_optical_clock] (the "NV center hack") *)
Definition optical_parts : list (string * string) := [("spinpump_laser", "ge1"); ("green_laser", "ionization"); ("red_laser", "ge0")].
Definition optical_clock (mixer : string) (clocks : list string) : option string :=
  match flat_map (fun '(mp, cp) => if contains mp mixer then filter (contains cp) clocks else []) optical_parts with c :: _ => Some c | [] => None end.
(** l.1123-1162 [get_module_and_lo_for_mixer]: the last channel and the last local oscillator found *)
Definition mixer_ends (hw : dict hwdesc) (E : list (string * string)) (mixer : string) : result (string * string) :=
  do r <- foldM (fun '(mp, ml) nbr =>
             if is_path hw nbr then Ok (Some nbr, ml)
             else if is_lo_port hw nbr then match before_last nbr with Some t => Ok (mp, Some t) | None => Err ValueError end
             else Ok (mp, ml))
           (flat_map (neighbors E) (mixer_nodes E mixer)) (None, None);
  match r with (Some a, Some b) => Ok (a, b) | _ => Err RuntimeError end.
Definition pc_key (port clock : string) : string := port ++ "-" ++ clock.
(** [d[c][k] = v] *)
Definition put2 (d : dict (dict nat)) (c k : string) (v : nat) : result (dict (dict nat)) := match get d c with Some e => Ok (put d c (put e k v)) | None => Err KeyError end.
(** l.1175-1194: one clock of a port connected to the channel of the path object [loc] *)
Definition direct_clock (port : string) (loc : nat) (st : state) (clock : string) : result state :=
  let key := pc_key port clock in
  do r <- foldM (fun '(h, rep) '(_, d) =>
             match get d key with
             | None => Ok (h, rep)
             | Some l => match nth_error h loc, nth_error h l with
                         | Some p, Some q => if String.eqb (p_cl p) (p_cl q) && String.eqb (p_mod p) (p_mod q) then Ok (set_nth h l (add_meas q (p_ch p)), true) else Err ValueError
                         | _, _ => Err OtherErr
                         end
             end) (pcs st) (heap st, false);
  let '(h, rep) := r in
  if (rep : bool) then Ok {| heap := h; pcs := pcs st; los := los st |}
  else match nth_error h loc with
       | Some p => do d <- put2 (pcs st) (p_cl p) key loc; Ok {| heap := h; pcs := d; los := los st |}
       | None => Err OtherErr
       end.
(** l.1171-1206: one neighbour of a port *)
Definition nbr_step (hw : dict hwdesc) (E : list (string * string)) (port : string) (clks : list string) (st : state) (nbr : string) : result state :=
  if is_path hw nbr then
    do p <- from_path nbr;
    foldM (direct_clock port (List.length (heap st))) clks {| heap := heap st ++ [p]; pcs := pcs st; los := los st |}
  else match before_last nbr with
       | None => Ok st
       | Some mixer =>
           do r <- mixer_ends hw E mixer; let '(mp, ml) := r in
           do p <- from_path mp;
           let loc := List.length (heap st) in
           do lo <- put2 (los st) (p_cl p) ml loc;
           do d <- foldM (fun d clock => put2 d (p_cl p) (pc_key port (match optical_clock mixer clks with Some c => c | None => clock end)) loc) clks (pcs st);
           Ok {| heap := heap st ++ [p]; pcs := d; los := lo |}
       end.
(** l.1168-1206 *)
Definition port_step (hw : dict hwdesc) (E : list (string * string)) (st : state) (pc : string * list string) : result state :=
  let '(port, clks) := pc in
  if memb port (nodes E) then foldM (nbr_step hw E port clks) (neighbors E port) st else Err KeyError.
Definition all_paths (hw : dict hwdesc) (E : list (string * string)) (used : list (string * string)) : result state :=
  let empty := map (fun '(n, _) => (n, [])) (clusters hw) in
  foldM (port_step hw E) (port_to_clocks used) {| heap := []; pcs := empty; los := empty |}.

(** ** Sequencers of a module, l.1230-1716 *)
Definition uniform (n : nat) (out inp : list string) : list (Z * (list string * list string)) := map (fun i => (Z.of_nat i, (out, inp))) (seq 0 n).
(** [sequencer_allowed_channels] of the six classes: outputs and inputs *)
Definition allowed (k : kind) : list (Z * (list string * list string)) :=
  match k with
  | QCM => uniform 6 ["complex_output_0"; "complex_output_1"; "real_output_0"; "real_output_1"; "real_output_2"; "real_output_3"; "digital_output_0"; "digital_output_1"; "digital_output_2"; "digital_output_3"] []
  | QRM => uniform 6 ["complex_output_0"; "real_output_0"; "real_output_1"; "digital_output_0"; "digital_output_1"; "digital_output_2"; "digital_output_3"] ["complex_input_0"; "real_input_0"; "real_input_1"]
  | QCM_RF => uniform 6 ["complex_output_0"; "complex_output_1"; "digital_output_0"; "digital_output_1"] []
  | QRM_RF => uniform 6 ["complex_output_0"; "complex_output_1"; "digital_output_0"; "digital_output_1"] ["complex_input_0"]
  | QRC =>
      let row i o := (i, (["complex_output_0"; "complex_output_1"; o; "digital_output_0"], ["complex_input_0"; "complex_input_1"])) in
      let drive i := (i, (["complex_output_2"; "complex_output_3"; "complex_output_4"; "complex_output_5"; "digital_output_0"], [])) in
      [row 0 "complex_output_2"; row 1 "complex_output_3"; row 2 "complex_output_4"; row 3 "complex_output_5";
       row 4 "complex_output_2"; row 5 "complex_output_3"; row 6 "complex_output_4"; row 7 "complex_output_5"; drive 8; drive 9; drive 10; drive 11]
  | QTM => uniform 8 ["digital_output_0"; "digital_output_1"; "digital_output_2"; "digital_output_3"; "digital_output_4"; "digital_output_5"; "digital_output_6"; "digital_output_7"]
                     ["digital_input_0"; "digital_input_1"; "digital_input_2"; "digital_input_3"; "digital_input_4"; "digital_input_5"; "digital_input_6"; "digital_input_7"]
  end.
(** [_validate_channel_name_measure] of the six classes, for one path *)
Definition validate (k : kind) (p : path) : result unit :=
  match p_meas p with
  | None => Ok tt
  | Some l =>
      let out := contains "complex_output" (p_ch p) || contains "real_output" (p_ch p) in
      match k with
      | QCM | QCM_RF => Err ValueError
      | QTM => Err NotImplementedErr
      | QRM => match l with
               | [m] => if negb out || negb (contains "complex_input" m || contains "real_input" m) then Err ValueError else Ok tt
               | [_; _] => if negb out || negb (memb "real_input_0" l && memb "real_input_1" l) then Err ValueError else Ok tt
               | _ => Err ValueError
               end
      | QRM_RF => if negb (contains "complex_output" (p_ch p) && forallb (contains "complex_input") l) then Err ValueError else Ok tt
      | QRC => if negb (contains "complex" (p_ch p) && forallb (contains "complex_input") l) then Err ValueError else Ok tt
      end
  end.
(** l.1258-1275: may this sequencer serve the path? *)
Definition fits (p : path) (a : list string * list string) : bool :=
  match p_meas p with
  | None => memb (p_ch p) (fst a) || memb (p_ch p) (snd a)
  | Some l => memb (p_ch p) (fst a) && forallb (fun ch => memb ch (snd a)) l
  end.
(** l.1257-1285 [find_sequencer_index]: the first sequencer that is free and fits *)
Definition find_seq (tab : list (Z * (list string * list string))) (taken : list (Z * string)) (p : path) : result Z :=
  match filter (fun '(i, a) => negb (existsb (fun '(j, _) => Z.eqb j i) taken) && fits p a) tab with (i, _) :: _ => Ok i | [] => Err ValueError end.
Definition reserve (tab : list (Z * (list string * list string))) (paths : dict path) (taken : list (Z * string)) (pc : string) : result (list (Z * string)) :=
  do p <- index paths pc; do i <- find_seq tab taken p; Ok (taken ++ [(i, pc)]).
(** [sorted(portclock_to_path)] *)
Definition sorted_keys (paths : dict path) : list string := DistModel.isort String.leb (map fst paths).
Definition measures (paths : dict path) (pc : string) : bool := match get paths pc with Some p => match p_meas p with Some _ => true | None => false end | None => false end.
(** l.1248-1316 [_sequencer_to_portclock] *)
Definition sequencer_to_portclock (tab : list (Z * (list string * list string))) (paths : dict path) : result (list (Z * string)) :=
  let ks := sorted_keys paths in
  do t <- foldM (reserve tab paths) (filter (measures paths) ks) [];
  foldM (reserve tab paths) (filter (fun k => negb (measures paths k)) ks) t.
(** l.1726-1750 [_SequencerCompilationConfig]; [q_opts]: the hardware options of its port-clock, as opaque values *)
Record seqcfg := { q_idx : Z; q_pc : string; q_ch : string; q_meas : option (list string); q_lo : option string; q_opts : dict Z }.
(** [{option: values.get(portclock)}] for the options of a module that have a value for the port-clock *)
Definition options_of (opts : dict (dict Z)) (pc : string) : dict Z := flat_map (fun '(o, vals) => match get vals pc with Some v => [(o, v)] | None => [] end) opts.
(** l.1318-1400 [_extract_sequencer_compilation_configs]; compiler_abc.py l.1538-1539: a port-clock must have exactly one dash. The channel descriptions are not modelled (every allowed channel name has one of the three prefixes). *)
Definition sequencer_cfgs (tab : list (Z * (list string * list string))) (paths : dict path) (lo : dict path) (opts : dict (dict Z)) : result (list seqcfg) :=
  let channel_to_lo := fold_left (fun d '(n, p) => put d (p_ch p) n) lo [] in
  do s <- sequencer_to_portclock tab paths;
  mapM (fun '(i, pc) =>
      do p <- index paths pc;
      match split_on "-" pc with
      | [_; _] => Ok {| q_idx := i; q_pc := pc; q_ch := p_ch p; q_meas := p_meas p; q_lo := get channel_to_lo (p_ch p); q_opts := options_of opts pc |}
      | _ => Err ValueError
      end) s.

(** ** Clusters, l.964-1069 and l.1775-1827 *)
Definition deref (h : list path) (d : dict nat) : dict path := flat_map (fun '(k, l) => match nth_error h l with Some p => [(k, p)] | None => [] end) d.
(** l.1022-1046, l.1795-1804: the options of the port-clocks of a cluster or a module *)
Definition restrict_options (opts : dict (dict Z)) (ps : dict path) : dict (dict Z) := map (fun '(o, vals) => (o, filter (fun '(pc, _) => has ps pc) vals)) opts.
(** l.1775-1827 [_extract_module_compilation_configs]; the modules without port-clocks were removed (l.1048-1058) *)
Definition cluster_cfg (mods : list (Z * kind)) (ps lo : dict path) (opts : dict (dict Z)) : result (list (Z * list seqcfg)) :=
  let mods := filter (fun '(i, _) => existsb (fun '(_, p) => Z.eqb (p_idx p) i) ps) mods in
  let on i (d : dict path) := filter (fun '(_, p) => Z.eqb (p_idx p) i) d in
  do _ <- mapM (fun '(_, p) => if existsb (fun '(i, _) => Z.eqb i (p_idx p)) mods then Ok tt else Err KeyError) (ps ++ lo);
  do _ <- mapM (fun '(i, k) => mapM (fun '(_, p) => validate k p) (on i ps)) mods;
  mapM (fun '(i, k) => do s <- sequencer_cfgs (allowed k) (on i ps) (on i lo) (restrict_options opts (on i ps)); Ok (i, s)) mods.
(** l.964-1069 [_extract_instrument_compilation_configs] and the sequencers of every cluster; clusters without port-clocks are removed. Keys of dictionaries are unique in Python; cluster names are the keys of [hw]. *)
Definition assign_sequencers (hw : dict hwdesc) (E : list (string * string)) (opts : dict (dict Z)) (used : list (string * string)) : result (list (string * list (Z * list seqcfg))) :=
  do st <- all_paths hw E used;
  let of d c := match get d c with Some x => deref (heap st) x | None => [] end in
  mapM (fun '(n, mods) => do r <- cluster_cfg mods (of (pcs st) n) (of (los st) n) (restrict_options opts (of (pcs st) n)); Ok (n, r))
       (filter (fun '(n, _) => match of (pcs st) n with [] => false | _ => true end) (clusters hw)).
