(** Model of the frequencies of outputs of the Zurich Instruments backend: of the options modulation_frequencies (zhinst_backend.py l.905-946 of [_generate_legacy_hardware_config]),
    of the parsed modulation (types/zhinst.py l.95-110) and of the settings of local oscillators ([_add_lo_config] l.1547-1634, called in [compile_backend] l.1442-1480). *)
From Verif Require Import Base DevModel.
Local Open Scope string_scope.

(** A channel of a device (the entry "channel_k"), with the port and clock that the connectivity puts there, and the local oscillator of its IQ mixer, if any (l.767-801).
    Simplified: a port and clock that are connected to several channels are not modelled. *)
Record channel := { cport : string; cclock : string; clo : option string }.
(** A LocalOscillatorDescription (types/common.py l.290-305): name, QCoDeS name, and the parameters of frequency and power.  [generic_icc_name] is not copied to the config (l.869-892): it is always the default. *)
Record losc := { lname : string; linstr : string; lparam : string; lpower_param : string; lpower : option Q }.
(** ModulationFrequencies (types/common.py l.182-206) *)
Record modfreq := { m_if : option Q; m_lo : option Q }.
Definition default_icc := "generic".

(** ** The hardware config: for channels the interm_freq of "modulation" (None: there is no such key), for local oscillators the value of the only key of "frequency" (None: there is no such key) *)
Record hwcfg := { ifs : list (channel * option (option Q)); los : list (losc * option (option Q)) }.
Definition here (p c : string) (ch : channel) : bool := (cport ch =? p) && (cclock ch =? c).
(** l.907-921 find_port_clock_path (helpers/collections.py l.150-206; KeyError if it is nowhere; C43), and the update of the channel found *)
Fixpoint set_if (p c : string) (i : option Q) (l : list (channel * option (option Q))) : option (list (channel * option (option Q)) * channel) :=
  match l with
  | [] => None
  | (ch, x) :: r => if here p c ch then Some ((ch, Some i) :: r, ch) else match set_if p c i r with Some (r', ch') => Some ((ch, x) :: r', ch') | None => None end
  end.
(** l.922-941: every entry with this unique_name *)
Definition set_lo (n : string) (f : option Q) (l : list (losc * option (option Q))) : list (losc * option (option Q)) :=
  map (fun lx => if lname (fst lx) =? n then (fst lx, Some f) else lx) l.
(** l.906-946, one (port, clock) *)
Definition set_freqs (mods : list (string * modfreq)) (h : hwcfg) (pc : string * string) : result hwcfg :=
  match lookup (fst pc ++ "-" ++ snd pc) mods with
  | None => Ok h
  | Some m =>
      match set_if (fst pc) (snd pc) (m_if m) (ifs h) with
      | None => Err KeyError
      | Some (ifs', ch) =>
          match clo ch with
          | None => Err KeyError                                       (* ch_config["local_oscillator"] *)
          | Some n => if existsb (fun lx => lname (fst lx) =? n) (los h) then Ok {| ifs := ifs'; los := set_lo n (m_lo m) (los h) |} else Err RuntimeError
          end
      end
  end.
(** [pcs] is schedule.get_used_port_clocks() in the order in which Python iterates over that set (it may differ between runs: the hashes of strings do) *)
Definition generate (mods : list (string * modfreq)) (pcs : list (string * string)) (chans : list channel) (oscs : list losc) : result hwcfg :=
  foldM (set_freqs mods) pcs {| ifs := map (fun ch => (ch, None)) chans; los := map (fun l => (l, None)) oscs |}.

(** ** Parsing: Modulation.interm_freq is a float with the default 0.0; None is not accepted (pydantic ValidationError, a ValueError) *)
Definition parse_if (x : channel * option (option Q)) : result (channel * option Q) :=
  match snd x with None => Ok (fst x, Some 0) | Some None => Err ValueError | Some (Some q) => Ok (fst x, Some q) end.
(** l.669-703 [_parse_local_oscillators] *)
Fixpoint parse_los (l : list (losc * option (option Q))) : result (list (string * (losc * option (option Q)))) :=
  match l with [] => Ok [] | lx :: r => do r' <- parse_los r; if mem (lname (fst lx)) (map fst r') then Err RuntimeError else Ok ((lname (fst lx), lx) :: r') end.

(** ** Settings *)
(** an entry of device_configs: of a device, or for the generic component the values of "instrument.parameter" (None: Python's None) *)
Inductive entry := EDev | ESet (s : list (string * option Q)).
Record state := { freqs : list (string * (losc * option (option Q))); chs : list (channel * option Q); configs : list (string * entry) }.
Definition same (a b : option Q) : bool := match a, b with Some x, Some y => Qeq_bool x y | None, None => true | _, _ => false end.
Definition set_chan (ch : channel) (q : Q) (l : list (channel * option Q)) : list (channel * option Q) := map (fun x => if here (cport ch) (cclock ch) (fst x) then (fst x, Some q) else x) l.
(** l.1547-1634 *)
Definition add_lo_config (resources : list (string * Q)) (st : state) (ci : channel * option Q) : result state :=
  let '(ch, if_) := ci in
  match clo ch with
  | None => Ok st
  | Some n =>
      match lookup n (freqs st) with
      | None => Err KeyError
      | Some (_, None) => Err OtherErr                                 (* None.items(): AttributeError *)
      | Some (l, Some lo) =>
          let go (rf : Q) : result state :=
            do x <- (match lo, if_ with
                     | None, Some i => Ok (rf - i, insert n (l, Some (Some (rf - i))) (freqs st), chs st)
                     | Some f, None => Ok (f, freqs st, set_chan ch (rf - f) (chs st))
                     | None, None => Err ValueError
                     | Some f, Some _ => Ok (f, freqs st, chs st)
                     end);
            let '(f, freqs', chs') := x in
            do _ <- (match lookup n (configs st) with
                     | None => Ok tt
                     | Some EDev => Err OtherErr                       (* a ZIDeviceConfig has no get *)
                     | Some (ESet s) => match lookup "frequency" s with Some v => if same v (Some f) then Ok tt else Err ValueError | None => Err ValueError end
                     end);
            let add s := insert (linstr l ++ "." ++ lpower_param l) (lpower l) (insert (linstr l ++ "." ++ lparam l) (Some f) s) in
            match lookup default_icc (configs st) with
            | Some EDev => Err OtherErr
            | Some (ESet s) => Ok {| freqs := freqs'; chs := chs'; configs := insert default_icc (ESet (add s)) (configs st) |}
            | None => Ok {| freqs := freqs'; chs := chs'; configs := insert default_icc (ESet (add [])) (configs st) |}
            end in
          match lo, if_ with
          | Some f, Some i => go (f + i)
          | _, _ => match lookup (cclock ch) resources with Some rf => go rf | None => Ok st end
          end
      end
  end.
(** l.1442-1480: for every device its own entry, then its channels *)
Definition add_device (resources : list (string * Q)) (st : state) (d : string * list (channel * option Q)) : result state :=
  foldM (add_lo_config resources) (snd d) {| freqs := freqs st; chs := chs st; configs := insert (fst d) EDev (configs st) |}.
(** the devices, sorted by name, with their channels: [_parse_devices] keeps the order *)
Fixpoint regroup {A} (ds : list (string * list channel)) (l : list A) : list (string * list A) :=
  match ds with [] => [] | d :: r => (fst d, firstn (List.length (snd d)) l) :: regroup r (skipn (List.length (snd d)) l) end.
Definition compile_freqs (mods : list (string * modfreq)) (pcs : list (string * string)) (devices : list (string * list channel)) (oscs : list losc) (resources : list (string * Q)) : result state :=
  do h <- generate mods pcs (flat_map snd devices) oscs;
  do cs <- mapM parse_if (ifs h);
  do ls <- parse_los (los h);
  foldM (add_device resources) (regroup devices cs) {| freqs := ls; chs := cs; configs := [] |}.
