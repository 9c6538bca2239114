(** Model of backends/qblox/auto_rf_switch.py: automatic insertion of RFSwitchToggle operations. *)
From Verif Require Import Base QSort.
Open Scope Q_scope.

(** One entry of "pulse_info" (missing "t0"/"duration"/offset paths are 0, a missing port is the empty string). [p_wf]: wf_func is not None. *)
Record pinfo := { p_port : string; p_clock : string; p_t0 : Q; p_dur : Q; p_wf : bool; p_marker : bool; p_offI : Q; p_offQ : Q }.

(** Operations after timing: plain operation (its pulse_info), schedule ([abs_time], operation) in insertion order, loop, conditional.
    [OLoop n period body]: [period] is the duration of the body, used by the specification only (the pass does not look at it). *)
Inductive op := OPulses (l : list pinfo) | OSched (l : list (Q * op)) | OLoop (n : nat) (period : Q) (body : op) | OCond (body : op).

(** Python's str.endswith *)
Definition ends_with (suf s : string) : bool :=
  (String.length suf <=? String.length s)%nat && String.eqb (substring (String.length s - String.length suf) (String.length suf) s) suf.
Definition is_mw (port : string) : bool := ends_with ":mw" port.

(** l.17-34 [VoltageOffsetEvent], l.36-54 [MicrowavePulseInfo] (the schedulable key is not used anywhere) *)
Record vo := { v_time : Q; v_pc : string * string; v_on : bool }.
Record mwp := { m_time : Q; m_dur : Q; m_pc : string * string }.
Definition m_end (p : mwp) : Q := m_time p + m_dur p.

Definition pc_eqb (a b : string * string) : bool := String.eqb (fst a) (fst b) && String.eqb (snd a) (snd b).

(** l.211-245: one entry of pulse_info *)
Definition collect_info (at_ : Q) (p : pinfo) : list mwp * list vo :=
  if negb (is_mw (p_port p)) then ([], [])
  else if p_marker p then ([], [])
  else
    let t := at_ + p_t0 p in
    if negb (p_wf p) then
      if Qeq_bool (p_dur p) 0 then ([], [{| v_time := t; v_pc := (p_port p, p_clock p); v_on := negb (Qeq_bool (p_offI p) 0 && Qeq_bool (p_offQ p) 0) |}])
      else ([], [])
    else if Qlt_bool 0 (p_dur p) then ([{| m_time := t; m_dur := p_dur p; m_pc := (p_port p, p_clock p) |}], [])
    else ([], []).

Definition join {A B} (l : list (list A * list B)) : list A * list B := (flat_map fst l, flat_map snd l).

(** l.185-247 [_collect_all_mw_events_recursive]: a control-flow body is visited only if it is a schedule, and once.
    (The function is called on schedules only; here it is a function of the operation at its absolute time.) *)
Fixpoint collect (o : op) (at_ : Q) : list mwp * list vo :=
  match o with
  | OPulses l => join (map (collect_info at_) l)
  | OSched l => join (map (fun '(t, x) => collect x (at_ + t)) l)
  | OLoop _ _ (OSched l as b) | OCond (OSched l as b) => collect b at_
  | OLoop _ _ _ | OCond _ => ([], [])
  end.

(** defaultdict(list): the distinct port-clocks in order of first occurrence *)
Fixpoint distinct (l : list (string * string)) : list (string * string) :=
  match l with [] => [] | k :: r => k :: filter (fun k' => negb (pc_eqb k k')) (distinct r) end.
Definition group {A} (pc : A -> string * string) (l : list A) : list ((string * string) * list A) :=
  map (fun k => (k, filter (fun x => pc_eqb k (pc x)) l)) (distinct (map pc l)).

(** l.283-300: scanning the sorted events of one port-clock *)
Fixpoint scan (pc : string * string) (window : option Q) (l : list vo) : list mwp :=
  match l with
  | [] => []
  | e :: r =>
      match window, v_on e with
      | None, true => scan pc (Some (v_time e)) r
      | Some w, false => {| m_time := w; m_dur := v_time e - w; m_pc := pc |} :: scan pc None r
      | _, _ => scan pc window r
      end
  end.
(** l.250-302 [_voltage_offset_events_to_pulses] *)
Definition vo_pulses (events : list vo) : list mwp :=
  flat_map (fun '(pc, es) => scan pc None (sortq v_time es)) (group v_pc events).

Definition atol : Q := 1 # 1000000000000000.
(** l.425-444: the loop of [_merge_pulses_into_windows] *)
Fixpoint merge (ramp : Q) (cs ce : Q) (l : list mwp) : list (Q * Q) :=
  match l with
  | [] => [(cs, ce)]
  | p :: r =>
      if Qle_bool (m_time p - ce) (2 * ramp + atol) then merge ramp cs (Qmax ce (m_end p)) r
      else (cs, ce) :: merge ramp (m_time p) (m_end p) r
  end.
Definition windows (ramp : Q) (l : list mwp) : list (Q * Q) :=
  match l with [] => [] | p :: r => merge ramp (m_time p) (m_end p) r end.

(** operations/rf_switch_toggle.py l.48-66 *)
Definition toggle (pc : string * string) (dur : Q) : pinfo :=
  {| p_port := fst pc; p_clock := snd pc; p_t0 := 0; p_dur := dur; p_wf := false; p_marker := true; p_offI := 0; p_offQ := 0 |}.

(** l.447-502 [_insert_rf_switch_operation]: the schedulable appended to the root schedule *)
Definition rf_toggle (ramp : Q) (pc : string * string) (w : Q * Q) : Q * op :=
  let start := Qmax 0 (fst w - ramp) in (start, OPulses [toggle pc ((snd w + ramp) - start)]).

(** l.57-145 [auto_rf_switch_dressing] with the option enabled: the schedulables of the root schedule afterwards.
    (Toggles with equal hashes are equal operations, so storing them under their hash shares them harmlessly.) *)
Definition dress (ramp : Q) (root : list (Q * op)) : list (Q * op) :=
  let '(mw, evs) := collect (OSched root) 0 in
  root ++ flat_map (fun '(pc, ps) => map (rf_toggle ramp pc) (windows ramp (sortq m_time ps))) (group m_pc (mw ++ vo_pulses evs)).
(** l.103-111: [enabled] is compiler_options.auto_rf_switch *)
Definition auto_rf_switch (enabled : bool) (ramp : Q) (root : list (Q * op)) : list (Q * op) :=
  if enabled then dress ramp root else root.
