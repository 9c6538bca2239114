(** Model of the real-time distortion filters of Qblox modules: backends/qblox/analog.py l.816-902, l.1261-1285 (latency compensation) and backends/qblox/instrument_compilers.py l.68-157 (corrections of QCM modules). *)
From Verif Require Import Base CircModel PathModel.
From Coq Require Import Ascii DecimalString.
Local Open Scope string_scope.
Local Open Scope list_scope.
Local Open Scope Z_scope.

(** types/qblox.py l.269-300: the five filters of an output and their settings; delay: marker_delay is DELAY_COMP (not BYPASSED) *)
Inductive filt := Exp0 | Exp1 | Exp2 | Exp3 | Fir.
Definition all_filters : list filt := [Exp0; Exp1; Exp2; Exp3; Fir].
Definition filt_eqb (a b : filt) : bool := match a, b with Exp0, Exp0 | Exp1, Exp1 | Exp2, Exp2 | Exp3, Exp3 | Fir, Fir => true | _, _ => false end.
Inductive fcfg := Bypassed | Enabled | DelayComp.
Record rtf := { r_coeffs : option (list Q); r_cfg : fcfg; r_delay : bool }.
Definition dset : Type := filt -> rtf.
(** types/qblox.py l.415-417: four outputs, every filter bypassed *)
Definition fresh : list dset := repeat (fun _ => {| r_coeffs := None; r_cfg := Bypassed; r_delay := false |}) 4.
(** enums.py l.33-47 *)
Definition mask (f : filt) : Z := match f with Exp0 => 2 | Exp1 => 4 | Exp2 => 8 | Exp3 => 16 | Fir => 32 end.

(** [settings.distortion_corrections[output]...]; outputs are never negative *)
Fixpoint upd (l : list dset) (n : nat) (g : dset -> dset) : result (list dset) :=
  match l, n with [], _ => Err IndexError | d :: r, O => Ok (g d :: r) | d :: r, S k => do r' <- upd r k g; Ok (d :: r') end.

(** The description of a channel; d_debug: marker_debug_mode_enable, which digital channels do not have (AttributeError) *)
Record chdesc := { d_comp : Z; d_debug : option bool }.
(** a correction, without its unset filters (types/qblox.py l.1576-1588) *)
Definition corr : Type := filt -> option (list Q).
(** the option of a port-clock: a software correction, one correction, a list of them *)
Inductive dcopt := Soft | One (c : corr) | Several (l : list corr).
(** an entry of [module_distortion_configs] *)
Record dconf := { f_corr : corr; f_debug : bool }.
(** a dict with integers as keys *)
Fixpoint nget {A} (d : list (nat * A)) (k : nat) : option A := match d with [] => None | (k', v) :: r => if Nat.eqb k' k then Some v else nget r k end.
Fixpoint nput {A} (d : list (nat * A)) (k : nat) (v : A) : list (nat * A) := match d with [] => [(k, v)] | (k', w) :: r => if Nat.eqb k' k then (k', v) :: r else (k', w) :: nput r k v end.

(** types/qblox.py l.95-108 [_get_connected_output_indices] *)
Definition connected_outputs (ch : string) : result (list nat) :=
  match split_on "_" ch with
  | [mode; io; idx] => if contains "output" io then do i <- py_int idx; let n := Z.to_nat i in Ok (if String.eqb mode "complex" then [2 * n; 2 * n + 1]%nat else [n]) else Ok []
  | _ => Err ValueError
  end.
(** [f"digital_output_{output}"] *)
Definition digital_name (n : nat) : string := ("digital_output_" ++ NilEmpty.string_of_uint (Nat.to_uint n))%string.

(** What differs between baseband and RF modules: l.1261-1285 adds 2 to the index of a marker; [channel_name_to_digital_marker] has analog channels in RF modules only. *)
Record hw := { h_shift : nat; h_markers : dict Z }.
Definition baseband : hw := {| h_shift := 0; h_markers := [("digital_output_0", 1); ("digital_output_1", 2); ("digital_output_2", 4); ("digital_output_3", 8)] |}.
Definition qrc : hw := {| h_shift := 2; h_markers := [("digital_output_0", 1)] |}.

(** l.861-879 [_configure_dc_latency_comp_for_output] *)
Definition comp_output (comp : Z) (o : nat) (s : list dset) : result (list dset) :=
  upd s o (fun d f => {| r_coeffs := r_coeffs (d f); r_cfg := if Z.eqb (Z.land comp (mask f)) 0 then Bypassed else DelayComp; r_delay := r_delay (d f) |}).
(** l.880-899 and l.1261-1285 [_configure_dc_latency_comp_for_marker] *)
Definition comp_marker (h : hw) (comp : Z) (o : nat) (s : list dset) : result (list dset) :=
  upd s (o + h_shift h) (fun d f => {| r_coeffs := r_coeffs (d f); r_cfg := r_cfg (d f); r_delay := negb (Z.eqb (Z.land comp (mask f)) 0) |}).

Definition lstate : Type := (list dset * list (nat * dconf))%type.
(** l.836-860: one output of a channel *)
Definition lat_output (h : hw) (channels : list string) (ch : string) (d : chdesc) (st : lstate) (o : nat) : result lstate :=
  let '(s, confs) := st in
  if contains "digital" ch then do s' <- comp_marker h (d_comp d) o s; Ok (s', confs)
  else
    do dbg <- match d_debug d with Some b => Ok b | None => Err OtherErr end;
    do st' <- (if dbg then
                 if memb (digital_name o) channels then Err ValueError
                 else
                   let confs' := match nget confs o with Some c => nput confs o {| f_corr := f_corr c; f_debug := true |} | None => confs end in
                   let mo := match get (h_markers h) ch with Some m => Z.to_nat ((m + 1) mod 2) | None => o end in
                   do s' <- comp_marker h (d_comp d) mo s; Ok (s', confs')
               else Ok (s, confs));
    let '(s', confs') := st' in do s2 <- comp_output (d_comp d) o s'; Ok (s2, confs').
(** l.816-860 [_configure_distortion_correction_latency_compensations]; [descs]: the channels in [model_fields_set] with their description (None: set to None), in any order *)
Definition lat_channel (h : hw) (channels : list string) (st : lstate) (e : string * option chdesc) : result lstate :=
  let '(ch, desc) := e in
  if memb ch channels then match desc with
    | None => Ok st
    | Some d => do outs <- connected_outputs ch; foldM (lat_output h channels ch d) outs st
    end else Ok st.
Definition latency_compensation (h : hw) (descs : list (string * option chdesc)) (pcs : dict path) (confs : list (nat * dconf)) : result lstate :=
  foldM (lat_channel h (map (fun e => p_ch (snd e)) pcs)) descs (fresh, confs).
(** analog.py l.900-902: all modules but QCM *)
Definition configure_other (h : hw) (descs : list (string * option chdesc)) (pcs : dict path) : result (list dset) :=
  do st <- latency_compensation h descs pcs []; Ok (fst st).

(** instrument_compilers.py l.102-145 [_get_distortion_configs_per_output]. [int(output_name.split("_")[-1])] *)
Definition channel_number (ch : string) : result nat := do i <- py_int (last (split_on "_" ch) ""); Ok (Z.to_nat i).
Definition debug_of (descs : list (string * option chdesc)) (ch : string) : result bool :=
  match get descs ch with Some (Some d) => match d_debug d with Some b => Ok b | None => Err OtherErr end | _ => Ok false end.
Definition conf_step (descs : list (string * option chdesc)) (pcs : dict path) (confs : list (nat * dconf)) (e : string * dcopt) : result (list (nat * dconf)) :=
  let '(pc, dc) := e in
  match get pcs pc with
  | None => Ok confs
  | Some p =>
      match dc with
      | Soft => Ok confs
      | _ =>
          do n <- channel_number (p_ch p);
          do dbg <- debug_of descs (p_ch p);
          match nget confs n with
          | Some _ => Err ValueError
          | None =>
              match dc with
              | One c => Ok (nput confs n {| f_corr := c; f_debug := dbg |})
              | Several (a :: b :: _) => Ok (nput (nput confs (2 * n) {| f_corr := a; f_debug := dbg |}) (2 * n + 1) {| f_corr := b; f_debug := dbg |})
              | _ => Err IndexError
              end
          end
      end
  end.
Definition distortion_configs (descs : list (string * option chdesc)) (pcs : dict path) (dcs : dict dcopt) : result (list (nat * dconf)) := foldM (conf_step descs pcs) dcs [].

(** l.87-100: the ranges. [np.any(value)] is a truth value, and compared with -2 and 2 as 0 or 1. *)
Definition np_any (l : list Q) : Z := if existsb (fun q => negb (Qeq_bool q 0)) l then 1 else 0.
Definition bad_coeffs (f : filt) (v : list Q) : bool :=
  match f with
  | Fir => negb (Nat.eqb (List.length v) 32) || (np_any v <? -2) || (2 <=? np_any v)
  | _ => match v with [t; a] => Qlt_bool t 6 || Qlt_bool a (-1) || Qle_bool 1 a | _ => true end
  end.
(** l.147-157 [_configure_filter] *)
Definition set_filter (f : filt) (v : list Q) (dbg : bool) (d : dset) : dset :=
  fun g => if filt_eqb f g then {| r_coeffs := Some v; r_cfg := Enabled; r_delay := if dbg then true else r_delay (d g) |} else d g.
(** l.78-100: one output *)
Definition apply_conf (s : list dset) (e : nat * dconf) : result (list dset) :=
  let '(o, c) := e in
  do _ <- upd s o (fun d => d);
  foldM (fun s f => match f_corr c f with None => Ok s | Some v => if bad_coeffs f v then Err ValueError else upd s o (set_filter f v (f_debug c)) end) all_filters s.
(** l.68-100 [QCMCompiler._configure_hardware_distortion_corrections] *)
Definition configure_qcm (descs : list (string * option chdesc)) (pcs : dict path) (dcs : option (dict dcopt)) : result (list dset) :=
  do confs <- match dcs with None => Ok [] | Some l => distortion_configs descs pcs l end;
  do st <- latency_compensation baseband descs pcs confs;
  foldM apply_conf (snd st) (fst st).
