(** Model of backends/qblox/instrument_compilers.py l.463-505 ([QTMCompiler._set_time_ref_channel]) and l.619-690 ([ClusterCompiler._validate_external_trigger_sync]). *)
From Verif Require Import Base PathModel.
From Coq Require Import Ascii.
Local Open Scope string_scope.
Local Open Scope list_scope.
Local Open Scope Z_scope.

(** enums.py: TimeRef; only PORT matters here *)
Inductive timeref := RPort | ROther.
(** OpInfo with the entries "time_ref", "time_ref_port" and "time_ref_channel" of its data; [o_id]: everything else. A missing "time_ref_port" (KeyError in Python) and None are not distinguished: the Timetag operations always set it. *)
Record op := { o_id : Z; o_acq : bool; o_ref : option timeref; o_refport : option string; o_refch : option Z }.
(** op_infos: (port, clock) -> operations *)
Definition ops := list (string * string * list op).

Fixpoint find_path (k : string) (d : list (string * path)) : option path :=
  match d with [] => None | (k', v) :: r => if String.eqb k k' then Some v else find_path k r end.
(** [f"{port}-{clock}"] *)
Definition pc_name (k : string * string) : string := String.append (fst k) (String.append "-" (snd k)).

(** qblox_backend.py l.1906-1913 [channel_idx] *)
Definition channel_idx (p : path) : result Z := py_int (last (split_on "_" (p_ch p)) "").

(** Equality of ChannelPath objects (dataclass equality; the set of further channels is compared as a set) *)
Definition same_set (a b : option (list string)) : bool :=
  match a, b with
  | None, None => true
  | Some l, Some m => forallb (fun x => memb x m) l && forallb (fun x => memb x l) m
  | _, _ => false
  end.
Definition path_eqb (p q : path) : bool :=
  String.eqb (p_cl p) (p_cl q) && String.eqb (p_mod p) (p_mod q) && String.eqb (p_ch p) (p_ch q) && (p_idx p =? p_idx q) && same_set (p_meas p) (p_meas q).

Definition get_path (paths : list (string * path)) (n : string) : result path :=
  match find_path n paths with Some p => Ok p | None => Err KeyError end.

(** l.482-505: one acquisition. [keys]: the port-clock combinations of op_infos *)
Definition set_ref (keys : list (string * string)) (paths : list (string * path)) (o : op) : result op :=
  match o_acq o, o_ref o with
  | true, Some RPort =>
      let matching := map pc_name (filter (fun k => match o_refport o with Some r => String.eqb (fst k) r | None => false end) keys) in
      match matching with
      | [] => Err ValueError
      | n :: rest =>
          do _ <- (match rest with
                   | [] => Ok tt
                   | _ => do ps <- mapM (get_path paths) matching;
                          match ps with p :: r => if forallb (path_eqb p) r then Ok tt else Err ValueError | [] => Ok tt end
                   end);
          do p <- get_path paths n;
          do i <- channel_idx p;
          Ok {| o_id := o_id o; o_acq := o_acq o; o_ref := o_ref o; o_refport := o_refport o; o_refch := Some i |}
      end
  | _, _ => Ok o
  end.
(** l.463-505 *)
Definition set_time_ref (l : ops) (paths : list (string * path)) : result ops :=
  mapM (fun e => do os <- mapM (set_ref (map fst l) paths) (snd e); Ok (fst e, os)) l.

(** ** External trigger *)
(** types/qblox.py l.336-347: slot, channel (both as on the front panel), input_threshold *)
Record ext := { x_slot : Z; x_channel : Z; x_threshold : option Q }.
(** modules of the hardware description by slot; portclock_to_path; hardware_options.digitization_thresholds: port-clock -> analog_threshold *)
Record hw := { h_modules : list (Z * kind); h_paths : list (string * path); h_thresholds : option (list (string * option Q)) }.

Fixpoint module_at (s : Z) (l : list (Z * kind)) : option kind :=
  match l with [] => None | (s', k) :: r => if s =? s' then Some k else module_at s r end.
Definition oq_eqb (a b : option Q) : bool := match a, b with Some x, Some y => Qeq_bool x y | None, None => true | _, _ => false end.
Fixpoint find_thr (k : string) (d : list (string * option Q)) : option (option Q) :=
  match d with [] => None | (k', v) :: r => if String.eqb k k' then Some v else find_thr k r end.

(** l.652-661: is the path the channel of the trigger? *)
Definition on_channel (x : ext) (p : path) : result bool :=
  if p_idx p =? x_slot x then do i <- channel_idx p; Ok (i =? x_channel x - 1) else Ok false.
Fixpoint filterM {A} (f : A -> result bool) (l : list A) : result (list A) :=
  match l with [] => Ok [] | a :: r => do b <- f a; do t <- filterM f r; Ok (if b then a :: t else t) end.
(** l.664-689 *)
Definition check_path (h : hw) (x : ext) (e : string * path) : result unit :=
  if negb (contains "digital_input" (p_ch (snd e))) then Err ValueError else
  match (match h_thresholds h with None => None | Some d => find_thr (fst e) d end) with
  | None => match x_threshold x with None => Err ValueError | Some _ => Ok tt end
  | Some t => if oq_eqb t (x_threshold x) then Ok tt else Err ValueError
  end.
(** l.619-690; the warning of l.646-651 is not modelled *)
Definition validate_sync (h : hw) (s : option ext) : result unit :=
  match s with
  | None => Ok tt
  | Some x =>
      do _ <- (match module_at (x_slot x) (h_modules h) with
               | Some QTM => Ok tt
               | Some _ => Err ValueError
               | None => Ok tt
               end);
      do l <- filterM (fun e => on_channel x (snd e)) (h_paths h);
      do _ <- mapM (check_path h x) l;
      Ok tt
  end.
