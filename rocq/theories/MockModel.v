(** Model of backends/mock/mock_rom.py (l.51-363): compilation to the mock readout module, the module itself and its instrument coordinator component. *)
From Verif Require Import Base AcqChanModel.
From Verif Require PathModel.
From Coq Require SpecFloat.
From Coq Require Import Ascii.
Local Open Scope Z_scope.

(** A modulated pulse: its complex samples, [modulated_wf.real] and [modulated_wf.imag]. *)
Definition wave := list (Q * Q).

(** "pulse_info"[0] of an operation with its hash; [p_wf]: wf_func is not None *)
Record pulse := { p_hash : string; p_port : string; p_clock : string; p_wf : bool }.
(** One operation: a pulse, an acquisition (its class follows from "protocol": simplification of the isinstance tests of l.316 and l.333), a nested schedule, anything else. *)
Inductive mop := OPulse (p : pulse) | OAcq (a : info) (port clock : string) | ONested (x : tree) | OOther.
(** schedule.schedulables.items(), in the order of insertion, with absolute times *)
Record item := { m_label : Z; m_time : Z; m_op : mop }.

(** What generate_acq_channels_data sees of the schedule (AcqChanModel, C23) *)
Definition tree_of (l : list item) : tree :=
  TSched (map (fun it => (m_label it, m_time it, match m_op it with OAcq a _ _ => TOp [a] | ONested x => x | _ => TOp [] end)) l).

(** The hardware compilation configuration (l.366-405): edges of the connectivity graph, sampling rate of "mock_rom", gains, intermediate frequencies. *)
Record config := { g_edges : list (string * string); g_rate : option Q; g_gain : option (list (string * Q)); g_mod : option (list (string * option Q)) }.

Fixpoint lookup {V} (k : string) (d : list (string * V)) : option V :=
  match d with [] => None | (k', v) :: r => if String.eqb k k' then Some v else lookup k r end.
Fixpoint store {V} (k : string) (v : V) (d : list (string * V)) : list (string * V) :=
  match d with [] => [(k, v)] | (k', v') :: r => if String.eqb k k' then (k, v) :: r else (k', v') :: store k v r end.
Fixpoint put_pair {V} (k : Z * Z) (v : V) (d : list (Z * Z * V)) : list (Z * Z * V) :=
  match d with [] => [(k, v)] | (k', v') :: r => if (fst k =? fst k') && (snd k =? snd k') then (k, v) :: r else (k', v') :: put_pair k v r end.
Fixpoint put_chan {V} (k : Z) (v : V) (d : list (Z * V)) : list (Z * V) :=
  match d with [] => [(k, v)] | (k', v') :: r => if k =? k' then (k, v) :: r else (k', v') :: put_chan k v r end.
Fixpoint get_loc {V} (k : nat) (d : list (nat * V)) : option V :=
  match d with [] => None | (k', v) :: r => if Nat.eqb k k' then Some v else get_loc k r end.
Fixpoint put_loc {V} (k : nat) (v : V) (d : list (nat * V)) : list (nat * V) :=
  match d with [] => [(k, v)] | (k', v') :: r => if Nat.eqb k k' then (k, v) :: r else (k', v') :: put_loc k v r end.

(** An instruction f"TRACE_{hw_port}_{location}" (kind "TRACE") or f"ACQ_{hw_port}_{location}" (kind "ACQ") *)
Record instr := { n_trace : bool; n_port : string; n_loc : nat }.

(** l.274-287: the local variables of the loop. [k_waves] holds both entries f"{hash}_I" and f"{hash}_Q" of a pulse. *)
Record kst := { k_waves : list (string * wave); k_instr : list instr; k_next : nat; k_trace : list (Z * nat); k_bin : list (Z * Z * nat); k_gain : option Q }.
Definition kst0 : kst := {| k_waves := []; k_instr := []; k_next := 0; k_trace := []; k_bin := []; k_gain := None |}.

Definition pc (port clock : string) : string := String.append port (String.append "-" clock).

(** l.320-322, l.337-339: [for node in connectivity.graph["q0:res"]: node.split(".")[1]] *)
Definition hw_ports (cfg : config) : result (list string) :=
  if PathModel.memb "q0:res" (PathModel.nodes (g_edges cfg)) then
    mapM (fun n => match PathModel.split_on "." n with _ :: hp :: _ => Ok hp | _ => Err IndexError end) (PathModel.neighbors (g_edges cfg) "q0:res")
  else Err KeyError.

(** l.323-329 *)
Definition gain_step (cfg : config) (q : string) (g : option Q) : result (option Q) :=
  match g_gain cfg with
  | None => Ok g
  | Some d => match lookup q d with
              | None => Err KeyError
              | Some x => match g with Some y => if Qeq_bool x y then Ok (Some x) else Err ValueError | None => Ok (Some x) end
              end
  end.

(** l.288-346: the body of the loop over the schedulables. [env p f] stands for exec_waveform_function and modulate_waveform (l.308-313): the samples of pulse [p] on the grid of the sampling rate, modulated with frequency [f]. *)
Definition comp_step (env : pulse -> Q -> wave) (cfg : config) (lab : list (key * acqidx)) (k : kst) (it : item) : result kst :=
  match m_op it with
  | ONested _ => Err NotImplementedErr
  | OPulse p =>
      if negb (p_wf p) then Ok k else
      match g_mod cfg with
      | None => Err ValueError
      | Some d => match lookup (pc (p_port p) (p_clock p)) d with
                  | Some (Some f) => Ok {| k_waves := store (p_hash p) (env p f) (k_waves k); k_instr := k_instr k; k_next := k_next k; k_trace := k_trace k; k_bin := k_bin k; k_gain := k_gain k |}
                  | _ => Err AssertionErr
                  end
      end
  | OAcq a port clock =>
      match i_proto a, i_mode a with
      | Trace, _ =>
          do ps <- hw_ports cfg;
          do g <- gain_step cfg (pc port clock) (k_gain k);
          Ok {| k_waves := k_waves k; k_instr := k_instr k ++ map (fun hp => {| n_trace := true; n_port := hp; n_loc := k_next k |}) ps;
                k_next := S (k_next k); k_trace := put_chan (i_chan a) (k_next k) (k_trace k); k_bin := k_bin k; k_gain := g |}
      | SSBIntegrationComplex, AVERAGE =>
          do ps <- hw_ports cfg;
          match getk ([Some (m_label it)], 0%nat) lab with
          | Some (One i) =>
              Ok {| k_waves := k_waves k; k_instr := k_instr k ++ map (fun hp => {| n_trace := false; n_port := hp; n_loc := k_next k |}) ps;
                    k_next := S (k_next k); k_trace := k_trace k; k_bin := put_pair (i_chan a, i) (k_next k) (k_bin k); k_gain := k_gain k |}
          | Some (Many _) => Err TypeError
          | None => Err KeyError
          end
      | _, _ => Err NotImplementedErr
      end
  | OOther => Err NotImplementedErr
  end.

(** MockROMSettings (l.142-151) *)
Record program := { s_waves : list wave; s_instr : list instr; s_rate : Q; s_gain : Q; s_chans : list (Z * chdata); s_trace : list (Z * nat); s_bin : list (Z * Z * nat) }.

(** l.265-363 [hardware_compile] *)
Definition compile (env : pulse -> Q -> wave) (cfg : config) (l : list item) : result program :=
  do s <- generate_acq (tree_of l);
  match g_rate cfg with
  | None => Err KeyError
  | Some r =>
      do k <- foldM (comp_step env cfg (labels s)) l kst0;
      Ok {| s_waves := map snd (k_waves k); s_instr := k_instr k; s_rate := r; s_gain := match k_gain k with Some g => g | None => 1%Q end;
            s_chans := chans s; s_trace := k_trace k; s_bin := k_bin k |}
  end.

(** ** The module, l.51-96 *)
(** what one acquisition location holds: the scaled samples of every uploaded waveform, or one number *)
Inductive data := DTrace (ws : list (list Q)) | DAcq (x : Q).
Record rom := { r_waves : list wave; r_instr : list instr; r_rate : Q; r_gain : Q; r_data : list (nat * data) }.

(** l.85-86 [wf[np.arange(0, len(wf), step)]] *)
Definition every (step : nat) (w : list Q) : list Q :=
  map (fun j => nth (j * step) w 0%Q) (seq 0 ((List.length w + step - 1) / step)).
(** l.84-86, for the waveforms _I and _Q of every pulse *)
Definition traced (step : nat) (gain : Q) (ws : list wave) : list (list Q) :=
  flat_map (fun w => [map (fun x => (x * gain)%Q) (every step (map fst w)); map (fun x => (x * gain)%Q) (every step (map snd w))]) ws.

(** l.82, l.88: [int(instruction.split("_")[2])] *)
Definition location (i : instr) : result nat :=
  match PathModel.split_on "_" (n_port i) with
  | _ :: x :: _ => do z <- PathModel.py_int x; Ok (Z.to_nat z)
  | _ => Ok (n_loc i)
  end.

(** l.79-92; [rnd n] is the n-th value of random(). The step is int(sampling_rate / 1e9); np.arange refuses step 0. *)
Fixpoint run (rnd : nat -> Q) (step : nat) (gain : Q) (ws : list wave) (l : list instr) (n : nat) (d : list (nat * data)) : result (list (nat * data)) :=
  match l with
  | [] => Ok d
  | i :: r =>
      do loc <- location i;
      if n_trace i || PathModel.contains "TRACE" (n_port i) then
        match ws, step with
        | _ :: _, O => Err OtherErr
        | _, _ => run rnd step gain ws r n (put_loc loc (DTrace (traced step gain ws)) d)
        end
      else run rnd step gain ws r (S n) (put_loc loc (DAcq (rnd n)) d)
  end.
Definition step_of (rate : Q) : nat := Z.to_nat (Qfloor (rate / 1000000000)).
(** l.75-92 [execute] *)
Definition execute (rnd : nat -> Q) (m : rom) : result rom :=
  match r_instr m with
  | [] => Err RuntimeError
  | _ => do d <- run rnd (step_of (r_rate m)) (r_gain m) (r_waves m) (r_instr m) 0 [];
         Ok {| r_waves := r_waves m; r_instr := r_instr m; r_rate := r_rate m; r_gain := r_gain m; r_data := d |}
  end.

(** ** The instrument coordinator component, l.154-255 *)
Record comp := { c_rom : rom; c_trace : list (Z * nat); c_bin : list (Z * Z * nat); c_chans : option (list (Z * chdata)) }.
(** l.54-65 and l.164-173 *)
Definition comp0 : comp := {| c_rom := {| r_waves := []; r_instr := []; r_rate := 1000000000; r_gain := 1; r_data := [] |}; c_trace := []; c_bin := []; c_chans := None |}.
(** l.179-188 [prepare] *)
Definition prepare (p : program) (c : comp) : comp :=
  {| c_rom := {| r_waves := s_waves p; r_instr := s_instr p; r_rate := s_rate p; r_gain := s_gain p; r_data := r_data (c_rom c) |};
     c_trace := s_trace p; c_bin := s_bin p; c_chans := Some (s_chans p) |}.
(** l.190-192 [start] *)
Definition start (rnd : nat -> Q) (c : comp) : result comp :=
  do m <- execute rnd (c_rom c); Ok {| c_rom := m; c_trace := c_trace c; c_bin := c_bin c; c_chans := c_chans c |}.

(** The number of points of [np.arange(0, n * 1e-9, 1e-9)] (l.222), in binary64: the ceiling of (n * 1e-9) / 1e-9. *)
Definition nano : SpecFloat.spec_float := SpecFloat.S754_finite false 4835703278458517 (-82).
Definition ceil_sf (x : SpecFloat.spec_float) : Z :=
  match x with
  | SpecFloat.S754_finite false m e => if 0 <=? e then Z.pos m * 2 ^ e else (Z.pos m + 2 ^ (- e) - 1) / 2 ^ (- e)
  | _ => 0
  end.
Definition time_points (n : nat) : Z :=
  let x := SpecFloat.binary_normalize 53 1024 (Z.of_nat n) 0 false in
  ceil_sf (SpecFloat.SFdiv 53 1024 (SpecFloat.SFmul 53 1024 x nano) nano).

(** l.209-232: one trace. The data array is refused by xarray if the time coordinate has another length. *)
Definition get_trace (d : list (nat * data)) (ch : list (Z * chdata)) (x : Z * nat) : result (Z * list (Q * Q)) :=
  match getc (fst x) ch with
  | None => Err KeyError
  | Some cd =>
      match d_proto cd with
      | Trace =>
          match get_loc (snd x) d with
          | None => Err KeyError
          | Some (DAcq _) => Err TypeError
          | Some (DTrace (a :: b :: _)) =>
              if time_points (List.length a) =? Z.of_nat (List.length a) then Ok (fst x, combine a b) else Err ValueError
          | Some (DTrace _) => Err IndexError
          end
      | _ => Err NotImplementedErr
      end
  end.
(** l.234-253: one binned acquisition *)
Definition get_bin (d : list (nat * data)) (ch : list (Z * chdata)) (x : Z * Z * nat) : result (Z * Z * Q) :=
  match getc (fst (fst x)) ch with
  | None => Err KeyError
  | Some cd =>
      match d_proto cd with
      | SSBIntegrationComplex =>
          match get_loc (snd x) d with
          | None => Err KeyError
          | Some (DTrace _) => Err ValueError
          | Some (DAcq v) => Ok (fst x, v)
          end
      | _ => Err NotImplementedErr
      end
  end.
(** The returned dataset: per trace channel the complex samples; per channel and acquisition index a value. (Dimensions and coordinates other than the index are not modelled; [dataset.merge] of different channels or indices is a union.) *)
Record dataset := { ds_traces : list (Z * list (Q * Q)); ds_bins : list (Z * Z * Q) }.
(** l.197-255 [retrieve_acquisition] *)
Definition retrieve (c : comp) : result dataset :=
  match c_chans c with
  | None => Err RuntimeError
  | Some ch =>
      do t <- mapM (get_trace (r_data (c_rom c)) ch) (c_trace c);
      do b <- mapM (get_bin (r_data (c_rom c)) ch) (c_bin c);
      Ok {| ds_traces := t; ds_bins := b |}
  end.
