(** Model of backends/corrections.py l.101-299: software distortion corrections.

    Operations, control flow operations, schedules and their [pulse_info] lists are objects that may be shared, so they
    are kept in a heap.  Samples are real numbers.  How a pulse is sampled (helpers/waveforms.py l.158-182) and what the
    filter function does are parameters. *)
From Verif Require Import Base.
Local Open Scope string_scope.

(** The waveform of a pulse: a waveform function with its parameters, or the samples of a NumericalPulse *)
Inductive waveform := Function (n : nat) | Sampled (samples t_samples : list Q).
(** An entry of pulse_info. [pref]: the reference magnitude; [poffset]: it has "offset_path_I" or "offset_path_Q" *)
Record pulse := { pport : option string; pclock : string; pt0 : Q; pdur : Q; pref : option (Q * string); poffset : bool; pwave : waveform }.

Definition loc := nat.
(** An operation: name, its pulse_info list, acquisition_info, the rest of its data (gate_info, logic_info), and _duration *)
Record oper := { oname : string; opulses : loc; oacqs : list nat; orest : nat; odur : Q }.
Inductive obj := Sched (operations : list (string * loc)) | Flow (body : loc) | Op (o : oper).
(** [warned]: the operations for which a RuntimeWarning was issued *)
Record heap := { objs : list obj; lists : list (list pulse); warned : list loc }.

Fixpoint set_nth {A} (n : nat) (a : A) (l : list A) : list A :=
  match l, n with [], _ => [] | _ :: r, O => a :: r | x :: r, S n => x :: set_nth n a r end.
Definition set_obj (h : heap) (l : loc) (o : obj) : heap := {| objs := set_nth l o (objs h); lists := lists h; warned := warned h |}.
Definition set_list (h : heap) (l : loc) (ps : list pulse) : heap := {| objs := objs h; lists := set_nth l ps (lists h); warned := warned h |}.
Definition warn (h : heap) (l : loc) : heap := {| objs := objs h; lists := lists h; warned := warned h ++ [l] |}.
Definition new_obj (h : heap) (o : obj) : heap * loc := ({| objs := objs h ++ [o]; lists := lists h; warned := warned h |}, List.length (objs h)).

Fixpoint lookup {A} (k : string) (l : list (string * A)) : option A :=
  match l with [] => None | (k', v) :: r => if k =? k' then Some v else lookup k r end.
Fixpoint insert {A} (k : string) (v : A) (l : list (string * A)) : list (string * A) :=
  match l with [] => [(k, v)] | (k', v') :: r => if k =? k' then (k, v) :: r else (k', v') :: insert k v r end.

(** backends/types/common.py l.76-124; the filter function with its keywords is a number *)
Record software := { rate : Q; filter_func : nat; clipping_values : option (list Q) }.
(** What a port-clock may have in the distortion corrections: a SoftwareDistortionCorrection, a HardwareDistortionCorrection or a list of them, or
    (old Zurich Instruments configurations) a dictionary with its "correction_type", if any, and what model_validate makes of it *)
Inductive correction := Software (c : software) | Hardware | Legacy (correction_type : option string) (c : result software).

Section Correct.
  Variable sample : pulse -> Q -> result (list Q).
  Variable run_filter : nat -> list Q -> result (list Q).
  Variable corrections : list (string * correction).

  (** np.clip *)
  Definition clip (lo hi x : Q) : Q := Qmin (Qmax x lo) hi.
  (** np.linspace(0, stop, n) *)
  Definition linspace (stop : Q) (n : nat) : list Q :=
    match n with
    | O => []
    | 1%nat => [0]
    | S m => map (fun i => inject_Z (Z.of_nat i) * (stop / inject_Z (Z.of_nat m))) (seq 0 m) ++ [stop]
    end.
  (** pulse_library.py l.1072-1106, for the arguments given here: the entry of pulse_info; an empty array raises IndexError *)
  Definition numerical_pulse (samples t : list Q) (port : option string) (clock : string) (t0 : Q) : result pulse :=
    match t with
    | [] => Err IndexError
    | first :: _ => Ok {| pport := port; pclock := clock; pt0 := t0; pdur := last t 0 - first; pref := None; poffset := false; pwave := Sampled samples t |}
    end.
  (** corrections.py l.101-152 *)
  Definition distortion_correct_pulse (p : pulse) (c : software) : result pulse :=
    do w <- sample p (rate c);
    do w <- run_filter (filter_func c) w;
    let w := match clipping_values c with Some [lo; hi] => map (clip lo hi) w | _ => w end in
    let w := match w with [x] => [x; x] | _ => w end in
    numerical_pulse w (linspace (pdur p) (List.length w)) (pport p) (pclock p) (pt0 p).

  (** corrections.py l.155-157; operation.py l.318-321, l.351-357 *)
  Definition correctable (ps : list pulse) : bool := match ps with [] => false | _ => negb (existsb poffset ps) end.
  (** corrections.py l.251 *)
  Definition portclock (p : pulse) : string := match pport p with Some s => s | None => "None" end ++ "-" ++ pclock p.

  (** corrections.py l.250-291: one round of the loop over pulse_info. [sub]: the substitute operation *)
  Definition one_pulse (l : loc) (o : oper) (hs : heap * option oper) (i : nat) : result (heap * option oper) :=
    let '(h, sub) := hs in
    match nth_error (lists h) (opulses o) with
    | None => Err OtherErr
    | Some ps =>
        match nth_error ps i with
        | None => Err OtherErr
        | Some p =>
            match lookup (portclock p) corrections with
            | None => Ok (h, sub)
            | Some Hardware => Ok (h, sub)
            | Some cfg =>
                if negb (correctable ps) then Ok (warn h l, sub) else
                let go c := do q <- distortion_correct_pulse p c;
                            let h := set_list h (opulses o) (set_nth i q ps) in
                            Ok (h, if Nat.eqb i 0 then Some {| oname := "NumericalPulse"; opulses := opulses o; oacqs := []; orest := 0; odur := pt0 q + pdur q |} else sub) in
                match cfg with
                | Software c => go c
                | Legacy ty c => if match ty with Some t => t =? "software" | None => true end then do c <- c; go c else Ok (h, sub)
                | Hardware => Ok (h, sub)
                end
            end
        end
    end.

  (** corrections.py l.231-299; [fuel] bounds the depth of the recursion (in Python a RecursionError) *)
  Fixpoint apply (fuel : nat) (h : heap) (l : loc) : result (heap * option loc) :=
    match fuel with
    | O => Err RuntimeError
    | S fuel =>
        match nth_error (objs h) l with
        | None => Err OtherErr
        | Some (Sched ops) =>
            do h <- foldM (fun h k =>
                      match nth_error (objs h) l with
                      | Some (Sched ops) =>
                          match lookup k ops with
                          | None => Err KeyError
                          | Some m =>
                              do hr <- apply fuel h m;
                              let '(h, r) := hr in
                              match r with
                              | None => Ok h
                              | Some m' => match nth_error (objs h) l with Some (Sched ops) => Ok (set_obj h l (Sched (insert k m' ops))) | _ => Err OtherErr end
                              end
                          end
                      | _ => Err OtherErr
                      end) (map fst ops) h;
            Ok (h, None)
        | Some (Flow b) =>
            do hr <- apply fuel h b;
            let '(h, r) := hr in
            match r with None => Ok (h, None) | Some b' => Ok (set_obj h l (Flow b'), None) end
        | Some (Op o) =>
            match nth_error (lists h) (opulses o) with
            | None => Err OtherErr
            | Some ps =>
                do hs <- foldM (one_pulse l o) (seq 0 (List.length ps)) (h, None);
                let '(h, sub) := hs in
                match sub with
                | None => Ok (h, None)
                | Some s => let '(h, m) := new_obj h (Op s) in Ok (h, Some m)
                end
            end
        end
    end.
End Correct.
