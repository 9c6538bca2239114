(** Model of helpers/generate_acq_channels_data.py: acquisition indices of a schedule. *)
From Verif Require Import Base UpdModel.
Open Scope Z_scope.

(** operations/acquisition_library.py: the values of "protocol"; enums.py l.15-45 [BinMode] *)
Inductive proto := SSBIntegrationComplex | WeightedIntegratedSeparated | NumericalSeparatedWeightedIntegration | NumericalWeightedIntegration
  | ThresholdedAcquisition | WeightedThresholdedAcquisition | Timetag | TriggerCount | ThresholdedTriggerCount | DualThresholdedTriggerCount
  | Trace | TimetagTrace | OtherProtocol (n : Z).
Inductive bmode := APPEND | AVERAGE | FIRST | DISTRIBUTION | SUM.
Definition proto_eq_dec (a b : proto) : {a = b} + {a <> b}. Proof. decide equality. apply Z.eq_dec. Defined.
Definition bmode_eq_dec (a b : bmode) : {a = b} + {a <> b}. Proof. decide equality. Defined.

(** helpers/schedule.py l.106-127 *)
Definition is_binned_average (p : proto) (b : bmode) : bool :=
  match p, b with
  | (SSBIntegrationComplex | WeightedIntegratedSeparated | NumericalSeparatedWeightedIntegration | NumericalWeightedIntegration
     | ThresholdedAcquisition | WeightedThresholdedAcquisition | Timetag), AVERAGE => true
  | (TriggerCount | ThresholdedTriggerCount | DualThresholdedTriggerCount), SUM => true
  | _, _ => false
  end.
(** helpers/schedule.py l.130-146 *)
Definition is_binned_append (p : proto) (b : bmode) : bool :=
  match p, b with
  | (SSBIntegrationComplex | WeightedIntegratedSeparated | NumericalSeparatedWeightedIntegration | NumericalWeightedIntegration
     | ThresholdedAcquisition | WeightedThresholdedAcquisition | Timetag | TriggerCount | ThresholdedTriggerCount | DualThresholdedTriggerCount), APPEND => true
  | _, _ => false
  end.

(** One entry of "acquisition_info"; acquisition channels and the user's coords dictionaries are opaque values. *)
Record info := { i_chan : Z; i_proto : proto; i_mode : bmode; i_index : option Z; i_coords : Z }.

(** Device-level schedules: operation (with its acquisition_info), schedule (label, abs_time, operation), loop, conditional.
    Only the order of the absolute times matters. *)
Inductive tree := TOp (acqs : list info) | TSched (l : list (Z * Z * tree)) | TLoop (n : nat) (body : tree) | TCond (body : tree).

(** FullSchedulableLabel (l.34): labels, None for the body of a control flow *)
Definition path := list (option Z).
Definition key := (path * nat)%type.
Definition key_eq_dec (a b : key) : {a = b} + {a <> b}.
Proof. decide equality; [apply Nat.eq_dec|]. apply list_eq_dec. decide equality. apply Z.eq_dec. Defined.

(** coords of one acquisition index: the user's, loop_repetition_{channel}, acq_index_legacy_{channel} (l.104-130) *)
Record coord := { c_user : Z; c_loop : option Z; c_legacy : option Z }.
(** AcquisitionChannelData: coords is a list for binned acquisitions and a single dictionary otherwise *)
Inductive coords := CList (l : list coord) | COne (c : Z).
Record chdata := { d_proto : proto; d_mode : bmode; d_coords : coords }.
(** AcquisitionIndices (l.35) *)
Inductive acqidx := One (i : Z) | Many (l : list Z).

Record state := { chans : list (Z * chdata); labels : list (key * acqidx) }.
Definition state0 : state := {| chans := []; labels := [] |}.

Fixpoint getk (k : key) (d : list (key * acqidx)) : option acqidx :=
  match d with [] => None | (k', v) :: r => if key_eq_dec k k' then Some v else getk k r end.
Fixpoint putk (k : key) (v : acqidx) (d : list (key * acqidx)) : list (key * acqidx) :=
  match d with [] => [(k, v)] | (k', v') :: r => if key_eq_dec k k' then (k, v) :: r else (k', v') :: putk k v r end.
Fixpoint getc (k : Z) (d : list (Z * chdata)) : option chdata :=
  match d with [] => None | (k', v) :: r => if k =? k' then Some v else getc k r end.
Fixpoint putc (k : Z) (v : chdata) (d : list (Z * chdata)) : list (Z * chdata) :=
  match d with [] => [(k, v)] | (k', v') :: r => if k =? k' then (k, v) :: r else (k', v') :: putc k v r end.

Definition zseq (a : Z) (n : nat) : list Z := map (fun j => a + Z.of_nat j) (seq 0 n).

(** l.53-54 *)
Definition prod (l : list nat) : nat := fold_right Nat.mul 1%nat l.

(** l.84-139 [_generate_acq_channels_data_binned_append], the new coords *)
Definition append_coords (reps : list nat) (a : info) : list coord :=
  match reps with
  | [] => [{| c_user := i_coords a; c_loop := None; c_legacy := i_index a |}]
  | _ => map (fun lr => {| c_user := i_coords a; c_loop := Some lr; c_legacy := i_index a |}) (zseq 0 (prod reps))
  end.

(** l.155-257, the body of the loop for one acquisition (explicit/implicit selection: [sel] below).
    The [assert isinstance(coords, list)] cannot fail after the protocol and bin mode tests; the model raises AssertionError. *)
Definition step (p : path) (reps : list nat) (num : nat) (a : info) (s : state) : result state :=
  let c := i_chan a in
  do _ <- match getc c (chans s) with
  | Some d => if proto_eq_dec (d_proto d) (i_proto a) then (if bmode_eq_dec (d_mode d) (i_mode a) then Ok tt else Err ValueError) else Err ValueError
  | None => Ok tt
  end;
  let new := fun cs => {| d_proto := i_proto a; d_mode := i_mode a; d_coords := cs |} in
  if is_binned_average (i_proto a) (i_mode a) then
    match (match getc c (chans s) with Some d => d_coords d | None => CList [] end) with
    | COne _ => Err AssertionErr
    | CList l =>
        (* l.57-81 *)
        if match i_index a with Some i => negb (i =? Z.of_nat (List.length l)) | None => false end then Err ValueError
        else Ok {| chans := putc c (new (CList (l ++ [{| c_user := i_coords a; c_loop := None; c_legacy := None |}]))) (chans s);
                   labels := putk (p, num) (One (Z.of_nat (List.length l))) (labels s) |}
    end
  else if is_binned_append (i_proto a) (i_mode a) || match i_proto a, i_mode a with TimetagTrace, APPEND => true | _, _ => false end then
    match (match getc c (chans s) with Some d => d_coords d | None => CList [] end) with
    | COne _ => Err AssertionErr
    | CList l =>
        let cs := append_coords reps a in
        Ok {| chans := putc c (new (CList (l ++ cs))) (chans s);
              labels := putk (p, num) (Many (zseq (Z.of_nat (List.length l)) (List.length cs))) (labels s) |}
    end
  else match i_proto a, i_mode a with
       | Trace, (AVERAGE | FIRST) =>
           (* l.142-152 *)
           match getc c (chans s) with
           | Some _ => Err ValueError
           | None => Ok {| chans := putc c (new (COne (i_coords a))) (chans s); labels := labels s |}
           end
       | TriggerCount, DISTRIBUTION => Ok {| chans := putc c (new (COne (i_coords a))) (chans s); labels := labels s |}
       | _, _ => Err ValueError
       end.

(** l.174-179: which acquisitions a pass considers *)
Definition sel (explicit : bool) (a : info) : bool :=
  match i_index a with Some _ => explicit | None => negb explicit end.

(** l.155-257 [_generate_acq_channels_data_for_protocol] *)
Fixpoint do_infos (explicit : bool) (p : path) (reps : list nat) (num : nat) (l : list info) (s : state) : result state :=
  match l with
  | [] => Ok s
  | a :: r => do s1 <- (if sel explicit a then step p reps num a s else Ok s); do_infos explicit p reps (S num) r s1
  end.

Fixpoint run_all (l : list (Z * (state -> result state))) (s : state) : result state :=
  match l with [] => Ok s | (_, f) :: r => do s1 <- f s; run_all r s1 end.

(** l.260-322 [_generate_acq_channels_data] *)
Fixpoint gen (explicit : bool) (x : tree) (p : path) (reps : list nat) {struct x} : state -> result state :=
  match x with
  | TOp acqs => do_infos explicit p reps 0 acqs
  | TSched l => run_all (sorted_by fst (map (fun y => (snd (fst y), gen explicit (snd y) (p ++ [Some (fst (fst y))]) reps)) l))
  | TLoop n b => gen explicit b (p ++ [None]) (reps ++ [n])
  | TCond b => gen explicit b (p ++ [None]) reps
  end.

(** l.351-409 [generate_acq_channels_data] (without the warnings) *)
Definition generate_acq (x : tree) : result state :=
  do s1 <- gen true x [] [] state0; gen false x [] [] s1.
