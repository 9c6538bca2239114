(** Model of backends/qblox/qblox_acq_index_manager.py: acquisition indices and bins of one sequencer. *)
From Verif Require Import Base.
Open Scope Z_scope.

(** acquisition channels are hashable keys; only equality matters *)
Definition chan := Z.

(** constants.py l.22-24 *)
Definition NIDX : nat := 32.
Definition NBINS : Z := 100000.

(** association lists model Python dictionaries *)
Fixpoint get {V} (k : Z) (d : list (Z * V)) : option V :=
  match d with [] => None | (k', v) :: r => if k =? k' then Some v else get k r end.
Fixpoint put {V} (k : Z) (v : V) (d : list (Z * V)) : list (Z * V) :=
  match d with [] => [(k, v)] | (k', v') :: r => if k =? k' then (k, v) :: r else (k', v') :: put k v r end.

(** QbloxAcquisitionIndexBin (l.24-57) without the threshold metadata *)
Record hwbin := { h_index : nat; h_bin : Z; h_stride : Z }.

(** __init__, l.89-117.  [next_free k]: _next_free_qblox_acq_bin[k]; [decl]: index -> num_bins *)
Record mgr := {
  decl : list (Z * Z);
  binned : list (Z * list (Z * hwbin));
  unbinned : list (Z * nat);
  next_free : nat -> Z;
  chan_index : list (Z * nat);
  trace_allocated : bool
}.
Definition mgr0 : mgr := {| decl := []; binned := []; unbinned := []; next_free := fun _ => 0; chan_index := []; trace_allocated := false |}.

(** l.119-120 *)
Definition free_bins (m : mgr) (k : nat) : Z := NBINS - next_free m k.

(** l.122-126 *)
Definition next_index (m : mgr) : option nat := find (fun k => next_free m k =? 0) (seq 0 NIDX).

(** range(a, a + n) *)
Definition zrange (a : Z) (n : nat) : list Z := map (fun j => a + Z.of_nat j) (seq 0 n).

(** l.128-209 [_reserve_qblox_acq_bins] *)
Definition reserve (m : mgr) (n : Z) (k : nat) (ch : chan) (idxs : option (list Z)) (reps : Z) : result (mgr * Z) :=
  let nf := next_free m k in
  do (b, u) <-
    (match idxs with
     | None => match get ch (binned m) with
               | Some _ => Err ValueError
               | None => Ok (binned m, put ch k (unbinned m))
               end
     | Some is => match get ch (unbinned m) with
                  | Some _ => Err ValueError
                  | None =>
                     let new := map (fun p => (fst p, {| h_index := k; h_bin := snd p; h_stride := n |})) (combine is (zrange nf (Z.to_nat n))) in
                     let old := match get ch (binned m) with Some d => d | None => [] end in
                     Ok (put ch (fold_left (fun d p => put (fst p) (snd p) d) new old) (binned m), unbinned m)
                  end
     end);
  let nb := match get (Z.of_nat k) (decl m) with Some x => x | None => 0 end in
  Ok ({| decl := put (Z.of_nat k) (nb + n * reps) (decl m); binned := b; unbinned := u;
         next_free := fun j => if Nat.eqb j k then nf + n * reps else next_free m j;
         chan_index := chan_index m; trace_allocated := trace_allocated m |}, nf).

Definition set_chan (ch : chan) (k : nat) (m : mgr) : mgr :=
  {| decl := decl m; binned := binned m; unbinned := unbinned m; next_free := next_free m;
     chan_index := put ch k (chan_index m); trace_allocated := trace_allocated m |}.
Definition set_trace (m : mgr) : mgr :=
  {| decl := decl m; binned := binned m; unbinned := unbinned m; next_free := next_free m;
     chan_index := chan_index m; trace_allocated := true |}.

(** l.211-275 [allocate_bins]; [reps = None] counts as 1 *)
Definition allocate_bins (m : mgr) (ch : chan) (is : list Z) (reps : option Z) : result (mgr * (nat * Z)) :=
  let reps := match reps with Some r => r | None => 1 end in
  let k := match get ch (chan_index m) with Some k => Some k | None => next_index m end in
  match k with
  | None => Err IndexError
  | Some k =>
      if free_bins m k <? Z.of_nat (List.length is) then Err IndexError
      else do (m1, off) <- reserve m (Z.of_nat (List.length is)) k ch (Some is) reps;
           Ok (set_chan ch k m1, (k, off))
  end.

(** l.277-321 [allocate_qblox_index] *)
Definition allocate_qblox_index (m : mgr) (ch : chan) : result (mgr * nat) :=
  match get ch (chan_index m) with
  | Some k => Ok (m, k)
  | None =>
      match next_index m with
      | None => Err IndexError
      | Some k => do (m1, _) <- reserve m (free_bins m k) k ch None 1; Ok (set_chan ch k m1, k)
      end
  end.

(** l.323-376 [allocate_trace] *)
Definition allocate_trace (m : mgr) (ch : chan) : result (mgr * (nat * Z)) :=
  match get ch (chan_index m) with
  | Some k => Ok (m, (k, 0))
  | None =>
      if trace_allocated m then Err RuntimeError
      else match next_index m with
           | None => Err IndexError
           | Some k => do (m1, _) <- reserve m 1 k ch None 1; Ok (set_trace (set_chan ch k m1), (k, 0))
           end
  end.

(** l.378-454 [allocate_timetagtrace] *)
Definition allocate_timetagtrace (m : mgr) (ch : chan) (is : list Z) (reps : Z) : result (mgr * (nat * Z)) :=
  do k <- (match get ch (chan_index m) with
           | Some k => Ok k
           | None => if trace_allocated m then Err RuntimeError
                     else match next_index m with Some k => Ok k | None => Err IndexError end
           end);
  if free_bins m k <? Z.of_nat (List.length is) then Err IndexError
  else do (m1, off) <- reserve m (Z.of_nat (List.length is)) k ch (Some is) reps;
       Ok (set_trace (set_chan ch k m1), (k, off)).
