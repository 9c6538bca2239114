(** Waveform tables and waveform resizing. *)
From Verif Require Import Base NumericModel.
Open Scope Q_scope.

Definition waveform := list Q.

(** [wf_data.round(decimals=12)]: backends/qblox/helpers.py l.132 *)
Definition round12 (w : waveform) : list Z := map (fun x => py_round (x * 1000000000000)) w.

Section WfDict.
(** Python's [hash] of the bytes of the rounded waveform (helpers.py l.113-132), any function *)
Variable hash : list Z -> Z.

Record entry := { key : Z; data : waveform; index : nat }.

Definition uuid (w : waveform) : Z := hash (round12 w).

(** helpers.py l.161-167 [find_first_free_wf_index]; [fuel] = number of entries + 1 always suffices *)
Fixpoint first_free (fuel index0 : nat) (d : list entry) : nat :=
  match fuel with
  | O => index0
  | S f => if existsb (fun e => Nat.eqb (index e) index0) d then first_free f (S index0) d else index0
  end.

(** helpers.py l.135-181 [add_to_wf_dict_if_unique] (real waveforms): the dictionary is kept in insertion order *)
Definition add_wf (d : list entry) (w : waveform) : list entry * nat :=
  match find (fun e => Z.eqb (key e) (uuid w)) d with
  | Some e => (d, index e)
  | None => let i := first_free (S (List.length d)) 0 d in (d ++ [{| key := uuid w; data := w; index := i |}], i)
  end.

Fixpoint add_all (d : list entry) (ws : list waveform) : list entry * list nat :=
  match ws with
  | [] => (d, [])
  | w :: r => let '(d1, i) := add_wf d w in let '(d2, is) := add_all d1 r in (d2, i :: is)
  end.
End WfDict.

(** helpers.py l.92-110 and l.180-222 [generate_waveform_dict]: (name, data, index) in order; a complex
    waveform is a pair of real ones *)
Fixpoint gen_wf_dict (k : nat) (l : list (string * (waveform * waveform))) : list (string * (waveform * nat)) :=
  match l with
  | [] => []
  | (u, (re, im)) :: r => ((u ++ "_I")%string, (re, (2 * k)%nat)) :: ((u ++ "_Q")%string, (im, (2 * k + 1)%nat)) :: gen_wf_dict (S k) r
  end.

(** ** helpers/waveforms.py *)
(** l.44-60 [get_waveform_size] *)
Definition get_waveform_size (len granularity : Z) : result Z :=
  do size <- (if negb (Z.eqb (len mod granularity) 0) then closest_number_ceil len granularity else Ok len);
  Ok (Z.max size granularity).

(** l.80-108 [resize_waveform] *)
Definition resize_waveform (w : waveform) (granularity : Z) : result waveform :=
  let size := Z.of_nat (List.length w) in
  if Z.eqb size 0 then Ok (repeat 0 (Z.to_nat granularity))
  else if Z.eqb (size mod granularity) 0 then Ok w
  else do c <- closest_number_ceil size granularity; Ok (w ++ repeat 0 (Z.to_nat (c - size))).

(** l.111-158 [shift_waveform]; [start]: start_in_seconds * sampling_rate *)
Definition shift_waveform (w : waveform) (start : Q) (resolution : Z) : Z * waveform :=
  let n := py_round start in
  let sh := (n mod resolution)%Z in
  if Z.eqb sh 0 then ((n / resolution)%Z, w) else ((n / resolution)%Z, repeat 0 (Z.to_nat sh) ++ w).
