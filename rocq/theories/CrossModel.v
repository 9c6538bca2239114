(** Model of backends/qblox/crosstalk_compensation.py. *)
From Verif Require Import Base.
Open Scope Z_scope.

(** Complex numbers with rational parts (floats are taken as exact numbers) *)
Definition C := (Q * Q)%type.
Definition c0 : C := (0%Q, 0%Q).
Definition c1 : C := (1%Q, 0%Q).
Definition cadd (a b : C) : C := (fst a + fst b, snd a + snd b)%Q.
Definition cmul (a b : C) : C := (fst a * fst b - snd a * snd b, fst a * snd b + snd a * fst b)%Q.
Definition is_zero (a : C) : bool := Qeq_bool (fst a) 0 && Qeq_bool (snd a) 0.

(** An entry of an operation's [pulse_info]: port-clock, amplitude parameters (one number scaling the waveform), whether the entry has parameters with "amp" in their name
    (a NumericalPulse has none, pulse_library.py l.1093-1105), whether wf_func is set, and all the rest (duration, shape, t0, ...) *)
Record pinfo := { p_pc : string; p_amp : C; p_scales : bool; p_wf : bool; p_rest : Z }.
(** An operation: its own pulse_info, and for a control-flow operation the pulses its body plays (which are not in [data["pulse_info"]]) *)
Record op := { o_infos : list pinfo; o_body : list pinfo }.
(** Keys of [schedule.schedulables]: labels given by the user and the keys made in l.176 *)
Inductive label := User (s : string) | Comp (h : Z) (i : nat).
Definition label_eqb (a b : label) : bool :=
  match a, b with User s, User s' => String.eqb s s' | Comp h i, Comp h' i' => (h =? h') && (i =? i')%nat | _, _ => false end.
Record entry := { e_op : Z; e_time : Z }.
Record sched := { s_ops : list (Z * op); s_schs : list (label * entry) }.

(** Python dictionaries: lookup, and assignment (which keeps the position of an existing key) *)
Fixpoint get {K V} (eqb : K -> K -> bool) (k : K) (d : list (K * V)) : option V :=
  match d with [] => None | (k', v) :: r => if eqb k k' then Some v else get eqb k r end.
Fixpoint set {K V} (eqb : K -> K -> bool) (k : K) (v : V) (d : list (K * V)) : list (K * V) :=
  match d with [] => [(k, v)] | (k', v') :: r => if eqb k k' then (k', v) :: r else (k', v') :: set eqb k v r end.

(** l.67-71 [_get_unique_port_clocks]; the sorting is left out, the order does not matter *)
Definition port_clocks (crosstalk : list (string * list (string * C))) : list string :=
  nodup string_dec (map fst crosstalk ++ flat_map (fun '(_, cs) => map fst cs) crosstalk).
(** list.index *)
Fixpoint index (l : list string) (s : string) : result nat :=
  match l with [] => Err ValueError | x :: r => if String.eqb s x then Ok O else do i <- index r s; Ok (S i) end.
(** l.80-92 [_construct_crosstalk_matrix]: the identity with the given values *)
Definition matrix := nat -> nat -> C.
Definition eye : matrix := fun i j => if (i =? j)%nat then c1 else c0.
Definition mset (m : matrix) (i j : nat) (v : C) : matrix := fun a b => if ((a =? i) && (b =? j))%nat then v else m a b.
Definition crosstalk_matrix (crosstalk : list (string * list (string * C))) (pcl : list string) : result matrix :=
  foldM (fun m '(src, cs) => foldM (fun m '(dest, v) => do i <- index pcl src; do j <- index pcl dest; Ok (mset m i j v)) cs m) crosstalk eye.

Section Hash.
(** content hash of an operation (operation.py l.128-129, l.160-166) *)
Variable hash : op -> Z.

(** l.95-113 *)
Definition is_pulse (o : op) : bool := match o_infos o with p :: _ => p_wf p | [] => false end.
(** l.141-145, l.159-171: scaling the amplitudes of the first pulse_info *)
Definition scale (v : C) (p : pinfo) : pinfo :=
  {| p_pc := p_pc p; p_amp := if p_scales p then cmul (p_amp p) v else p_amp p; p_scales := p_scales p; p_wf := p_wf p; p_rest := p_rest p |}.
Definition retarget (pc : string) (p : pinfo) : pinfo := {| p_pc := pc; p_amp := p_amp p; p_scales := p_scales p; p_wf := p_wf p; p_rest := p_rest p |}.
Definition on_first (f : pinfo -> pinfo) (o : op) : op := {| o_infos := match o_infos o with p :: r => f p :: r | [] => [] end; o_body := o_body o |}.
Definition comp_op (o : op) (pc : string) (v : C) : op := on_first (fun p => scale v (retarget pc p)) o.

(** l.148-178 [_add_compensation_operation] *)
Definition add_compensation (s : sched) (o : op) (e : entry) (pc : string) (v : C) (i : nat) : sched :=
  let c := comp_op o pc v in
  {| s_ops := set Z.eqb (hash c) c (s_ops s); s_schs := set label_eqb (Comp (hash o) i) {| e_op := hash c; e_time := e_time e |} (s_schs s) |}.
(** the indices for which the loop l.129-138 adds a pulse *)
Definition targets (M : matrix) (k n : nat) : list nat := filter (fun i => negb (is_zero (M k i)) && negb (i =? k)%nat) (seq 0 n).
(** l.116-145 [_apply_compensation_to_operation]. The operation object is changed in place, so its entry in the dictionary changes unless the loop replaced that entry by another object. *)
Definition apply_compensation (s : sched) (o : op) (e : entry) (pcl : list string) (M : matrix) : result sched :=
  match o_infos o with
  | [] => Err IndexError
  | p :: _ =>
      do k <- index pcl (p_pc p);
      let ts := targets M k (List.length pcl) in
      let s := fold_left (fun s i => add_compensation s o e (nth i pcl EmptyString) (M k i) i) ts s in
      let replaced := existsb (fun i => hash (comp_op o (nth i pcl EmptyString) (M k i)) =? e_op e) ts in
      Ok (if replaced then s else {| s_ops := set Z.eqb (e_op e) (on_first (scale (M k k)) o) (s_ops s); s_schs := s_schs s |})
  end.
(** l.43-64 [crosstalk_compensation] of a schedule without nested schedules, for an inverse M of the crosstalk matrix (np.linalg.inv) *)
Definition compensate (s : sched) (pcl : list string) (M : matrix) : result sched :=
  foldM (fun s '(_, e) =>
    match get Z.eqb (e_op e) (s_ops s) with
    | None => Err KeyError
    | Some o => if is_pulse o then apply_compensation s o e pcl M else Ok s
    end) (s_schs s) s.
End Hash.
