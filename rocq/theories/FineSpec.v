(** What a user says about fine delays. *)
From Verif Require Import Base NumericModel FineModel.
Local Open Scope Q_scope.

(** The instant of an instruction in units of 1/128 ns *)
Definition instant (i : Z * Z) : Z := (fst i * 128 + snd i)%Z.
(** Two instants (1/128 ns) that the hardware can tell apart: a whole number of ns between them or at least 7 ns *)
Definition apart (x y : Z) : Prop := (128 | y - x)%Z \/ (7 * 128 <= y - x)%Z.
(** A fine delay that the hardware can represent: a multiple of 1/128 ns *)
Definition representable (x : Q) : Prop := exists k : Z, x == inject_Z k / 128.
Definition exact (o : op) : Prop := representable (fine_start o) /\ representable (fine_end o).
Definition exactly (l : list op) : Prop := forall o, In o l -> exact o.
Definition kind_eqb (a b : kind) : bool := match a, b with Pulse, Pulse | Acq, Acq | Other, Other => true | _, _ => false end.
(** Instants (1/128 ns) at which an operation starts and ends, as the user wrote them *)
Definition fine (x : Q) : Z := py_round (x * 128).
Definition begins (o : op) : Z := (py_round (start o) * 128 + fine (fine_start o))%Z.
Definition finishes (o : op) : Z := ((py_round (start o) + py_round (dur o)) * 128 + fine (fine_end o))%Z.
Definition instants (k : kind) (l : list op) : list Z := flat_map (fun o => if kind_eqb (knd o) k then [begins o; finishes o] else []) l.
(** neighbours in a list *)
Definition neighbours {A} (R : A -> A -> Prop) (l : list A) : Prop := forall a x y b, l = (a ++ x :: y :: b)%list -> R x y.
(** all pairs, in their order *)
Definition pairs {A} (R : A -> A -> Prop) (l : list A) : Prop := forall a x b y c, l = (a ++ x :: b ++ y :: c)%list -> R x y.
(** the instants at which the instructions of the operations of a kind take effect *)
Definition executed (k : kind) (l : list op) : result (list Z) := do is <- mapM instructions (filter (fun o => kind_eqb (knd o) k) l); Ok (map instant (List.concat is)).
(** the schedule again, [t] ns later *)
Definition again (t : Q) (o : op) : op := {| knd := knd o; start := start o + t; dur := dur o; fine_start := fine_start o; fine_end := fine_end o |}.
