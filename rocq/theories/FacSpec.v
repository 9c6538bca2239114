(** C62: what a measurement plays and acquires, and when. *)
From Verif Require Import Base DevModel DevConf TimingModel FacModel.
Local Open Scope string_scope.

(** [Plays d o t e s]: the operation [d], timed as [o] and started at the time [t], has the pulse or acquisition [e] at the time [s] *)
Inductive Plays : dop -> op -> Q -> dict -> Q -> Prop :=
  | Plays_entry : forall n ps qs v dur dl t e t0 s, In e (ps ++ qs)%list -> fl (at_ e "t0") = Ok (Some t0) -> s == t + t0 -> Plays (DOp n ps qs) (OLeaf v dur dl) t e s
  | Plays_item : forall dl items dur dl' reps its k d pt rel i a t e s,
      nth_error items k = Some (d, pt, rel) -> nth_error its k = Some i -> it_abs i = Some a -> Plays d (it_op i) (t + a) e s -> Plays (DSched dl items) (OSched dur dl' reps its) t e s
  | Plays_round : forall n b b' D k t e s, (0 <= k < n)%Z -> op_dur b' = Some D -> Plays b b' (t + inject_Z k * D) e s -> Plays (DLoop n b) (OLoop n b') t e s.

(** the entry has these values for these keys *)
Definition fields (e : dict) (l : dict) : Prop := Forall (fun kv => lookup (fst kv) e = Some (snd kv)) l.
(** [D] is the greatest of 0 and the ends *)
Definition lasts_until (D : Q) (ends : list Q) : Prop := 0 <= D /\ (forall q, In q ends -> q <= D) /\ (D == 0 \/ exists q, In q ends /\ D == q).
