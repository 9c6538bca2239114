(** What the words of C58 mean. *)
From Verif Require Import Base DevModel.
Local Open Scope string_scope.

(** no tuple anywhere in the value *)
Inductive plain : val -> Prop :=
  | plain_int z : plain (VInt z) | plain_num q : plain (VNum q) | plain_nan : plain VNan | plain_bool b : plain (VBool b)
  | plain_str s : plain (VStr s) | plain_none : plain VNone
  | plain_arr l : Forall plain l -> plain (VArr l)
  | plain_list l : Forall plain l -> plain (VList l).

(** the value of a parameter of an instrument *)
Definition value (x : instr) (s p : string) : option val := match lookup s (isubs x) with Some y => lookup p (direct y) | None => None end.
(** [x.s.reference_magnitude], if the submodule has one *)
Definition reference_of (x : instr) (s : string) : option refmag := match lookup s (isubs x) with Some y => refm y | None => None end.

(** What can be written to JSON and read back: no tuples, and port names that are not empty *)
Definition savable (x : instr) : Prop :=
  (forall s p v, value x s p = Some v -> plain v) /\
  (forall p v, value x "ports" p = Some v -> exists t, v = VStr t /\ t <> "").

(** Same class, same identity, same submodules with the same parameters, in the same order, with the same values *)
Definition same_settings (x y : instr) : Prop :=
  icls x = icls y /\ iid x = iid y /\ map (fun ns => (fst ns, direct (snd ns))) (isubs x) = map (fun ns => (fst ns, direct (snd ns))) (isubs y).
Definition undefined : refmag := {| dBm := VNan; V := VNan; A := VNan |}.
(** no reference magnitude has a value *)
Definition no_reference (x : instr) : Prop := forall s r, reference_of x s = Some r -> r = undefined.

(** the instruments a device names *)
Definition members (d : device) : list string := (elements d ++ edges d)%list.
