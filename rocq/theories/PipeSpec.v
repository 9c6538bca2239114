(** What a user relies on: a compilation is the passes of the device, then those of the hardware, each once, in order, each on the outcome of the one before. *)
From Verif Require Import Base PipeModel.
Section Spec.
  Variable settings : Type.
  (** the schedule, seen as a value, through a list of passes *)
  Fixpoint through (l : list (pass settings)) (s : settings) (o : sobj) : result sobj :=
    match l with
    | [] => Ok o
    | p :: r => let '(o', out) := p o s in match out with Raises e => Err e | Same => through r s o' | New n => through r s n end
    end.
  Definition finished (o : sobj) : sobj := {| data := data o; instructions := instructions o; is_compiled := true |}.
  Definition compilation (dev hw : list (pass settings)) (s : settings) (o : sobj) : result sobj :=
    do r <- through (dev ++ hw) s {| data := data o; instructions := 0; is_compiled := is_compiled o |}; Ok (finished r).
End Spec.
