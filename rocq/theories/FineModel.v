(** Model of fine delays on a QTM: the check before compilation (backends/qblox/timetag.py l.158-240, called at l.114) and the instructions with a fine delay
    (operation_handling/pulses.py l.331-375, acquisitions.py l.431-480, compiler_abc.py l.1069-1124, helpers.py l.1551-1563).
    Times are in ns (rationals in place of floats). *)
From Verif Require Import Base NumericModel.
Local Open Scope Q_scope.

(** [Pulse]: DigitalPulseStrategy; [Acq]: TimetagAcquisitionStrategy (and its subclass); [Other]: anything else *)
Inductive kind := Pulse | Acq | Other.
Record op := { knd : kind; start : Q; dur : Q; fine_start : Q; fine_end : Q }.
(** constants.py l.116-130 *)
Definition MIN_PS : Z := 7000.
Definition RATIO : Z := 128.
Definition MAX_INT : Z := 2047.
(** timetag.py l.188-195: picoseconds; durations and times through whole ns *)
Definition ps (x : Q) : Z := py_round (x * 1000).
Definition grid_ps (x : Q) : Z := (py_round x * 1000)%Z.
Definition start_ps (o : op) : Z := (grid_ps (start o) + ps (fine_start o))%Z.
Definition end_ps (o : op) : Z := (grid_ps (start o) + grid_ps (dur o) + ps (fine_end o))%Z.
(** l.197-201 *)
Definition bad_within (o : op) : bool :=
  negb ((ps (fine_end o) - ps (fine_start o)) mod 1000 =? 0)%Z && (grid_ps (dur o) + ps (fine_end o) - ps (fine_start o) <? MIN_PS)%Z.
(** l.213-217, l.232-236 *)
Definition bad_between (last : Z) (o : op) : bool :=
  negb ((last - ps (fine_start o)) mod 1000 =? 0)%Z && (grid_ps (start o) + ps (fine_start o) - last <? MIN_PS)%Z.
Fixpoint check_from (pulse acq : Z) (l : list op) : result unit :=
  match l with
  | [] => Ok tt
  | o :: r => match knd o with
              | Other => check_from pulse acq r
              | Pulse => if bad_within o then Err OtherErr else if bad_between pulse o then Err OtherErr else check_from (end_ps o) acq r
              | Acq => if bad_within o then Err OtherErr else if bad_between acq o then Err OtherErr else check_from pulse (end_ps o) r
              end
  end.
Definition check (l : list op) : result unit := check_from (- MIN_PS) (- MIN_PS) l.

(** helpers.py l.1551-1563 *)
Definition to_int (x : Q) : result Z := let k := py_round (x * 128) in if (0 <=? k)%Z && (k <=? MAX_INT)%Z then Ok k else Err ValueError.
(** The instructions with a fine delay of an operation, with the time (ns) at which the sequencer reaches them: set_digital 1 at the start of a pulse and set_digital 0 at its end;
    acquire_timetags 1 at the start of an acquisition, 4 ns, a wait of the duration minus 8 ns, then acquire_timetags 0.  Simplified: times are on the 1 ns grid. *)
Definition instructions (o : op) : result (list (Z * Z)) :=
  match knd o with
  | Other => Ok []
  | Pulse => do s <- to_int (fine_start o); do e <- to_int (fine_end o); Ok [(py_round (start o), s); ((py_round (start o) + py_round (dur o))%Z, e)]
  | Acq => do s <- to_int (fine_start o); do e <- to_int (fine_end o); Ok [(py_round (start o), s); ((py_round (start o) + 4 + (py_round (dur o) - 8))%Z, e)]
  end.
