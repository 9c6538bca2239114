(** C45: storing schedules and operations as JSON.
    Model of quantify_scheduler/json_utils.py (SchedulerJSONEncoder, SchedulerJSONDecoder, JSONSerializable),
    of the [__getstate__]/[__setstate__] methods of the classes found in a schedule, of
    helpers/importers.py and of [make_hash] in helpers/collections.py.

    Python's own [json] module is modelled at the level of JSON trees: the text produced by [json.dumps]
    and parsed by [json.loads] is one JSON tree (its printer and parser are trusted to be inverse). *)
From Coq Require Import DecimalString Ascii.
From Verif Require Import Base PathModel.
Open Scope string_scope.
Open Scope list_scope.

(** * Values *)

(** A binary64 float: a finite number, an infinity, or a not-a-number object (with an identity, because
    Python hashes NaN by identity).  Simplification: the sign of zero is not kept. *)
Inductive flt := Fin (q : Q) | Inf (neg : bool) | Nan (id : nat).

(** A Python class: [__module__] and [__name__]. *)
Record cls := Cls { cmod : string; cname : string }.
Definition cls_eqb (a b : cls) : bool := ((cmod a =? cmod b) && (cname a =? cname b))%string.

(** Python values that occur in schedules.  Objects carry their class and their attributes ([__dict__]). *)
Inductive val :=
  | VNone
  | VBool (b : bool)
  | VInt (z : Z)
  | VFloat (np : bool) (f : flt)              (* float; [np = true] for numpy.float64, a subclass of float *)
  | VStr (s : string)
  | VStrEnum (c : cls) (s : string)           (* member with value [s] of an enumeration derived from str *)
  | VEnum (c : cls) (m : string)              (* member [m] of a plain enum.Enum *)
  | VNpInt (wide : bool) (z : Z)              (* numpy.int64 ([true]) or numpy.int32 scalar *)
  | VComplex (np : bool) (re im : flt)        (* complex, or numpy.complex128 *)
  | VOpaque (ty repr : string)                (* no [__dict__], no own [__getstate__]: set, bytes, numpy.float32, numpy.bool_, ... *)
  | VArr (l : list val)                       (* numpy.ndarray: what list(array) gives *)
  | VType (c : cls)                           (* a class object *)
  | VList (l : list val)
  | VTuple (l : list val)
  | VDict (kvs : list (val * val))            (* insertion ordered *)
  | VObj (c : cls) (attrs : list (string * val)).

(** JSON trees. *)
Inductive json :=
  | JNull | JBool (b : bool) | JInt (z : Z) | JFloat (f : flt) | JStr (s : string)
  | JArr (l : list json) | JObj (kvs : list (string * json)).

(** How a class serialises itself, i.e. which [__getstate__]/[__setstate__] pair it has. *)
Inductive kind :=
  | KOperation      (* operations/operation.py l.106-127 (all operations inherit it) *)
  | KSchedule       (* schedules/schedule.py l.658-677 *)
  | KCompiled       (* schedules/schedule.py l.1131-1175 *)
  | KData           (* Schedulable schedule.py l.955-962; Resource resources.py l.66-73 *)
  | KInstructions   (* CompiledInstructions backends/qblox/schedule.py l.123-130 *)
  | KTiming         (* TimingConstraint schedule.py l.965-996 *)
  | KRefMag         (* ReferenceMagnitude operations/pulse_library.py l.18-46 *)
  | KPlain.         (* any other object with a [__dict__]: no own [__getstate__] *)

(** The world in which the code runs: the Python version, what the importable modules contain, the classes
    found by the deprecated lookup (json_utils.py l.313-358), the kind of each class, the text of floats
    and of complex numbers, and the hash functions. *)
Record world := World {
  w_py311 : bool;
  w_import : string -> string -> option cls;
  w_legacy : string -> option cls;
  w_kind : cls -> kind;
  w_float_repr : flt -> string;
  w_complex_str : flt -> flt -> string;
  w_complex_of : string -> option (flt * flt);
  w_hstr : string -> Z;
  w_hnum : Q -> Z;
  w_hinf : bool -> Z;
  w_hnan : nat -> Z;
  w_hother : val -> Z;
  w_htuple : list Z -> Z;
  w_hdict : list (Z * Z) -> Z }.

Definition mapR {A B} (f : A -> result B) : list A -> result (list B) :=
  fix go l := match l with [] => Ok [] | x :: r => do y <- f x; do ys <- go r; Ok (y :: ys) end.

(** * Dictionaries with arbitrary keys *)

(** The rational value of a number that can be a key. *)
Definition num (v : val) : option Q :=
  match v with
  | VBool b => Some (inject_Z (if b then 1 else 0))
  | VInt z => Some (inject_Z z)
  | VNpInt _ z => Some (inject_Z z)
  | VFloat _ (Fin q) => Some q
  | _ => None
  end.

(** The text of a str (a member of a str enumeration is one). *)
Definition text (v : val) : option string :=
  match v with VStr s => Some s | VStrEnum _ s => Some s | _ => None end.

(** Python's [==] on dictionary keys.  Simplification: objects and opaque values are only ever equal to
    themselves and are never compared here. *)
Fixpoint key_eqb (a b : val) : bool :=
  match a, b with
  | VNone, VNone => true
  | VTuple l, VTuple l' =>
      (fix go (x y : list val) := match x, y with [], [] => true | u :: x', v :: y' => key_eqb u v && go x' y' | _, _ => false end) l l'
  | VFloat _ (Inf n), VFloat _ (Inf m) => Bool.eqb n m
  | _, _ =>
      match text a, text b with
      | Some s, Some t => (s =? t)%string
      | _, _ => match num a, num b with Some p, Some q => Qeq_bool p q | _, _ => false end
      end
  end.

(** [d[k]], [d[k] = v]: an existing key keeps its place. *)
Fixpoint dget (k : val) (d : list (val * val)) : option val :=
  match d with [] => None | (k', v) :: r => if key_eqb k' k then Some v else dget k r end.
Fixpoint dput (k v : val) (d : list (val * val)) : list (val * val) :=
  match d with [] => [(k, v)] | (k', v') :: r => if key_eqb k' k then (k', v) :: r else (k', v') :: dput k v r end.
Definition dict_of (ps : list (val * val)) : list (val * val) := fold_left (fun d p => dput (fst p) (snd p) d) ps [].
Definition dhas (k : string) (d : list (val * val)) : bool := match dget (VStr k) d with Some _ => true | None => false end.

(** Attributes. *)
Fixpoint aget (k : string) (d : list (string * val)) : option val :=
  match d with [] => None | (k', v) :: r => if (k' =? k)%string then Some v else aget k r end.
Fixpoint aput (k : string) (v : val) (d : list (string * val)) : list (string * val) :=
  match d with [] => [(k, v)] | (k', v') :: r => if (k' =? k)%string then (k', v) :: r else (k', v') :: aput k v r end.
Definition attr (k : string) (d : list (string * val)) : result val :=
  match aget k d with Some v => Ok v | None => Err OtherErr (* AttributeError *) end.
Definition item (k : string) (d : list (val * val)) : result val :=
  match dget (VStr k) d with Some v => Ok v | None => Err KeyError end.
Definition as_dict (v : val) : result (list (val * val)) := match v with VDict d => Ok d | _ => Err TypeError end.

(** [isinstance(v, (dict, UserDict))]: the dictionary behind a dict or behind one of the UserDict classes. *)
Definition mapping (w : world) (v : val) : option (list (val * val)) :=
  match v with
  | VDict d => Some d
  | VObj c a =>
      match w_kind w c with
      | KOperation | KSchedule | KCompiled | KData | KInstructions => match aget "data" a with Some (VDict d) => Some d | _ => None end
      | _ => None
      end
  | _ => None
  end.

(** * Hashes: helpers/collections.py l.17-53 and the [__hash__] methods of the classes *)

Definition all_b {A} (f : A -> bool) (l : list A) : bool := forallb f l.

(** [sorted(tuple_of_hashes)]: the keys are pairwise different, so they decide; str keys compare with str
    keys and numbers with numbers.  Simplification: keys that are all tuples count as comparable. *)
Definition sortable (ks : list val) : bool :=
  match ks with
  | [] | [_] => true
  | _ => all_b (fun k => match text k with Some _ => true | None => false end) ks
         || all_b (fun k => match num k with Some _ => true | None => false end) ks
         || all_b (fun k => match k with VTuple _ => true | _ => false end) ks
  end.

(** [hash(x)] of a value that is not a collection.  Python's numbers hash by value, and a member of a str
    enumeration hashes as its str. *)
Definition hash_leaf (w : world) (v : val) : Z :=
  match text v with
  | Some s => w_hstr w s
  | None =>
      match num v with
      | Some q => w_hnum w (Qred q)
      | None => match v with VFloat _ (Inf n) => w_hinf w n | VFloat _ (Nan i) => w_hnan w i | _ => w_hother w v end
      end
  end.

(** collections.py l.17-53.  [hash(frozenset(...))] does not depend on the order of the pairs; here it is
    applied to them in dictionary order.  [hash(obj)] of an object is its class's [__hash__]:
    operation.py l.128-129, schedule.py l.167-168, 943-944, 986-987, resources.py l.75-76, pulse_library.py
    l.36-37.  A dataclass without [__hash__] and CompiledInstructions (a Mapping) are unhashable. *)
Fixpoint make_hash (w : world) (v : val) {struct v} : result Z :=
  match v with
  | VList l => do hs <- mapR (make_hash w) l; Ok (w_htuple w hs)
  | VTuple l => do hs <- mapR (make_hash w) l; Ok (w_htuple w hs)
  | VDict d =>
      do hs <- mapR (fun p => do h <- make_hash w (snd p); Ok (hash_leaf w (fst p), h)) d;
      if sortable (map fst d) then Ok (w_hdict w hs) else Err TypeError
  | VObj c a =>
      let hs := map (fun p => (fst p, make_hash w (snd p))) a in
      let at_ k := match find (fun p => (fst p =? k)%string) hs with Some (_, h) => h | None => Err OtherErr end in
      match w_kind w c with
      | KOperation | KSchedule | KCompiled | KData => at_ "data"
      | KTiming => do fs <- mapR (fun p => do h <- snd p; Ok (w_hstr w (fst p), h)) hs; Ok (w_hdict w fs)
      | KRefMag => do v' <- at_ "value"; do u <- at_ "unit"; Ok (w_htuple w [v'; u])
      | KInstructions | KPlain => Err TypeError
      end
  | _ => Ok (hash_leaf w v)
  end.

(** * Encoding *)

(** helpers/importers.py l.33-58. *)
Definition export_path (c : cls) : string :=
  if (cmod c =? "__main__")%string then cname c else (cmod c ++ "." ++ cname c)%string.

(** json_utils.py l.38-49. *)
Definition py (n : string) : cls := Cls "builtins" n.
Definition np (n : string) : cls := Cls "numpy" n.
Definition DEFAULT_TYPES : list cls :=
  [py "complex"; py "float"; py "int"; py "bool"; py "str"; np "ndarray"; np "complex128"; np "int32"; np "uint32"; np "int64"].

Definition state2 (ty data : val) : val := VDict [(VStr "deserialization_type", ty); (VStr "data", data)].
Definition state3 (ty : string) (data : val) : val :=
  VDict [(VStr "deserialization_type", VStr ty); (VStr "mode", VStr "__init__"); (VStr "data", data)].

Definition dec_Z (z : Z) : string := NilZero.string_of_int (Z.to_int z).
Definition Z_of_dec (s : string) : option Z := match NilZero.int_of_string s with Some d => Some (Z.of_int d) | None => None end.

(** ["acq_channels_data" in component] for the values that can be a component. *)
Definition contains_key (w : world) (k : string) (v : val) : result bool :=
  match mapping w v with
  | Some d => Ok (dhas k d)
  | None =>
      match v with
      | VStr s | VStrEnum _ s => Ok (contains k s)
      | VList l | VTuple l => Ok (existsb (fun x => key_eqb x (VStr k)) l)
      | _ => Err TypeError                      (* argument of type ... is not iterable *)
      end
  end.

(** The value [v[k]] of a dict or UserDict. *)
Definition lookup (w : world) (k : string) (v : val) : result val :=
  match mapping w v with Some d => item k d | None => Err TypeError end.
(** The copy of [v] with [v[k] = x] ([copy.copy] of a dict or of a UserDict copies the dictionary). *)
Definition with_item (w : world) (k : string) (x : val) (v : val) : result val :=
  match v with
  | VDict d => Ok (VDict (dput (VStr k) x d))
  | VObj c a => match mapping w v with Some d => Ok (VObj c (aput "data" (VDict (dput (VStr k) x d)) a)) | None => Err TypeError end
  | _ => Err TypeError
  end.

(** schedule.py l.658-666. *)
Definition getstate_schedule (c : cls) (a : list (string * val)) : result val :=
  do data <- attr "data" a; do d <- as_dict data;
  do s <- item "schedulables" d; do sd <- as_dict s;
  Ok (state2 (VStr (export_path c)) (VDict (dput (VStr "schedulables") (VList (map (fun p => VTuple [fst p; snd p]) sd)) d))).

(** schedule.py l.1138-1155: the loop body, for one component. *)
Definition getstate_component (w : world) (comp : val) : result val :=
  do has <- contains_key w "acq_channels_data" comp;
  if has then
    do acd <- lookup w "acq_channels_data" comp; do d <- as_dict acd;
    with_item w "acq_channels_data" (VList (map (fun p => VDict [(VStr "key", fst p); (VStr "value", snd p)]) d)) comp
  else Ok comp.

(** The values of a dict or UserDict replaced, in place. *)
Definition with_values (w : world) (f : val -> result val) (v : val) : result val :=
  match mapping w v with
  | Some d =>
      do d' <- mapR (fun p => do x <- f (snd p); Ok (fst p, x)) d;
      match v with VObj c a => Ok (VObj c (aput "data" (VDict d') a)) | _ => Ok (VDict d') end
  | None => Err OtherErr                        (* AttributeError: no .items() *)
  end.

(** schedule.py l.1131-1156. *)
Definition getstate_compiled (w : world) (c : cls) (a : list (string * val)) : result val :=
  do st <- getstate_schedule c a;
  do std <- as_dict st; do data <- item "data" std; do d <- as_dict data;
  do ci <- item "compiled_instructions" d;
  do ci' <- with_values w (getstate_component w) ci;
  Ok (state2 (VStr (export_path c)) (VDict (dput (VStr "compiled_instructions") ci' d))).

(** [__getstate__] of an object.  operation.py l.106-110, schedule.py l.955-959, resources.py l.66-70,
    qblox/schedule.py l.126-130; TimingConstraint schedule.py l.975-977, 989-993; ReferenceMagnitude
    pulse_library.py l.43-46 (the class path is stored among the attributes themselves);
    any other object: object.__getstate__ (Python 3.11: None if there are no attributes) or [__dict__]. *)
Definition getstate (w : world) (c : cls) (a : list (string * val)) : result val :=
  match w_kind w c with
  | KOperation | KData | KInstructions => do d <- attr "data" a; Ok (state2 (VStr (export_path c)) d)
  | KSchedule => getstate_schedule c a
  | KCompiled => getstate_compiled w c a
  | KTiming =>
      do r <- attr "ref_schedulable" a; do p <- attr "ref_pt" a; do n <- attr "ref_pt_new" a; do t <- attr "rel_time" a;
      Ok (state2 (VStr (export_path c))
            (VDict [(VStr "ref_schedulable", r); (VStr "ref_pt", p); (VStr "ref_pt_new", n); (VStr "rel_time", t)]))
  | KRefMag => Ok (VDict (map (fun p => (VStr (fst p), snd p)) (aput "deserialization_type" (VStr (export_path c)) a)))
  | KPlain => match a with [] => Ok (if w_py311 w then VNone else VDict []) | _ => Ok (VDict (map (fun p => (VStr (fst p), snd p)) a)) end
  end.

Definition type_name (v : val) : string :=
  match v with
  | VEnum c _ | VStrEnum c _ | VObj c _ => cname c
  | VNpInt true _ => "int64" | VNpInt false _ => "int32"
  | VComplex true _ _ => "complex128" | VComplex false _ _ => "complex"
  | VOpaque t _ => t
  | VArr _ => "ndarray"
  | VType _ => "type"
  | _ => "object"
  end.

(** json_utils.py l.370-425, the body of the [try].  The test [o in DEFAULT_TYPES] (l.399) compares [o] with
    each type; for an operation [==] takes its hash (operation.py l.79-92), which may raise.
    Not modelled: objects with [__json_getstate__] (instruments) and pydantic models. *)
Definition default_try (w : world) (o : val) : result val :=
  match o with
  | VComplex _ re im => Ok (state3 (type_name o) (VStr (w_complex_str w re im)))
  | VNpInt _ z => Ok (state3 (type_name o) (VStr (dec_Z z)))
  | VEnum c m => Ok (state3 (cname c) (VStr (cname c ++ "." ++ m)%string))
  | VArr l => Ok (state3 "ndarray" (VList l))
  | VType c =>
      if existsb (cls_eqb c) DEFAULT_TYPES then Ok (VDict [(VStr "deserialization_type", VStr (cname c)); (VStr "mode", VStr "type")])
      else Ok (VDict [(VStr "deserialization_type", VStr "type"); (VStr "mode", VStr "type");
                      (VStr "data", VStr (cmod c ++ "." ++ cname c)%string)])
  | VObj c a => do _ <- match w_kind w c with KOperation => make_hash w o | _ => Ok 0%Z end; getstate w c a
  | VOpaque _ r => Ok (if w_py311 w then VNone else VDict [(VStr "string_representation", VStr r)])
  | _ => Err TypeError
  end.

(** json_utils.py l.426-428: every exception is swallowed. *)
Definition default (w : world) (o : val) : val :=
  match default_try w o with
  | Ok v => v
  | Err _ => VDict [(VStr "unserializable_object", VBool true); (VStr "type", VStr (type_name o))]
  end.

(** Python's json: the text of a dictionary key. *)
Definition json_key (w : world) (k : val) : result string :=
  match k with
  | VStr s | VStrEnum _ s => Ok s
  | VFloat _ f => Ok (w_float_repr w f)
  | VBool b => Ok (if b then "true" else "false")
  | VNone => Ok "null"
  | VInt z => Ok (dec_Z z)
  | _ => Err TypeError                          (* keys must be str, int, float, bool or None *)
  end.

(** A NaN has no identity in a document. *)
Definition anon (f : flt) : flt := match f with Nan _ => Nan 0 | _ => f end.

(** Python's json.dumps(v, cls=SchedulerJSONEncoder), with [n] the recursion limit. *)
Fixpoint encode (w : world) (n : nat) (v : val) : result json :=
  match n with
  | O => Err OtherErr                           (* RecursionError *)
  | S n' =>
      match v with
      | VNone => Ok JNull
      | VBool b => Ok (JBool b)
      | VInt z => Ok (JInt z)
      | VFloat _ f => Ok (JFloat (anon f))
      | VStr s | VStrEnum _ s => Ok (JStr s)
      | VList l | VTuple l => do l' <- mapR (encode w n') l; Ok (JArr l')
      | VDict d => do d' <- mapR (fun p => do k <- json_key w (fst p); do j <- encode w n' (snd p); Ok (k, j)) d; Ok (JObj d')
      | _ => encode w n' (default w v)
      end
  end.

(** * Decoding *)

(** The str enumerations of enums.py and their values. *)
Definition enums : list (string * list string) :=
  [("StrEnum", []); ("BinMode", ["append"; "average"; "first"; "distribution"; "sum"]);
   ("TimeSource", ["first"; "second"; "last"]); ("TimeRef", ["start"; "end"; "first"; "timestamp"; "port"]);
   ("TriggerCondition", ["less_than"; "greater_than_equal_to"]);
   ("DualThresholdedTriggerCountLabels", ["low"; "mid"; "high"; "invalid"]); ("SchedulingStrategy", ["asap"; "alap"])].
Definition enum_cls (n : string) : cls := Cls "quantify_scheduler.enums" n.

(** json_utils.py l.186-187 (no extra modules). *)
Definition classes (n : string) : option cls :=
  match find (fun c => (cname c =? n)%string) DEFAULT_TYPES with
  | Some c => Some c
  | None => match find (fun e => (fst e =? n)%string) enums with Some e => Some (enum_cls (fst e)) | None => None end
  end.

(** [s.rsplit(".", 1)] when there is a dot. *)
Fixpoint rsplit (s : string) : option (string * string) :=
  match s with
  | EmptyString => None
  | String c r =>
      match rsplit r with
      | Some (a, b) => Some (String c a, b)
      | None => if Ascii.eqb c "."%char then Some (EmptyString, r) else None
      end
  end.

(** helpers/importers.py l.10-30 (None: AttributeError, ModuleNotFoundError or ValueError). *)
Definition import_object (w : world) (s : string) : option cls :=
  match rsplit s with None => w_import w "__main__" s | Some (m, n) => w_import w m n end.

(** json_utils.py l.262-310. *)
Definition get_type (w : world) (s : string) : result cls :=
  match classes s with
  | Some c => Ok c
  | None =>
      match import_object w s with
      | Some c => Ok c
      | None => match w_legacy w s with Some c => Ok c | None => Err OtherErr (* UnknownDeserializationTypeError *) end
      end
  end.

(** [np.array(l)]: elementwise.  Simplification: an array keeps no type of its own when it is empty, and
    mixed lists are not promoted. *)
Definition np_elem (v : val) : val :=
  match v with
  | VFloat _ f => VFloat true f
  | VInt z => VNpInt true z
  | VComplex _ re im => VComplex true re im
  | VBool b => VOpaque "bool_" (if b then "True" else "False")
  | _ => v
  end.

(** [class_type(obj["data"])], json_utils.py l.217-222.  Calls that the encoder never asks for are not
    modelled beyond the first few. *)
Definition construct (c : cls) (data : val) (w : world) : result val :=
  if cls_eqb c (np "ndarray") then match data with VList l => Ok (VArr (map np_elem l)) | _ => Err OtherErr end
  else if cls_eqb c (py "complex") then match data with VStr s => match w_complex_of w s with Some (re, im) => Ok (VComplex false re im) | None => Err ValueError end | _ => Err OtherErr end
  else if cls_eqb c (np "complex128") then match data with VStr s => match w_complex_of w s with Some (re, im) => Ok (VComplex true re im) | None => Err ValueError end | _ => Err OtherErr end
  else if cls_eqb c (np "int64") then match data with VStr s => match Z_of_dec s with Some z => Ok (VNpInt true z) | None => Err ValueError end | _ => Err OtherErr end
  else if cls_eqb c (np "int32") then match data with VStr s => match Z_of_dec s with Some z => Ok (VNpInt false z) | None => Err ValueError end | _ => Err OtherErr end
  else if (cmod c =? "quantify_scheduler.enums")%string then
    match data, find (fun e => (fst e =? cname c)%string) enums with
    | VStr s, Some e => if existsb (String.eqb s) (snd e) then Ok (VStrEnum c s) else Err ValueError
    | _, _ => Err ValueError
    end
  else Err OtherErr.

(** Numbers in operation infos. *)
Definition nadd (a b : val) : result val :=
  match a, b with
  | VInt x, VInt y => Ok (VInt (x + y))
  | VInt x, VFloat n (Fin y) => Ok (VFloat n (Fin (inject_Z x + y)))
  | VFloat n (Fin x), VInt y => Ok (VFloat n (Fin (x + inject_Z y)))
  | VFloat n (Fin x), VFloat m (Fin y) => Ok (VFloat (n || m) (Fin (x + y)))
  | _, _ => Err OtherErr
  end.
Definition nlt (a b : val) : result bool :=
  match num a, num b with Some x, Some y => Ok (Qlt_bool x y) | _, _ => Err OtherErr end.

(** operation.py l.134-136. *)
Definition info_end (info : val) : result val :=
  do d <- as_dict info; do t <- item "t0" d; do l <- item "duration" d; nadd t l.
(** operation.py l.138-142: [max(map(_get_operation_end, ...), default=0)] keeps the first maximum.
    Simplification: only int and finite float times. *)
Definition op_update (d : list (val * val)) : result val :=
  do p <- item "pulse_info" d; do q <- item "acquisition_info" d;
  match p, q with
  | VList pl, VList ql =>
      do es <- mapM info_end (pl ++ ql);
      match es with
      | [] => Ok (VInt 0)
      | e :: r => foldM (fun m x => do b <- nlt m x; Ok (if b : bool then x else m)) r e
      end
  | _, _ => Err TypeError
  end.

(** operation.py l.112-124: legacy gate information.  [dict.get] with a missing key is None. *)
Definition dget_none (k : string) (d : list (val * val)) : val := match dget (VStr k) d with Some v => v | None => VNone end.
Definition dpop (k : string) (d : list (val * val)) : list (val * val) := filter (fun p => negb (key_eqb (fst p) (VStr k))) d.
Definition op_legacy (d : list (val * val)) : result (list (val * val)) :=
  match dget_none "gate_info" d with
  | VNone => Ok d
  | VDict g =>
      match dget_none "qubits" g with
      | VNone => Ok d
      | _ => (* l.119: new_gate_info is copied first; l.120-121 then write to the old dictionary, which is replaced *)
             Ok (dput (VStr "gate_info") (VDict (dpop "qubits" g)) d)
      end
  | _ => Err OtherErr
  end.

(** [{k: v for k, v in l}] (schedule.py l.675): every element must unpack into two, keys must be hashable. *)
Definition unpack2 (v : val) : result (val * val) :=
  match v with VList [k; x] | VTuple [k; x] => Ok (k, x) | VList _ | VTuple _ => Err ValueError | _ => Err TypeError end.
Fixpoint hashable_key (v : val) : bool :=
  match v with
  | VList _ | VDict _ | VArr _ => false
  | VTuple l => (fix go (l : list val) := match l with [] => true | x :: r => hashable_key x && go r end) l
  | _ => true
  end.
Definition dict_from (ps : list (val * val)) : result (list (val * val)) :=
  if all_b (fun p => hashable_key (fst p)) ps then Ok (dict_of ps) else Err TypeError.

(** schedule.py l.668-677. *)
Definition setstate_schedule (c : cls) (st : list (val * val)) : result val :=
  let data := match dget (VStr "data") st with Some v => v | None => VDict st end in
  do d <- as_dict data; do s <- item "schedulables" d;
  match s with
  | VList l => do ps <- mapM unpack2 l; do sd <- dict_from ps; Ok (VObj c [("data", VDict (dput (VStr "schedulables") (VDict sd) d))])
  | _ => Ok (VObj c [("data", VDict d)])
  end.

Definition acd_cls : cls := Cls "quantify_scheduler.schedules.schedule" "AcquisitionChannelData".
(** The keyword arguments of a dataclass call: exactly the fields. *)
Definition fields4 (f1 f2 f3 f4 : string) (d : list (val * val)) : result (list (string * val)) :=
  do a <- match dget (VStr f1) d with Some v => Ok v | None => Err TypeError end;
  do b <- match dget (VStr f2) d with Some v => Ok v | None => Err TypeError end;
  do e <- match dget (VStr f3) d with Some v => Ok v | None => Err TypeError end;
  do g <- match dget (VStr f4) d with Some v => Ok v | None => Err TypeError end;
  if (List.length d =? 4)%nat then Ok [(f1, a); (f2, b); (f3, e); (f4, g)] else Err TypeError.

(** schedule.py l.1162-1165. *)
Definition acq_channel_data (v : val) : result val :=
  match v with
  | VObj c _ => if cls_eqb c acd_cls then Ok v else Err TypeError
  | VDict d => do a <- fields4 "acq_index_dim_name" "protocol" "bin_mode" "coords" d; Ok (VObj acd_cls a)
  | _ => Err TypeError
  end.

(** schedule.py l.1168-1174: one component. *)
Definition setstate_component (w : world) (comp : val) : result val :=
  do has <- contains_key w "acq_channels_data" comp;
  if has then
    do l <- lookup w "acq_channels_data" comp;
    match l with
    | VList es =>
        do ps <- mapM (fun e => do d <- as_dict e; do k <- item "key" d; do v <- item "value" d; do x <- acq_channel_data v; Ok (k, x)) es;
        do d <- dict_from ps;
        with_item w "acq_channels_data" (VDict d) comp
    | VDict [] => with_item w "acq_channels_data" (VDict []) comp
    | _ => Err TypeError
    end
  else Ok comp.

(** schedule.py l.1158-1175. *)
Definition setstate_compiled (w : world) (c : cls) (st : list (val * val)) : result val :=
  do data <- item "data" st; do d <- as_dict data;
  do ci <- item "compiled_instructions" d;
  do ci' <- with_values w (setstate_component w) ci;
  setstate_schedule c (dput (VStr "data") (VDict (dput (VStr "compiled_instructions") ci' d)) st).

(** [__setstate__] of a new object of class [c]: operation.py l.112-126, schedule.py l.961-962, 995-996,
    resources.py l.72-73, qblox/schedule.py l.123-124, pulse_library.py l.39-41. *)
Definition setstate (w : world) (c : cls) (st : list (val * val)) : result val :=
  match w_kind w c with
  | KOperation =>
      do data <- item "data" st; do d <- as_dict data; do d' <- op_legacy d; do u <- op_update d';
      Ok (VObj c [("data", VDict d'); ("_duration", u)])
  | KSchedule => setstate_schedule c st
  | KCompiled => setstate_compiled w c st
  | KData | KInstructions => do data <- item "data" st; Ok (VObj c [("data", data)])
  | KTiming => do data <- item "data" st; do d <- as_dict data; do a <- fields4 "ref_schedulable" "ref_pt" "ref_pt_new" "rel_time" d; Ok (VObj c a)
  | KRefMag => do v <- item "value" st; do u <- item "unit" st; Ok (VObj c [("value", v); ("unit", u)])
  | KPlain => Err OtherErr                      (* AttributeError: no __setstate__ *)
  end.

(** Whether a class is one of the built-in types or enumerations (these have no [__setstate__]). *)
Definition builtin (c : cls) : bool := existsb (cls_eqb c) DEFAULT_TYPES || (cmod c =? "quantify_scheduler.enums")%string.

Definition is_str (s : string) (v : option val) : bool := match v with Some x => key_eqb x (VStr s) | None => false end.

(** json_utils.py l.189-238. *)
Definition decode_dict (w : world) (obj : list (val * val)) : result val :=
  match dget (VStr "deserialization_type") obj with
  | None => Ok (VDict obj)
  | Some (VStr s) =>
      do c <- get_type w s;
      if is_str "__init__" (dget (VStr "mode") obj) then do data <- item "data" obj; construct c data w
      else if is_str "type" (dget (VStr "mode") obj) then Ok (VType c)
      else if builtin c then Err OtherErr else setstate w c obj
  | Some _ => Err TypeError
  end.

(** Python's json.loads(text, cls=SchedulerJSONDecoder): [object_hook] is applied to every object, innermost
    first; a repeated key overwrites. *)
Fixpoint decode (w : world) (j : json) : result val :=
  match j with
  | JNull => Ok VNone
  | JBool b => Ok (VBool b)
  | JInt z => Ok (VInt z)
  | JFloat f => Ok (VFloat false f)
  | JStr s => Ok (VStr s)
  | JArr l => do l' <- mapR (decode w) l; Ok (VList l')
  | JObj d => do d' <- mapR (fun p => do x <- decode w (snd p); Ok (VStr (fst p), x)) d; decode_dict w (dict_of d')
  end.

(** * The API: json_utils.py l.437-606 *)
Definition to_json (w : world) (limit : nat) (v : val) : result json := encode w limit v.
Definition from_json (w : world) (j : json) : result val := decode w j.

(** Plain json.loads, as used by [to_dict] (l.449). *)
Fixpoint plain (j : json) : val :=
  match j with
  | JNull => VNone | JBool b => VBool b | JInt z => VInt z
  | JFloat f => VFloat false f
  | JStr s => VStr s
  | JArr l => VList (map plain l)
  | JObj d => VDict (dict_of (map (fun p => (VStr (fst p), plain (snd p))) d))
  end.
Definition to_dict (w : world) (limit : nat) (v : val) : result val := do j <- to_json w limit v; Ok (plain j).
(** l.466: json.dumps without the encoder class; on the plain values of [to_dict] the two agree. *)
Definition from_dict (w : world) (limit : nat) (d : val) : result val := do j <- encode w limit d; decode w j.

(** Python's [==] on operations: operation.py l.79-92. *)
Definition op_eq (w : world) (a b : val) : result bool := do x <- make_hash w a; do y <- make_hash w b; Ok (x =? y)%Z.
