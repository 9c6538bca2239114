(** C45, specification: what a stored value reads back as, and which values can be stored. *)
From Coq Require Import Ascii.
From Verif Require Import Base PathModel JsonModel.
Open Scope string_scope.
Open Scope list_scope.

(** [Allp P l]: every element satisfies [P] (a form that can be used in recursive definitions). *)
Definition Allp {A} (P : A -> Prop) : list A -> Prop :=
  fix go l := match l with [] => True | x :: r => P x /\ go r end.

(** The attributes that make up an object of each kind. *)
Definition fields (k : kind) : list string :=
  match k with
  | KOperation => ["data"; "_duration"]
  | KSchedule | KCompiled | KData | KInstructions => ["data"]
  | KTiming => ["ref_schedulable"; "ref_pt"; "ref_pt_new"; "rel_time"]
  | KRefMag => ["value"; "unit"]
  | KPlain => ["acq_index_dim_name"; "protocol"; "bin_mode"; "coords"]
  end.

Definition pick (fs : list string) (a : list (string * val)) : list (string * val) :=
  flat_map (fun f => match aget f a with Some v => [(f, v)] | None => [] end) fs.

(** The value that is read back: a tuple is read back as a list, a member of a str enumeration as the str it
    equals, a numpy.float64 as the float it equals, a NaN as another NaN; everything else, in particular
    every class, every dictionary order and every array, is read back as it was. *)
Fixpoint restore (w : world) (v : val) : val :=
  match v with
  | VFloat _ f => VFloat false (anon f)
  | VStrEnum _ s => VStr s
  | VList l | VTuple l => VList (map (restore w) l)
  | VDict d => VDict (map (fun p => (restore w (fst p), restore w (snd p))) d)
  | VObj c a => VObj c (pick (fields (w_kind w c)) (map (fun p => (fst p, restore w (snd p))) a))
  | _ => v
  end.

(** ** Which values can be stored *)

(** The places in a compiled schedule where other rules hold: the data of a compiled schedule, its compiled
    instructions, one component of these, the acquisition channels data of a component, one of its entries. *)
Inductive place := AnyValue | CompiledData | Instructions | Component | Channels | Channel.

Definition inside (m : place) (k : val) : place :=
  match m, text k with
  | CompiledData, Some s => if (s =? "compiled_instructions")%string then Instructions else AnyValue
  | Instructions, _ => Component
  | Component, Some s => if (s =? "acq_channels_data")%string then Channels else AnyValue
  | _, _ => AnyValue
  end.

(** Array elements. *)
Definition cflt (f : flt) : Prop := match f with Nan (S _) => False | _ => True end.
Fixpoint arr_ok (v : val) : Prop :=
  match v with
  | VFloat true f => cflt f
  | VNpInt _ _ => True
  | VComplex true re im => cflt re /\ cflt im
  | VArr l => Allp arr_ok l
  | _ => False
  end.

Fixpoint dotless (s : string) : Prop := match s with EmptyString => True | String c r => c <> "."%char /\ dotless r end.

(** A class the decoder finds again: it is the attribute of its module that carries its name, it is not
    defined in the main script, and it is not one of the built-in types. *)
Definition importable (w : world) (c : cls) : Prop :=
  cmod c <> "__main__" /\ dotless (cname c) /\ w_import w (cmod c) (cname c) = Some c /\ builtin c = false.

(** The keys of a stored dictionary: strings, pairwise different, and not the reserved key. *)
Definition string_keys (d : list (val * val)) : Prop :=
  exists ks, map (fun p => text (fst p)) d = map Some ks /\ NoDup ks /\ ~ In "deserialization_type" ks.

(** The keys of the acquisition channels data: any scalar; pairwise different. *)
Definition scalar_key (v : val) : Prop :=
  match v with VNone | VBool _ | VInt _ | VFloat _ (Fin _) | VFloat _ (Inf _) | VStr _ | VStrEnum _ _ | VNpInt _ _ => True | _ => False end.
Fixpoint distinct_keys (d : list (val * val)) : Prop :=
  match d with [] => True | p :: r => Allp (fun q => key_eqb (fst p) (fst q) = false) r /\ distinct_keys r end.

Definition has_dict (k : string) (d : list (val * val)) : Prop := exists s, dget (VStr k) d = Some (VDict s).

(** No entry ["qubits"] in the gate information. *)
Definition no_legacy (d : list (val * val)) : Prop :=
  match dget (VStr "gate_info") d with
  | None | Some VNone => True
  | Some (VDict g) => match dget (VStr "qubits") g with None | Some VNone => True | _ => False end
  | _ => False
  end.

(** An object whose attributes are as its class makes them.  An operation: hashable, without the legacy
    ["qubits"] entry, and with an up-to-date duration. *)
Definition well_formed (w : world) (c : cls) (a : list (string * val)) : Prop :=
  match w_kind w c with
  | KOperation =>
      exists d, aget "data" a = Some (VDict d) /\ is_ok (make_hash w (VObj c a)) /\ no_legacy d /\
        exists u, op_update d = Ok u /\ aget "_duration" a = Some u
  | KSchedule => exists d, aget "data" a = Some (VDict d) /\ has_dict "schedulables" d
  | KCompiled => exists d ci, aget "data" a = Some (VDict d) /\ has_dict "schedulables" d /\ dget (VStr "compiled_instructions") d = Some ci
  | KData | KInstructions => exists d, aget "data" a = Some d
  | KTiming => map fst a = fields KTiming
  | KRefMag => exists v u t, a = [("value", v); ("unit", u)] ++ t /\ (t = [] \/ t = [("deserialization_type", VStr (export_path c))])
  | KPlain => False
  end.

Definition attr_place (k : kind) (name : string) : place :=
  match k with KCompiled => if (name =? "data")%string then CompiledData else AnyValue | _ => AnyValue end.

(** [storable w m v]: the value [v] at place [m]. *)
Fixpoint storable (w : world) (m : place) (v : val) : Prop :=
  match v with
  | VNone | VBool _ | VInt _ | VFloat _ _ | VStr _ | VStrEnum _ _ | VNpInt _ _ => m = AnyValue
  | VComplex _ re im => m = AnyValue /\ cflt re /\ cflt im
  | VArr l => m = AnyValue /\ Allp arr_ok l
  | VType c => m = AnyValue /\ In c DEFAULT_TYPES
  | VList l | VTuple l => m = AnyValue /\ Allp (storable w AnyValue) l
  | VDict d =>
      match m with
      | Channel => False
      | Channels => distinct_keys d /\ Allp (fun p => scalar_key (fst p) /\ storable w Channel (snd p)) d
      | _ => string_keys d /\ Allp (fun p => storable w (inside m (fst p)) (snd p)) d
      end
  | VObj c a =>
      match m with
      | AnyValue => importable w c /\ well_formed w c a /\ Allp (fun p => In (fst p) (fields (w_kind w c)) -> storable w (attr_place (w_kind w c) (fst p)) (snd p)) a
      | Instructions => importable w c /\ w_kind w c = KInstructions /\
                        (exists d, aget "data" a = Some (VDict d)) /\ Allp (fun p => fst p = "data" -> storable w Instructions (snd p)) a
      | Channel => c = acd_cls /\ w_kind w c = KPlain /\ map fst a = fields KPlain /\ Allp (fun p => storable w AnyValue (snd p)) a
      | _ => False
      end
  | VEnum _ _ | VOpaque _ _ => False
  end.

(** The text of complex numbers can be read back. *)
Definition complex_text (w : world) : Prop := forall re im, cflt re -> cflt im -> w_complex_of w (w_complex_str w re im) = Some (re, im).

(** [v] is stored and read back as [v']: from some recursion limit on, [to_json] gives the same document,
    and [from_json] reads it as [v']. *)
Definition stored_as (w : world) (v v' : val) : Prop :=
  exists N j, (forall n, (N <= n)%nat -> to_json w n v = Ok j) /\ from_json w j = Ok v'.
