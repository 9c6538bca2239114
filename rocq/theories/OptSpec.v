(** Vocabulary of C70, independent of the code. *)
From Verif Require Import Base CircModel PathModel OptModel.
Local Open Scope list_scope.

(** [asks ch g n v]: the gain option [g] of a port-clock on channel [ch] asks for gain [v] at input [n] *)
Inductive asks : string -> gain -> Z -> Z -> Prop :=
  | asks_I ch i q : asks ch (GComplex i q) 0 i
  | asks_Q ch i q : asks ch (GComplex i q) 1 q
  | asks_0 pre v : asks (pre ++ "0")%string (GReal v) 0 v
  | asks_1 pre v : asks (pre ++ "1")%string (GReal v) 1 v.
(** some port-clock of the module asks for gain [v] at input [n] *)
Definition asked (gains : dict gain) (pcs : dict path) (n v : Z) : Prop :=
  exists pc p g, In (pc, p) pcs /\ get gains pc = Some g /\ asks (p_ch p) g n v.

(** the offset in volt, in the unit of the module and within its range *)
Definition in_unit (r : bounded) (o : Q) : Q := if String.eqb (b_units r) "mV" then (o * 1000)%Q else o.
Definition within (r : bounded) (o : option Q) : Prop := match o with None => True | Some x => (b_min r <= in_unit r x <= b_max r)%Q end.
Definition same_offset (r : bounded) (set opt : option Q) : Prop :=
  match set, opt with None, None => True | Some s, Some o => (s == in_unit r o)%Q | _, _ => False end.
Definition metric (r : bounded) : Prop := b_units r = "mV"%string \/ b_units r = "V"%string.

(** [(pc, p)] is the last port-clock on its channel with property [P] *)
Definition last_such (P : string -> path -> Prop) (pcs : dict path) (pc : string) (p : path) : Prop :=
  exists before after, pcs = before ++ (pc, p) :: after /\ P pc p /\ forall pc' p', In (pc', p') after -> ~ P pc' p'.
(** an integer setting for an attenuation option *)
Definition same_att (set : option Z) (opt : option Q) : Prop :=
  match set, opt with None, None => True | Some s, Some o => (inject_Z s == o)%Q | _, _ => False end.
