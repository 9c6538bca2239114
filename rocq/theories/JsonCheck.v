(** C45: a check of [storable] by computation, and the world used in the examples. *)
From Coq Require Import DecimalString Ascii.
From Verif Require Import Base PathModel JsonModel JsonSpec JsonProps JsonProps2 JsonProps3 JsonThms.
Open Scope string_scope.
Open Scope list_scope.

(** ** Checking [storable] *)
Definition cfltb (f : flt) : bool := match f with Nan (S _) => false | _ => true end.
Fixpoint arr_okb (v : val) : bool :=
  match v with
  | VFloat true f => cfltb f
  | VNpInt _ _ => true
  | VComplex true re im => cfltb re && cfltb im
  | VArr l => forallb arr_okb l
  | _ => false
  end.
Fixpoint dotlessb (s : string) : bool := match s with EmptyString => true | String c r => negb (Ascii.eqb c "."%char) && dotlessb r end.
Definition importableb (w : world) (c : cls) : bool :=
  negb (cmod c =? "__main__")%string && dotlessb (cname c) && match w_import w (cmod c) (cname c) with Some c' => cls_eqb c' c | None => false end && negb (builtin c).
Fixpoint nodupb (l : list string) : bool := match l with [] => true | x :: r => negb (existsb (String.eqb x) r) && nodupb r end.
Definition string_keysb (d : list (val * val)) : bool :=
  forallb (fun p => match text (fst p) with Some _ => true | None => false end) d &&
  (let ks := map (fun p => match text (fst p) with Some s => s | None => "" end) d in nodupb ks && negb (existsb (String.eqb "deserialization_type") ks)).
Definition scalar_keyb (v : val) : bool :=
  match v with VNone | VBool _ | VInt _ | VFloat _ (Fin _) | VFloat _ (Inf _) | VStr _ | VStrEnum _ _ | VNpInt _ _ => true | _ => false end.
Fixpoint distinct_keysb (d : list (val * val)) : bool :=
  match d with [] => true | p :: r => forallb (fun q => negb (key_eqb (fst p) (fst q))) r && distinct_keysb r end.
Definition no_legacyb (d : list (val * val)) : bool :=
  match dget (VStr "gate_info") d with
  | None | Some VNone => true
  | Some (VDict g) => match dget (VStr "qubits") g with None | Some VNone => true | _ => false end
  | _ => false
  end.
Definition has_dictb (k : string) (d : list (val * val)) : bool := match dget (VStr k) d with Some (VDict _) => true | _ => false end.
(** Simplification: the duration must be the very number (int, or float fraction) that [_update] gives. *)
Definition same_num (a b : val) : bool :=
  match a, b with
  | VInt x, VInt y => (x =? y)%Z
  | VFloat n (Fin x), VFloat m (Fin y) => Bool.eqb n m && (Qnum x =? Qnum y)%Z && (Qden x =? Qden y)%positive
  | _, _ => false
  end.
Definition well_formedb (w : world) (c : cls) (a : list (string * val)) : bool :=
  match w_kind w c with
  | KOperation =>
      match aget "data" a, aget "_duration" a with
      | Some (VDict d), Some u =>
          match make_hash w (VObj c a), op_update d with Ok _, Ok u' => no_legacyb d && same_num u' u | _, _ => false end
      | _, _ => false
      end
  | KSchedule => match aget "data" a with Some (VDict d) => has_dictb "schedulables" d | _ => false end
  | KCompiled => match aget "data" a with Some (VDict d) => has_dictb "schedulables" d && match dget (VStr "compiled_instructions") d with Some _ => true | None => false end | _ => false end
  | KData | KInstructions => match aget "data" a with Some _ => true | None => false end
  | KTiming => if list_eq_dec String.string_dec (map fst a) (fields KTiming) then true else false
  | KRefMag => match a with [(v, _); (u, _)] => (v =? "value")%string && (u =? "unit")%string | _ => false end
  | KPlain => false
  end.
Definition placeb (m m' : place) : bool :=
  match m, m' with AnyValue, AnyValue | CompiledData, CompiledData | Instructions, Instructions | Component, Component | Channels, Channels | Channel, Channel => true | _, _ => false end.
Definition alls {A} (f : A -> bool) : list A -> bool := fix go l := match l with [] => true | x :: r => f x && go r end.
Definition kindb (k : kind) (k' : kind) : bool :=
  match k, k' with KInstructions, KInstructions => true | KPlain, KPlain => true | _, _ => false end.
Fixpoint storableb (w : world) (m : place) (v : val) : bool :=
  match v with
  | VNone | VBool _ | VInt _ | VFloat _ _ | VStr _ | VStrEnum _ _ | VNpInt _ _ => placeb m AnyValue
  | VComplex _ re im => placeb m AnyValue && cfltb re && cfltb im
  | VArr l => placeb m AnyValue && forallb arr_okb l
  | VType c => placeb m AnyValue && existsb (cls_eqb c) DEFAULT_TYPES
  | VList l | VTuple l => placeb m AnyValue && alls (storableb w AnyValue) l
  | VDict d =>
      match m with
      | Channel => false
      | Channels => distinct_keysb d && alls (fun p => scalar_keyb (fst p) && storableb w Channel (snd p)) d
      | _ => string_keysb d && alls (fun p => storableb w (inside m (fst p)) (snd p)) d
      end
  | VObj c a =>
      match m with
      | AnyValue => importableb w c && well_formedb w c a && alls (fun p => storableb w (attr_place (w_kind w c) (fst p)) (snd p)) a
      | Instructions => importableb w c && kindb (w_kind w c) KInstructions && match aget "data" a with Some (VDict _) => true | _ => false end && alls (fun p => storableb w Instructions (snd p)) a
      | Channel => cls_eqb c acd_cls && kindb (w_kind w c) KPlain && (if list_eq_dec String.string_dec (map fst a) (fields KPlain) then true else false) && alls (fun p => storableb w AnyValue (snd p)) a
      | _ => false
      end
  | VEnum _ _ | VOpaque _ _ => false
  end.

Lemma alls_Allp {A} (f : A -> bool) (P : A -> Prop) l : Forall (fun x => f x = true -> P x) l -> alls f l = true -> Allp P l.
Proof. induction 1 as [|x l h _ IH]; cbn; [auto|]. intros e. apply andb_prop in e as [e1 e2]. auto. Qed.
Lemma cflt_b f : cfltb f = true -> cflt f. Proof. destruct f as [| |[|]]; cbn; auto; discriminate. Qed.
Lemma cls_b c c' : cls_eqb c c' = true -> c = c'.
Proof. destruct c, c'. unfold cls_eqb. cbn. intros h. apply andb_prop in h as [h1 h2]. apply String.eqb_eq in h1, h2. now subst. Qed.
Lemma arr_b v : arr_okb v = true -> arr_ok v.
Proof. induction v using val_ind'; cbn; try discriminate; auto.
  - destruct n; [apply cflt_b|discriminate].
  - destruct b; [|discriminate]. intros h. apply andb_prop in h as [h1 h2]. split; now apply cflt_b.
  - intros h. apply Allp_Forall. rewrite forallb_forall in h. rewrite Forall_forall in H |- *. auto. Qed.
Lemma dotless_b s : dotlessb s = true -> dotless s.
Proof. induction s as [|c s IH]; cbn; [auto|]. intros h. apply andb_prop in h as [h1 h2]. split; [|auto]. intros ->. discriminate. Qed.
Lemma importable_b w c : importableb w c = true -> importable w c.
Proof. unfold importableb. intros h. apply andb_prop in h as [h h4]. apply andb_prop in h as [h h3]. apply andb_prop in h as [h1 h2]. split; [|split; [now apply dotless_b|split]].
  - intros e. rewrite e in h1. discriminate.
  - destruct (w_import w (cmod c) (cname c)); [|discriminate]. apply cls_b in h3. now subst.
  - now apply negb_true_iff in h4. Qed.
Lemma nodup_b l : nodupb l = true -> NoDup l.
Proof. induction l as [|x l IH]; cbn; [constructor|]. intros h. apply andb_prop in h as [h1 h2]. constructor; [|auto]. intros hi. apply negb_true_iff in h1. assert (existsb (String.eqb x) l = true); [|congruence]. apply existsb_exists. exists x. split; [exact hi|apply String.eqb_refl]. Qed.
Lemma string_keys_b d : string_keysb d = true -> string_keys d.
Proof. unfold string_keysb. intros h. apply andb_prop in h as [h1 h2]. apply andb_prop in h2 as [h2 h3]. eexists. split; [|split; [exact (nodup_b _ h2)|]].
  - rewrite map_map. apply map_ext_in. intros p hp. rewrite forallb_forall in h1. specialize (h1 p hp). cbn in h1. destruct (text (fst p)); [reflexivity|discriminate].
  - intros hi. apply negb_true_iff in h3. match type of h3 with ?x = false => assert (e : x = true); [|congruence] end. apply existsb_exists. eexists. split; [exact hi|apply String.eqb_refl]. Qed.
Lemma scalar_b v : scalar_keyb v = true -> scalar_key v.
Proof. destruct v; cbn; try discriminate; auto. destruct f; cbn; try discriminate; auto. Qed.
Lemma distinct_b d : distinct_keysb d = true -> distinct_keys d.
Proof. induction d as [|p d IH]; cbn; [auto|]. intros h. apply andb_prop in h as [h1 h2]. split; [|auto]. apply Allp_Forall, Forall_forall. intros q hq. rewrite forallb_forall in h1. apply negb_true_iff. exact (h1 q hq). Qed.
Lemma has_dict_b k d : has_dictb k d = true -> has_dict k d.
Proof. unfold has_dictb, has_dict. destruct (dget (VStr k) d) as [[]|]; try discriminate. eauto. Qed.
Lemma same_num_b a b : same_num a b = true -> a = b.
Proof. destruct a; try discriminate.
  - destruct b; try discriminate. cbn. intros h. apply Z.eqb_eq in h. now subst.
  - destruct f; try discriminate. destruct b; try discriminate. destruct f; try discriminate. destruct q, q0. cbn. intros h. apply andb_prop in h as [h h3]. apply andb_prop in h as [h1 h2]. apply Z.eqb_eq in h2. apply Pos.eqb_eq in h3. apply Bool.eqb_prop in h1. now subst. Qed.
Lemma no_legacy_b d : no_legacyb d = true -> no_legacy d.
Proof. unfold no_legacyb, no_legacy. destruct (dget (VStr "gate_info") d) as [[]|]; try discriminate; auto. destruct (dget (VStr "qubits") kvs) as [[]|]; try discriminate; auto. Qed.
Lemma well_formed_b w c a : well_formedb w c a = true -> well_formed w c a.
Proof. unfold well_formedb, well_formed. destruct (w_kind w c).
  - destruct (aget "data" a) as [[]|]; try discriminate. destruct (aget "_duration" a) as [u|]; [|discriminate]. destruct (make_hash w (VObj c a)) as [z|] eqn:E; [|discriminate]. destruct (op_update kvs) as [u'|] eqn:E2; [|discriminate]. intros h. apply andb_prop in h as [h1 h2]. apply same_num_b in h2. subst u'.
    exists kvs. split; [reflexivity|]. split; [now exists z|]. split; [now apply no_legacy_b|]. exists u. auto.
  - destruct (aget "data" a) as [[]|]; try discriminate. intros h. exists kvs. split; [reflexivity|now apply has_dict_b].
  - destruct (aget "data" a) as [[]|]; try discriminate. intros h. apply andb_prop in h as [h1 h2]. destruct (dget _ kvs) as [ci|] eqn:E; [|discriminate]. exists kvs, ci. split; [reflexivity|]. split; [now apply has_dict_b|exact E].
  - destruct (aget "data" a); [eauto|discriminate].
  - destruct (aget "data" a); [eauto|discriminate].
  - destruct (list_eq_dec _ _ _); [auto|discriminate].
  - destruct a as [|[k v] [|[k' u] [|]]]; try discriminate. intros h. apply andb_prop in h as [h1 h2]. apply String.eqb_eq in h1, h2. subst. exists v, u, []. split; [reflexivity|now left].
  - discriminate. Qed.
Lemma place_b m m' : placeb m m' = true -> m = m'. Proof. destruct m, m'; cbn; auto; discriminate. Qed.
Lemma kind_b k k' : kindb k k' = true -> k = k'. Proof. destruct k, k'; cbn; auto; discriminate. Qed.

Theorem storable_check w : forall v m, storableb w m v = true -> storable w m v.
Proof. induction v using val_ind'; intros m hs; cbn [storableb] in hs; cbn [storable]; try (now apply place_b); try discriminate.
  - apply andb_prop in hs as [h h3]. apply andb_prop in h as [h1 h2]. split; [now apply place_b|split; now apply cflt_b].
  - apply andb_prop in hs as [h1 h2]. split; [now apply place_b|]. apply Allp_Forall, Forall_forall. intros x hx. rewrite forallb_forall in h2. apply arr_b. auto.
  - apply andb_prop in hs as [h1 h2]. split; [now apply place_b|]. apply existsb_exists in h2 as (c' & hi & e). apply cls_b in e. now subst.
  - apply andb_prop in hs as [h1 h2]. split; [now apply place_b|]. revert h2. apply alls_Allp. rewrite Forall_forall in H |- *. auto.
  - apply andb_prop in hs as [h1 h2]. split; [now apply place_b|]. revert h2. apply alls_Allp. rewrite Forall_forall in H |- *. auto.
  - destruct m; try discriminate; apply andb_prop in hs as [h1 h2].
    all: split; [solve [now apply string_keys_b|now apply distinct_b]|]; revert h2; apply alls_Allp; rewrite Forall_forall in H |- *; intros p hp.
    all: try (apply (proj2 (H p hp))).
    intros e. apply andb_prop in e as [e1 e2]. split; [now apply scalar_b|]. now apply (proj2 (H p hp)).
  - destruct m; try discriminate.
    + apply andb_prop in hs as [h h3]. apply andb_prop in h as [h1 h2]. split; [now apply importable_b|]. split; [now apply well_formed_b|]. revert h3. apply alls_Allp. rewrite Forall_forall in H |- *. intros p hp e _. now apply (H p hp).
    + apply andb_prop in hs as [h h4]. apply andb_prop in h as [h h3]. apply andb_prop in h as [h1 h2]. split; [now apply importable_b|]. split; [now apply kind_b|]. split; [destruct (aget "data" a) as [[]|]; try discriminate; eauto|]. revert h4. apply alls_Allp. rewrite Forall_forall in H |- *. intros p hp e _. now apply (H p hp).
    + apply andb_prop in hs as [h h4]. apply andb_prop in h as [h h3]. apply andb_prop in h as [h1 h2]. split; [now apply cls_b|]. split; [now apply kind_b|]. split; [destruct (list_eq_dec _ _ _); [assumption|discriminate]|]. revert h4. apply alls_Allp. rewrite Forall_forall in H |- *. intros p hp e. now apply (H p hp).
Qed.

(** ** A world *)
Fixpoint pos_str (p : positive) (r : string) : string := match p with xI q => String "1" (pos_str q r) | xO q => String "0" (pos_str q r) | xH => String "." r end.
Fixpoint pos_of (s : string) : option (positive * string) :=
  match s with
  | String c r =>
      if Ascii.eqb c "."%char then Some (xH, r)
      else match pos_of r with Some (q, t) => Some (if Ascii.eqb c "1"%char then xI q else xO q, t) | None => None end
  | EmptyString => None
  end.
Definition flt_str (f : flt) (r : string) : string :=
  match f with
  | Fin (Qmake Z0 d) => String "z" (pos_str d r)
  | Fin (Qmake (Zpos n) d) => String "p" (pos_str n (pos_str d r))
  | Fin (Qmake (Zneg n) d) => String "m" (pos_str n (pos_str d r))
  | Inf false => String "i" r | Inf true => String "j" r | Nan _ => String "n" r
  end.
Definition flt_of (s : string) : option (flt * string) :=
  match s with
  | String c r =>
      if Ascii.eqb c "z"%char then match pos_of r with Some (d, t) => Some (Fin (Qmake 0 d), t) | None => None end
      else if Ascii.eqb c "i"%char then Some (Inf false, r) else if Ascii.eqb c "j"%char then Some (Inf true, r) else if Ascii.eqb c "n"%char then Some (Nan 0, r)
      else match pos_of r with
           | Some (n, t) => match pos_of t with Some (d, u) => Some (Fin (Qmake (if Ascii.eqb c "p"%char then Zpos n else Zneg n) d), u) | None => None end
           | None => None
           end
  | EmptyString => None
  end.
Lemma pos_round p : forall r, pos_of (pos_str p r) = Some (p, r).
Proof. induction p as [q IH|q IH|]; intros r; cbn; [rewrite IH|rewrite IH|]; reflexivity. Qed.
Lemma flt_round f r : cflt f -> flt_of (flt_str f r) = Some (f, r).
Proof. destruct f as [[n d]|b|[|]]; cbn; [|destruct b; reflexivity|reflexivity|contradiction]. intros _. destruct n; cbn; rewrite ?pos_round; reflexivity. Qed.

Definition mods : list (string * string * kind) :=
  [("quantify_scheduler.schedules.schedule", "Schedule", KSchedule); ("quantify_scheduler.schedules.schedule", "CompiledSchedule", KCompiled);
   ("quantify_scheduler.schedules.schedule", "Schedulable", KData); ("quantify_scheduler.schedules.schedule", "TimingConstraint", KTiming);
   ("quantify_scheduler.schedules.schedule", "AcquisitionChannelData", KPlain);
   ("quantify_scheduler.operations.gate_library", "X", KOperation); ("quantify_scheduler.operations.gate_library", "Measure", KOperation);
   ("quantify_scheduler.operations.pulse_library", "SquarePulse", KOperation); ("quantify_scheduler.operations.pulse_library", "ReferenceMagnitude", KRefMag);
   ("quantify_scheduler.resources", "ClockResource", KData);
   ("quantify_scheduler.backends.qblox.schedule", "CompiledInstructions", KInstructions);
   ("quantify_scheduler.backends.types.qblox", "ThresholdedTriggerCountMetadata", KPlain);
   ("quantify_scheduler.backends.zhinst_backend", "ZIDeviceConfig", KPlain);
   ("quantify_scheduler.structure.types", "Graph", KPlain)].
Definition demo_find (m n : string) : option kind := match find (fun e => ((fst (fst e) =? m) && (snd (fst e) =? n))%string) mods with Some e => Some (snd e) | None => None end.
(** A world with Python 3.11 in which the classes above exist.  Its hashes are arbitrary. *)
Definition demo : world :=
  {| w_py311 := true;
     w_import := fun m n => match demo_find m n with Some _ => Some (Cls m n) | None => None end;
     w_legacy := fun _ => None;
     w_kind := fun c => match demo_find (cmod c) (cname c) with Some k => k | None => KPlain end;
     w_float_repr := fun f => flt_str f "";
     w_complex_str := fun re im => flt_str re (flt_str im "");
     w_complex_of := fun s => match flt_of s with Some (re, t) => match flt_of t with Some (im, EmptyString) => Some (re, im) | _ => None end | None => None end;
     w_hstr := fun s => Z.of_nat (String.length s);
     w_hnum := fun q => (Qnum q * 31 + Zpos (Qden q))%Z;
     w_hinf := fun b => if b then (-314159)%Z else 314159%Z;
     w_hnan := fun i => (1000 + Z.of_nat i)%Z;
     w_hother := fun _ => 7%Z;
     w_htuple := fun l => fold_left (fun a x => a * 31 + x)%Z l 17%Z;
     w_hdict := fun l => fold_left (fun a x => a + fst x * 1009 + snd x)%Z l 5%Z |}.
Lemma demo_complex : complex_text demo.
Proof. intros re im h1 h2. cbn [demo w_complex_of w_complex_str]. rewrite flt_round by exact h1. rewrite flt_round by exact h2. reflexivity. Qed.
