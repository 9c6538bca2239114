(** Concrete sessions for C58 and C59: a device that is saved and loaded, and what is not kept. *)
From Coq Require Import Ascii.
From Verif Require Import Base DevModel DevSpec DevProps DevThms DevThms2 DevConf DevConfSpec DevConfThms DevConfThms2 DevConfThms3.
Local Open Scope string_scope.

(** a test for [savable] *)
Fixpoint plainb (v : val) : bool := match v with VTuple _ => false | VArr l | VList l => forallb plainb l | _ => true end.
Fixpoint plainb_ok (v : val) : plainb v = true -> plain v.
Proof.
  assert (G : forall l, forallb plainb l = true -> Forall plain l).
  { fix go 1. intros [|x l] H; constructor; cbn in H; apply Bool.andb_true_iff in H; destruct H; [now apply plainb_ok | now apply go]. }
  destruct v; intros H; try (constructor; now apply G); try constructor. discriminate H.
Qed.
Definition savableb (x : instr) : bool :=
  forallb (fun sy => forallb (fun pv => plainb (snd pv) && (negb (fst sy =? "ports") || match snd pv with VStr t => negb (t =? "") | _ => false end)) (direct (snd sy))) (isubs x).
Lemma savableb_ok : forall x, savableb x = true -> savable x.
Proof.
  intros x H. unfold savableb in H. rewrite forallb_forall in H.
  assert (G : forall s p v, value x s p = Some v -> plainb v && (negb (s =? "ports") || match v with VStr t => negb (t =? "") | _ => false end) = true).
  { intros s p v Hv. unfold value in Hv. destruct (lookup s (isubs x)) as [y|] eqn:L; [|discriminate Hv]. apply lookup_in in L. specialize (H _ L). rewrite forallb_forall in H.
    apply lookup_in in Hv. exact (H _ Hv). }
  split.
  - intros s p v Hv. apply G in Hv. apply Bool.andb_true_iff in Hv. now apply plainb_ok.
  - intros p v Hv. apply G in Hv. apply Bool.andb_true_iff in Hv. destruct Hv as [_ Hv]. cbn in Hv. destruct v; try discriminate Hv. exists s. split; [easy|]. intros ->. discriminate Hv.
Qed.
Definition no_referenceb (x : instr) : bool :=
  forallb (fun sy => match refm (snd sy) with Some r => is_nan (dBm r) && is_nan (V r) && is_nan (A r) | None => true end) (isubs x).
Lemma no_referenceb_ok : forall x, no_referenceb x = true -> no_reference x.
Proof.
  intros x H s r Hr. unfold reference_of in Hr. destruct (lookup s (isubs x)) as [y|] eqn:L; [|discriminate Hr]. apply lookup_in in L. unfold no_referenceb in H. rewrite forallb_forall in H.
  specialize (H _ L). cbn in H. rewrite Hr in H. destruct r as [a b c]. cbn in H. destruct a, b, c; try discriminate H. reflexivity.
Qed.
Definition every (w : registry) (d : device) (f : instr -> bool) : bool :=
  forallb (fun m => match find_instrument w m with Ok x => f x | Err _ => false end) (members d).
Lemma every_ok : forall w d f, every w d f = true -> forall m x, In m (members d) -> find_instrument w m = Ok x -> f x = true.
Proof. intros w d f H m x Hm Hx. unfold every in H. rewrite forallb_forall in H. specialize (H m Hm). now rewrite Hx in H. Qed.

(** Two transmons and an edge; one operation is refused (an underscore in a name), one instrument is closed again. *)
Definition bench : list op :=
  [Create BasicTransmonElement (Element "q0") []; Create BasicTransmonElement (Element "q1") [("rxy", [("amp180", VNum (1#5))])];
   Create BasicTransmonElement (Element "q_2") []; Create CompositeSquareEdge (EdgeOf "q0" "q1") []; Create BasicSpinElement (Element "old") []; AddElement "old";
   AddElement "q1"; AddElement "q0"; AddEdge "q0_q1"; RemoveElement "old"; Close "old";
   SetParam "q0" "rxy" "amp180" (VNum (1#3)); SetParam "q0" "rxy" "amp180" (VNum 11); SetParam "q0" "ports" "microwave" (VStr "drive:in"); SetParam "q0" "clock_freqs" "f01" (VNum 5000000000);
   SetParam "q1" "measure" "acq_weights_a" (VArr [VNum (1#2); VNum (1#4)]); SetParam "q1" "measure" "acq_channel" (VStr "ch"); SetParam "q0_q1" "cz" "q1_phase_correction" (VInt 45);
   SetReps (VInt 100); SetReps (VInt 0)].
Local Notation lab := (session "lab" bench).
(** another session, with an instrument of its own *)
Local Notation home := (session "home" [Create ChargeSensor (Element "s") []; AddElement "s"]).
Definition saved : ddoc := match to_json (fst lab) (snd lab) with Ok q => q | Err _ => {| qname := ""; qelements := []; qedges := []; qreps := 0 |} end.

Example lab_members : elements (snd lab) = ["q1"; "q0"] /\ edges (snd lab) = ["q0_q1"] /\ reps (snd lab) = 100%Z /\ map fst (fst lab) = ["q0"; "q1"; "q0_q1"].
Proof. repeat split. Qed.
Lemma lab_saves : to_json (fst lab) (snd lab) = Ok saved.
Proof. vm_compute. reflexivity. Qed.
Lemma lab_savable : forall m x, In m (members (snd lab)) -> find_instrument (fst lab) m = Ok x -> savable x /\ no_reference x.
Proof.
  intros m x Hm Hx. split.
  - apply savableb_ok. apply (every_ok (fst lab) (snd lab)) with (m := m); [vm_compute; reflexivity | exact Hm | exact Hx].
  - apply no_referenceb_ok. apply (every_ok (fst lab) (snd lab)) with (m := m); [vm_compute; reflexivity | exact Hm | exact Hx].
Qed.
Lemma lab_fresh : forall m, In m (members (snd lab)) -> ~ In m (map fst (fst home)).
Proof. change (members (snd lab)) with ["q1"; "q0"; "q0_q1"]. change (map fst (fst home)) with ["s"]. intros m [<-|[<-|[<-|[]]]] [H|[]]; discriminate H. Qed.

(** the hypotheses of C58_round_trip are met *)
Theorem C58_round_trip_example : exists w2 d2, from_json (fst home) saved = (w2, Ok d2) /\ elements d2 = ["q1"; "q0"] /\ edges d2 = ["q0_q1"] /\ reps d2 = 100%Z /\
  (exists y, find_instrument w2 "q0" = Ok y /\ value y "rxy" "amp180" = Some (VNum (1#3)) /\ value y "ports" "microwave" = Some (VStr "drive:in")) /\
  (exists y, find_instrument w2 "q1" = Ok y /\ value y "rxy" "amp180" = Some (VNum (1#5)) /\ value y "measure" "acq_weights_a" = Some (VArr [VNum (1#2); VNum (1#4)])).
Proof.
  destruct (C58_round_trip "lab" bench "home" [Create ChargeSensor (Element "s") []; AddElement "s"] (fst lab) (snd lab) (fst home) (snd home) saved) as [w2 [d2 [L [_ [E [G [R _]]]]]]].
  - apply surjective_pairing.
  - apply surjective_pairing.
  - exact lab_saves.
  - intros m x Hm Hx. now apply (lab_savable m x).
  - exact lab_fresh.
  - exists w2, d2. repeat (split; [assumption|]). change w2 with (fst (w2, Ok d2)). rewrite <- L. split; (eexists; split; [vm_compute; reflexivity|split; vm_compute; reflexivity]).
Qed.

(** and those of C59 *)
Definition lab_config : config := match device_config (fst lab) (snd lab) with Ok c => c | Err _ => {| celements := []; cclocks := []; cedges := []; cstrategy := "" |} end.
Lemma lab_configured : device_config (fst lab) (snd lab) = Ok lab_config.
Proof. vm_compute. reflexivity. Qed.
Example lab_settings :
  setting_in (celements lab_config) "q0" "Rxy" "amp180" = Some (CV (VNum (1#3))) /\ setting_in (celements lab_config) "q0" "Rxy" "port" = Some (CV (VStr "drive:in")) /\
  setting_in (celements lab_config) "q0" "Rxy" "clock" = Some (CV (VStr "q0.01")) /\ lookup "q0.01" (cclocks lab_config) = Some (VNum 5000000000) /\
  setting_in (cedges lab_config) "q0_q1" "CZ" "virt_z_child_qubit_phase" = Some (CV (VInt 45)) /\ List.length (cclocks lab_config) = 6%nat.
Proof. repeat split. Qed.
Theorem C59_config_after_loading_example : exists w2 d2, from_json (fst home) saved = (w2, Ok d2) /\ device_config w2 d2 = Ok lab_config.
Proof.
  rewrite <- lab_configured. apply (C59_config_after_loading "lab" bench "home" [Create ChargeSensor (Element "s") []; AddElement "s"] (fst lab) (snd lab) (fst home) (snd home) saved).
  - apply surjective_pairing.
  - apply surjective_pairing.
  - exact lab_saves.
  - exact lab_savable.
  - change (edges (snd lab)) with ["q0_q1"]. change (elements (snd lab)) with ["q1"; "q0"]. intros g x p c [<-|[]] Hx Hpc.
    assert (I : iid x = EdgeOf "q0" "q1"). { change (iid x = match find_instrument (fst lab) "q0_q1" with Ok y => iid y | Err _ => Element "" end). rewrite Hx. reflexivity. }
    unfold connects in Hpc. rewrite I in Hpc. injection Hpc as <- <-. cbn. tauto.
  - exact lab_fresh.
  - reflexivity.
Qed.
(** setting q1 leaves q0 alone (hypotheses of C59_isolated) *)
Example isolated_met : exists w' d' cfg', step lab (SetParam "q1" "rxy" "amp180" (VNum (1#7))) = Ok (w', d') /\ device_config w' d' = Ok cfg' /\
  setting_in (celements cfg') "q1" "Rxy" "amp180" = Some (CV (VNum (1#7))) /\ lookup "q0" (celements cfg') = lookup "q0" (celements lab_config).
Proof. do 3 eexists. split; [vm_compute; reflexivity|]. split; [vm_compute; reflexivity|]. split; vm_compute; reflexivity. Qed.

(** * What is not kept *)
Definition loads_as (ops : list op) : result (registry * device) :=
  let '(w, d) := session "lab" ops in do q <- to_json w d; let '(w2, r) := from_json [] q in do d2 <- r; Ok (w2, d2).
Local Notation q0_made := [Create BasicTransmonElement (Element "q0") []; AddElement "q0"].
(** A reference magnitude is lost: the compiled schedule then has pulses in other units. *)
Theorem C58_reference_lost_refuted : exists w2 d2, let ops := (q0_made ++ [SetReference "q0" "rxy" UV (VNum (1#2))])%list in
  loads_as ops = Ok (w2, d2) /\
  (exists x, find_instrument (fst (session "lab" ops)) "q0" = Ok x /\ eval (fst (session "lab" ops)) x (Ref "rxy") = Ok (CR (Some (VNum (1#2), "V")))) /\
  (exists y, find_instrument w2 "q0" = Ok y /\ eval w2 y (Ref "rxy") = Ok (CR None)).
Proof. do 2 eexists. cbv zeta. split; [vm_compute; reflexivity|]. split; (eexists; split; [vm_compute; reflexivity|vm_compute; reflexivity]). Qed.
(** The scheduling strategy "alap" comes back as "asap". *)
Theorem C58_strategy_lost_refuted : exists w2 d2, let ops := (q0_made ++ [SetStrategy "alap"; SetKeep false; SetHardware (Some 7%Z)])%list in
  loads_as ops = Ok (w2, d2) /\ strategy (snd (session "lab" ops)) = "alap" /\ strategy d2 = "asap" /\ keep d2 = true /\ hardware d2 = None.
Proof. do 2 eexists. cbv zeta. split; [vm_compute; reflexivity|]. repeat split. Qed.
(** A tuple as acquisition channel is accepted, saved, and then cannot be loaded: TypeError. *)
Example tuple_channel : let ops := (q0_made ++ [SetParam "q0" "measure" "acq_channel" (VTuple [VStr "a"; VInt 0])])%list in
  (exists x, find_instrument (fst (session "lab" ops)) "q0" = Ok x /\ value x "measure" "acq_channel" = Some (VTuple [VStr "a"; VInt 0])) /\ loads_as ops = Err TypeError.
Proof. cbv zeta. split; [eexists; split; vm_compute; reflexivity | vm_compute; reflexivity]. Qed.
Example empty_port : exists w2 d2 y, loads_as (q0_made ++ [SetParam "q0" "ports" "microwave" (VStr "")])%list = Ok (w2, d2) /\ find_instrument w2 "q0" = Ok y /\
  value y "ports" "microwave" = Some (VStr "q0:mw").
Proof. do 3 eexists. split; [vm_compute; reflexivity|]. split; vm_compute; reflexivity. Qed.
(** Loading with an element of that name open: KeyError; the elements made before it stay open, and loading again fails at the first one. *)
Example name_taken : let w := fst (session "x" [Create BasicTransmonElement (Element "q0") []]) in
  exists w2, from_json w saved = (w2, Err KeyError) /\ map fst w2 = ["q0"; "q1"] /\ from_json w2 saved = (w2, Err KeyError).
Proof. cbv zeta. eexists. split; [vm_compute; reflexivity|]. split; vm_compute; reflexivity. Qed.
(** hypotheses of C59_nv_compensation_clock_is_undefined *)
Example nv_met : exists cfg, let s := session "lab" [Create BasicElectronicNVElement (Element "e") []; AddElement "e"] in device_config (fst s) (snd s) = Ok cfg /\
  setting_in (celements cfg) "e" "pulse_compensation" "clock" = Some (CV (VStr "e.f_larmor")) /\ lookup "e.f_larmor" (cclocks cfg) = None /\ lookup "e.ge0" (cclocks cfg) = Some VNan.
Proof. eexists. cbv zeta. split; [vm_compute; reflexivity|]. repeat split. Qed.
(** what C59_can_configure excludes happens: an edge whose child is not open; a reference magnitude given as None *)
Example unconnected_edge : let s := session "lab" (q0_made ++ [Create CompositeSquareEdge (EdgeOf "q0" "q9") []; AddEdge "q0_q9"])%list in
  edges (snd s) = ["q0_q9"] /\ device_config (fst s) (snd s) = Err KeyError.
Proof. cbv zeta. split; vm_compute; reflexivity. Qed.
Example reference_none : let s := session "lab" [Create BasicTransmonElement (Element "q0") [("rxy", [("reference_magnitude_V", VNone)])]; AddElement "q0"] in
  elements (snd s) = ["q0"] /\ device_config (fst s) (snd s) = Err TypeError.
Proof. cbv zeta. split; vm_compute; reflexivity. Qed.
