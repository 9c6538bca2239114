(** C08: Schedule.add keeps labels unique and every schedulable resolvable. *)
From Verif Require Import Base SchedModel.
Open Scope string_scope.
Open Scope list_scope.
Open Scope Z_scope.

(** ** Dictionaries *)
Section dict.
  Context {K V : Type} (eqb : K -> K -> bool) (Heqb : forall a b, eqb a b = true <-> a = b).
  Lemma dict_get_set (d : list (K * V)) k v k' : dict_get eqb (dict_set eqb d k v) k' = if eqb k' k then Some v else dict_get eqb d k'.
  Proof.
    induction d as [|[k0 v0] d IH]; cbn [dict_set dict_get]; [destruct (eqb k' k); reflexivity|]. destruct (eqb k k0) eqn:E; cbn [dict_get].
    - apply Heqb in E. subst k0. destruct (eqb k' k); reflexivity.
    - rewrite IH. destruct (eqb k' k0) eqn:E2; [|reflexivity]. destruct (eqb k' k) eqn:E3; [|reflexivity]. apply Heqb in E2, E3. subst. rewrite (proj2 (Heqb k0 k0) eq_refl) in E. discriminate.
  Qed.
  Lemma dict_get_in (d : list (K * V)) k v : dict_get eqb d k = Some v -> In (k, v) d.
  Proof. induction d as [|[k0 v0] d IH]; cbn [dict_get]; [discriminate|]. destruct (eqb k k0) eqn:E; [intros [= ->]; apply Heqb in E; subst; left; reflexivity|intros H; right; auto]. Qed.
  Lemma dict_get_none (d : list (K * V)) k : dict_get eqb d k = None <-> ~ In k (map fst d).
  Proof.
    induction d as [|[k0 v0] d IH]; cbn [dict_get map fst]; [split; [intros _ []|reflexivity]|]. destruct (eqb k k0) eqn:E.
    - apply Heqb in E. subst. split; [discriminate|intros H; exfalso; apply H; left; reflexivity].
    - rewrite IH. split; [intros H [->|H1]; [rewrite (proj2 (Heqb k k) eq_refl) in E; discriminate|auto]|intros H H1; apply H; right; exact H1].
  Qed.
  Lemma dict_set_new (d : list (K * V)) k v : ~ In k (map fst d) -> dict_set eqb d k v = d ++ [(k, v)].
  Proof.
    induction d as [|[k0 v0] d IH]; intros H; [reflexivity|]. cbn [dict_set]. destruct (eqb k k0) eqn:E; [exfalso; apply H; left; symmetry; apply Heqb, E|]. cbn [app]. rewrite IH; [reflexivity|]. intros Hi. apply H. right. exact Hi.
  Qed.
End dict.
Lemma dict_mem_false {V} (d : list (string * V)) k : dict_mem String.eqb d k = false <-> ~ In k (map fst d).
Proof. unfold dict_mem. rewrite <- (dict_get_none String.eqb String.eqb_eq). destruct (dict_get String.eqb d k); split; congruence. Qed.
Lemma dict_mem_true {V} (d : list (string * V)) k : dict_mem String.eqb d k = true <-> In k (map fst d).
Proof. destruct (dict_mem String.eqb d k) eqn:E; [|apply dict_mem_false in E; split; [discriminate|tauto]]. split; [intros _|reflexivity]. destruct (in_dec string_dec k (map fst d)) as [H|H]; [exact H|]. apply dict_mem_false in H. congruence. Qed.
Lemma NoDup_snoc {A} (l : list A) x : NoDup l -> ~ In x l -> NoDup (l ++ [x]).
Proof. intros Hn Hx. rewrite <- (rev_involutive (l ++ [x])). apply NoDup_rev. rewrite rev_app_distr. cbn. constructor; [rewrite <- in_rev; exact Hx|apply NoDup_rev, Hn]. Qed.

(** ** Specification *)
(** the label under which an add call files its schedulable *)
Definition label_of (label : option string) (uuid : string) : string := match label with Some l => l | None => uuid end.
(** the schedulable that should result *)
Definition wanted (id : Z) (rt : Q) (rf : ref_arg) (pt ptn : option point) (l : string) : schedulable :=
  {| s_name := l; s_label := l; s_operation_id := id; s_constraints := [ {| rel_time := rt; ref_op := match rf with RefNone => None | RefLabel s => Some s | RefSchedulable s => Some (s_name s) end; ref_pt := pt; ref_pt_new := ptn |} ] |}.
Definition labels (s : sched) : list string := map fst (schedulables s).
(** the object a schedulable stands for *)
Definition operation_of (s : sched) (x : schedulable) : option nat := dict_get Z.eqb (operation_dict s) (s_operation_id x).
Definition mutates {C} (c : call C) : bool := match c with Mutate _ _ => true | _ => false end.

(** ** One add *)
Lemma add_cases {C} hash (w : world C) op rt rf pt ptn label uuid :
  match add hash w op rt rf pt ptn label uuid with
  | Err e => op = None /\ e = ValueError \/ In (label_of label uuid) (labels (snd w)) /\ e = ValueError \/ exists o, op = Some o /\ hash (fst w o) = Err e
  | Ok w' => exists o id, op = Some o /\ hash (fst w o) = Ok id /\ ~ In (label_of label uuid) (labels (snd w)) /\ fst w' = fst w /\
      schedulables (snd w') = schedulables (snd w) ++ [(label_of label uuid, wanted id rt rf pt ptn (label_of label uuid))] /\
      operation_dict (snd w') = dict_set Z.eqb (operation_dict (snd w)) id o /\ resource_dict (snd w') = resource_dict (snd w) /\ repetitions (snd w') = repetitions (snd w)
  end.
Proof.
  destruct w as [heap s]. unfold add. fold (label_of label uuid). destruct op as [o|]; [|left; auto]. destruct (dict_mem _ _ _) eqn:Em.
  - right. left. split; [apply dict_mem_true in Em; exact Em|reflexivity].
  - apply dict_mem_false in Em. cbn [fst snd]. destruct (hash (heap o)) as [id|e] eqn:Eh; cbn [bind]; [|right; right; eauto]. exists o, id. cbn [fst snd schedulables operation_dict resource_dict repetitions s_name s_label s_operation_id s_constraints app].
    rewrite (dict_set_new String.eqb String.eqb_eq) by exact Em. repeat split; auto.
Qed.

(** First part, one call in any state. A successful add appends exactly one schedulable, built from the arguments, leaves all others as they were, stores the operation under its id and touches nothing else;
    it succeeds exactly if the object is an operation whose hash exists and the label is not in use; a failing add raises and changes nothing (the state is the caller's, unchanged). *)
Theorem C08_add : forall C (hash : C -> result Z) heap s op rt rf pt ptn label uuid,
  let l := label_of label uuid in
  let r := step hash (heap, s) (Add op rt rf pt ptn label uuid) in
  (is_ok r <-> (exists o id, op = Some o /\ hash (heap o) = Ok id) /\ ~ In l (labels s)) /\
  (forall e, r = Err e -> run hash (heap, s) [Add op rt rf pt ptn label uuid] = (heap, s)) /\
  (forall heap' s', r = Ok (heap', s') -> heap' = heap /\ resource_dict s' = resource_dict s /\ repetitions s' = repetitions s /\
    exists o id, op = Some o /\ hash (heap o) = Ok id /\ schedulables s' = schedulables s ++ [(l, wanted id rt rf pt ptn l)] /\
      operation_of s' (wanted id rt rf pt ptn l) = Some o /\ (forall id', id' <> id -> dict_get Z.eqb (operation_dict s') id' = dict_get Z.eqb (operation_dict s) id')).
Proof.
  intros C hash heap s op rt rf pt ptn label uuid l r. pose proof (add_cases hash (heap, s) op rt rf pt ptn label uuid) as H. fold l in H. change (add hash (heap, s) op rt rf pt ptn label uuid) with r in H. cbn [fst snd] in H. split; [|split].
  - split.
    + intros [w' E]. rewrite E in H. destruct H as (o & id & H1 & H2 & H3 & _). split; [eauto|exact H3].
    + intros [(o & id & H1 & H2) H3]. destruct r as [w'|e]; [eexists; reflexivity|]. exfalso. destruct H as [[H _]|[[H _]|(o' & H & H')]]; congruence.
  - intros e E. cbn [run]. change (step hash (heap, s) (Add op rt rf pt ptn label uuid)) with r. rewrite E. reflexivity.
  - intros heap' s' E. rewrite E in H. destruct H as (o & id & H1 & H2 & H3 & H4 & H5 & H6 & H7 & H8). cbn [fst snd] in *. repeat (split; [assumption|]). exists o, id. repeat (split; [assumption|]). split.
    + unfold operation_of. cbn [wanted s_operation_id]. rewrite H6, (dict_get_set Z.eqb Z.eqb_eq), Z.eqb_refl. reflexivity.
    + intros id' Hne. rewrite H6, (dict_get_set Z.eqb Z.eqb_eq). apply Z.eqb_neq in Hne. rewrite Hne. reflexivity.
Qed.

(** ** Histories *)
Lemma run_app {C} (hash : C -> result Z) h1 : forall w h2, run hash w (h1 ++ h2) = run hash (run hash w h1) h2.
Proof. induction h1 as [|c h1 IH]; intros w h2; [reflexivity|]. cbn [app run]. apply IH. Qed.
Definition invariant (s : sched) : Prop :=
  NoDup (labels s) /\ NoDup (map fst (resource_dict s)) /\
  (forall l x, In (l, x) (schedulables s) -> s_name x = l /\ s_label x = l /\ exists o, operation_of s x = Some o).
Lemma step_inv {C} (hash : C -> result Z) w c w' : invariant (snd w) -> step hash w c = Ok w' -> invariant (snd w').
Proof.
  intros (I1 & I2 & I3) E. destruct c as [op rt rf pt ptn label uuid|o v|n b v|n]; cbn [step] in E.
  - pose proof (add_cases hash w op rt rf pt ptn label uuid) as H. rewrite E in H. destruct H as (o & id & H1 & H2 & H3 & H4 & H5 & H6 & H7 & H8). unfold invariant, labels. rewrite H5, H7, map_app. cbn [map fst]. split; [apply NoDup_snoc; assumption|]. split; [exact I2|].
    intros l x Hi. apply in_app_or in Hi. unfold operation_of. rewrite H6. destruct Hi as [Hi|[[= <- <-]|[]]].
    + destruct (I3 l x Hi) as (J1 & J2 & o' & J3). repeat (split; [assumption|]). rewrite (dict_get_set Z.eqb Z.eqb_eq). destruct (_ =? _); eauto.
    + repeat (split; [reflexivity|]). exists o. cbn [wanted s_operation_id]. rewrite (dict_get_set Z.eqb Z.eqb_eq), Z.eqb_refl. reflexivity.
  - injection E as <-. exact (conj I1 (conj I2 I3)).
  - unfold add_resource in E. destruct w as [hp s]. cbn [snd] in *. destruct b; cbn [negb] in E; [|discriminate]. destruct (dict_mem _ _ _) eqn:Em; [discriminate|]. injection E as <-. apply dict_mem_false in Em. unfold invariant, labels, operation_of. cbn [snd schedulables operation_dict resource_dict].
    split; [exact I1|]. split; [|exact I3]. rewrite (dict_set_new String.eqb String.eqb_eq) by exact Em. rewrite map_app. cbn. apply NoDup_snoc; assumption.
  - unfold set_repetitions in E. destruct w as [hp s]. destruct (n <=? 0); [discriminate|]. injection E as <-. exact (conj I1 (conj I2 I3)).
Qed.
Lemma run_inv {C} (hash : C -> result Z) h : forall w, invariant (snd w) -> invariant (snd (run hash w h)).
Proof. induction h as [|c h IH]; intros w Hw; [exact Hw|]. cbn [run]. apply IH. destruct (step hash w c) as [w'|e] eqn:E; [eapply step_inv; eassumption|exact Hw]. Qed.
Lemma step_prefix {C} (hash : C -> result Z) w c w' : step hash w c = Ok w' -> exists more, schedulables (snd w') = schedulables (snd w) ++ more.
Proof.
  intros E. destruct c as [op rt rf pt ptn label uuid|o v|n b v|n]; cbn [step] in E.
  - pose proof (add_cases hash w op rt rf pt ptn label uuid) as H. rewrite E in H. destruct H as (o & id & _ & _ & _ & _ & H & _). eauto.
  - injection E as <-. exists []. rewrite app_nil_r. reflexivity.
  - unfold add_resource in E. destruct w as [hp s]. destruct (negb b); [discriminate|]. destruct (dict_mem _ _ _); [discriminate|]. injection E as <-. exists []. cbn. rewrite app_nil_r. reflexivity.
  - unfold set_repetitions in E. destruct w as [hp s]. destruct (n <=? 0); [discriminate|]. injection E as <-. exists []. cbn. rewrite app_nil_r. reflexivity.
Qed.
Lemma run_prefix {C} (hash : C -> result Z) h : forall w, exists more, schedulables (snd (run hash w h)) = schedulables (snd w) ++ more.
Proof.
  induction h as [|c h IH]; intros w; [exists []; rewrite app_nil_r; reflexivity|]. cbn [run]. destruct (IH (match step hash w c with Ok w' => w' | Err _ => w end)) as [m Hm]. rewrite Hm. destruct (step hash w c) as [w'|e] eqn:E; [|eauto].
  destruct (step_prefix _ _ _ _ E) as [m1 ->]. exists (m1 ++ m). rewrite app_assoc. reflexivity.
Qed.

(** Second part, every history of calls (failing ones, uuid collisions and mutations of operations included): labels and resource names stay distinct, every schedulable carries its label as its name and its operation id is resolvable,
    the schedulables present at any earlier moment are still there, unchanged, at the front and in the same order *)
Theorem C08_history : forall C (hash : C -> result Z) heap reps h1 h2,
  let s1 := snd (run hash (heap, new_schedule reps) h1) in let s := snd (run hash (heap, new_schedule reps) (h1 ++ h2)) in
  NoDup (labels s) /\ NoDup (map fst (resource_dict s)) /\
  (forall l x, In (l, x) (schedulables s) -> s_name x = l /\ s_label x = l /\ exists o, operation_of s x = Some o) /\
  (exists more, schedulables s = schedulables s1 ++ more).
Proof.
  intros C hash heap reps h1 h2 s1 s. assert (I : invariant s).
  { apply run_inv. cbn [snd]. unfold invariant. cbn. split; [constructor|]. split; [|intros ? ? []]. repeat constructor; cbn; intuition discriminate. }
  destruct I as (I1 & I2 & I3). repeat (split; [assumption|]). unfold s. rewrite run_app. apply run_prefix.
Qed.

(** Third part: if the hash distinguishes contents and the operations are not modified after they were added, every schedulable stands, at the end, for an object with the contents that were added.
    Missing: neither hypothesis is guaranteed by the program, see the refutations below. *)
Definition faithful {C} (hash : C -> result Z) (w : world C) : Prop := forall id o, dict_get Z.eqb (operation_dict (snd w)) id = Some o -> hash (fst w o) = Ok id.
Lemma step_faithful {C} (hash : C -> result Z) w c w' : faithful hash w -> mutates c = false -> step hash w c = Ok w' -> faithful hash w' /\ fst w' = fst w.
Proof.
  intros F Hm E. destruct c as [op rt rf pt ptn label uuid|o v|n b v|n]; cbn [step mutates] in *; try discriminate.
  - pose proof (add_cases hash w op rt rf pt ptn label uuid) as H. rewrite E in H. destruct H as (o & id & H1 & H2 & H3 & H4 & H5 & H6 & H7 & H8). split; [|exact H4]. intros id' o'. rewrite H4, H6, (dict_get_set Z.eqb Z.eqb_eq).
    destruct (Z.eqb_spec id' id) as [->|_]; [intros [= <-]; exact H2|apply F].
  - unfold add_resource in E. destruct w as [hp s]. destruct (negb b); [discriminate|]. destruct (dict_mem _ _ _); [discriminate|]. injection E as <-. split; [exact F|reflexivity].
  - unfold set_repetitions in E. destruct w as [hp s]. destruct (n <=? 0); [discriminate|]. injection E as <-. split; [exact F|reflexivity].
Qed.
Lemma run_faithful {C} (hash : C -> result Z) h : forall w, faithful hash w -> forallb (fun c => negb (mutates c)) h = true -> faithful hash (run hash w h) /\ fst (run hash w h) = fst w.
Proof.
  induction h as [|c h IH]; intros w F Hm; [split; [exact F|reflexivity]|]. cbn [forallb] in Hm. apply andb_true_iff in Hm. destruct Hm as [Hc Hm]. cbn [run]. destruct (step hash w c) as [w'|e] eqn:E; [|apply IH; assumption].
  apply negb_true_iff in Hc. destruct (step_faithful _ _ _ _ F Hc E) as [F' E']. rewrite <- E'. apply IH; assumption.
Qed.
Theorem C08_operation_partial : forall C (hash : C -> result Z) heap reps h1 o rt rf pt ptn label uuid h2 w1,
  (forall a b id, hash a = Ok id -> hash b = Ok id -> a = b) ->
  forallb (fun c => negb (mutates c)) (h1 ++ h2) = true ->
  step hash (run hash (heap, new_schedule reps) h1) (Add (Some o) rt rf pt ptn label uuid) = Ok w1 ->
  let w := run hash (heap, new_schedule reps) (h1 ++ Add (Some o) rt rf pt ptn label uuid :: h2) in
  exists x o', dict_get String.eqb (schedulables (snd w)) (label_of label uuid) = Some x /\ operation_of (snd w) x = Some o' /\ fst w o' = heap o.
Proof.
  intros C hash heap reps h1 o rt rf pt ptn label uuid h2 w1 Hinj Hm E w. rewrite forallb_app in Hm. apply andb_true_iff in Hm. destruct Hm as [Hm1 Hm2].
  assert (F0 : faithful hash (heap, new_schedule reps)) by (intros id o'; cbn; discriminate). destruct (run_faithful hash h1 _ F0 Hm1) as [F1 G1]. destruct (step_faithful hash _ (Add (Some o) rt rf pt ptn label uuid) w1 F1 eq_refl E) as [F2 G2].
  destruct (run_faithful hash h2 _ F2 Hm2) as [F3 G3]. assert (Ew : w = run hash w1 h2) by (unfold w; rewrite run_app; cbn [run]; rewrite E; reflexivity).
  pose proof (C08_history C hash heap reps (h1 ++ Add (Some o) rt rf pt ptn label uuid :: h2) []) as Hh. cbn zeta in Hh. rewrite app_nil_r in Hh. destruct Hh as (Hn & _ & Hres & _). fold w in Hn, Hres.
  pose proof (add_cases hash (run hash (heap, new_schedule reps) h1) (Some o) rt rf pt ptn label uuid) as H. change (add hash (run hash (heap, new_schedule reps) h1) (Some o) rt rf pt ptn label uuid) with (step hash (run hash (heap, new_schedule reps) h1) (Add (Some o) rt rf pt ptn label uuid)) in H. rewrite E in H.
  destruct H as (o0 & id & [= <-] & H2 & H3 & H4 & H5 & _). set (x := wanted id rt rf pt ptn (label_of label uuid)) in *.
  assert (Hin : In (label_of label uuid, x) (schedulables (snd w))).
  { rewrite Ew. destruct (run_prefix hash h2 w1) as [m ->]. rewrite H5. apply in_or_app. left. apply in_or_app. right. left. reflexivity. }
  destruct (Hres _ _ Hin) as (_ & _ & o' & Ho'). exists x, o'. split; [|split; [exact Ho'|]].
  - clear - Hin Hn. unfold labels in Hn. induction (schedulables (snd w)) as [|[l0 x0] l IH]; [destruct Hin|]. cbn [map fst] in Hn. inversion Hn as [|? ? Hnot Hn']; subst. cbn [dict_get]. destruct Hin as [[= -> ->]|Hin]; [rewrite String.eqb_refl; reflexivity|].
    destruct (String.eqb_spec (label_of label uuid) l0) as [<-|_]; [exfalso; apply Hnot; apply in_map_iff; exists (label_of label uuid, x); auto|apply IH; assumption].
  - rewrite Ew in *. specialize (F3 id o' Ho'). rewrite G1 in H2. cbn [fst] in H2. replace (heap o) with (fst (run hash w1 h2) o) by (rewrite G3, G2, G1; reflexivity). eapply Hinj; [exact F3|]. rewrite G3, G2, G1. exact H2.
Qed.

(** repetitions: whatever is assigned later, they stay positive if they were at creation *)
Theorem C08_repetitions : forall C (hash : C -> result Z) heap reps h, 0 < reps -> 0 < repetitions (snd (run hash (heap, new_schedule reps) h)).
Proof.
  intros C hash heap reps h Hr. assert (G : forall h w, 0 < repetitions (snd w) -> 0 < repetitions (snd (run hash w h))); [|apply G; exact Hr]. clear. induction h as [|c h IH]; intros w Hw; [exact Hw|]. cbn [run]. apply IH. destruct (step hash w c) as [w'|e] eqn:E; [|exact Hw].
  destruct c as [op rt rf pt ptn label uuid|o v|n b v|n]; cbn [step] in E.
  - pose proof (add_cases hash w op rt rf pt ptn label uuid) as H. rewrite E in H. destruct H as (o & id & _ & _ & _ & _ & _ & _ & _ & ->). exact Hw.
  - injection E as <-. exact Hw.
  - unfold add_resource in E. destruct w as [hp s]. destruct (negb b); [discriminate|]. destruct (dict_mem _ _ _); [discriminate|]. injection E as <-. exact Hw.
  - unfold set_repetitions in E. destruct w as [hp s]. destruct (Z.leb_spec n 0); [discriminate|]. injection E as <-. cbn. assumption.
Qed.

(** ** Where the operation of a schedulable is silently exchanged *)
Definition add_plain {C} (o : nat) (l : string) : call C := Add (Some o) 0%Q RefNone None None (Some l) "".
(** A sub-schedule is filled after it was added; a second one with the same name, still empty, is added: the first schedulable then stands for the second, empty object.
    Contents: number of operations in the sub-schedule. *)
Theorem C08_mutation_replaces : let hash := fun n : Z => Ok n in
  let w := run hash (fun _ => 0, new_schedule 1) [add_plain 0 "first"; Mutate 0%nat 3; add_plain 1 "second"] in
  exists x, dict_get String.eqb (schedulables (snd w)) "first" = Some x /\ operation_of (snd w) x = Some 1%nat /\ fst w 0%nat = 3 /\ fst w 1%nat = 0.
Proof. eexists. repeat split; vm_compute; reflexivity. Qed.
(** ... even if the hash were perfect. It is not: CPython's hash does not distinguish -1 from -2, so neither does make_hash; whatever the hashes of strings, tuples and dictionaries are,
    ShiftClockPhase(-1, clock) and ShiftClockPhase(-2, clock) have the same operation id, and both schedulables end up with the phase shift added last *)
Theorem C08_hash_collision : forall hnone hstr htuple hdict clock,
  let hash := fun v => Ok (make_hash hnone hstr htuple hdict v) in
  let heap := fun o => match o with 0%nat => shift_clock_phase (-1) clock | _ => shift_clock_phase (-2) clock end in
  let w := run hash (heap, new_schedule 1) [add_plain 0 "first"; add_plain 1 "second"] in
  exists x, dict_get String.eqb (schedulables (snd w)) "first" = Some x /\ operation_of (snd w) x = Some 1%nat /\ fst w 1%nat = shift_clock_phase (-2) clock.
Proof.
  intros hnone hstr htuple hdict clock hash heap w. unfold w, add_plain. cbn [run step add dict_mem dict_get schedulables new_schedule bind hash operation_dict heap dict_set fst snd].
  assert (E : make_hash hnone hstr htuple hdict (shift_clock_phase (-2) clock) = make_hash hnone hstr htuple hdict (shift_clock_phase (-1) clock)) by reflexivity.
  rewrite E. set (id := make_hash hnone hstr htuple hdict (shift_clock_phase (-1) clock)). clearbody id. cbn [label_of dict_mem dict_get String.eqb Ascii.eqb Bool.eqb schedulables bind operation_dict dict_set run fst snd]. rewrite Z.eqb_refl.
  eexists. split; [reflexivity|]. split; [|reflexivity]. unfold operation_of. cbn [operation_dict s_operation_id dict_get]. rewrite Z.eqb_refl. reflexivity.
Qed.
(** integers of usual size have no other collision *)
Theorem C08_int_hash : forall a b, Z.abs a < 2 ^ 61 - 1 -> Z.abs b < 2 ^ 61 - 1 -> (py_hash_int a = py_hash_int b <-> a = b \/ (a = -1 /\ b = -2) \/ (a = -2 /\ b = -1)).
Proof.
  assert (G : forall a, Z.abs a < 2 ^ 61 - 1 -> py_hash_int a = if a =? -1 then -2 else a).
  { intros a Ha. unfold py_hash_int. rewrite Z.mod_small by lia. destruct (Z.ltb_spec a 0); [rewrite Z.abs_neq by lia; rewrite Z.opp_involutive; reflexivity|rewrite Z.abs_eq by lia; reflexivity]. }
  intros a b Ha Hb. rewrite (G a Ha), (G b Hb). destruct (Z.eqb_spec a (-1)), (Z.eqb_spec b (-1)); lia.
Qed.

Example C08_ex : let hash := fun n : Z => if n <? 0 then Err TypeError else Ok n in
  let w := run hash (fun o => Z.of_nat o - 1, new_schedule 1) [add_plain 1 "a"; add_plain 2 "a"; add_plain 0 "b"; Add None 0%Q RefNone None None None "u1"; Add (Some 2%nat) 0%Q (RefLabel "a") None None None "u1"; Add (Some 1%nat) 0%Q RefNone None None None "u1"; SetRepetitions 0] in
  labels (snd w) = ["a"; "u1"]%string /\ operation_dict (snd w) = [(0, 1%nat); (1, 2%nat)].
Proof. vm_compute. auto. Qed.
Print Assumptions C08_history.
Print Assumptions C08_operation_partial.
Print Assumptions C08_hash_collision.
