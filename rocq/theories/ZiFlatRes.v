(** C50: resources of the flattened schedule; what is left in its operations; a worked case, and where the plain claim fails. *)
From Verif Require Import Base ZiModel ZiProps ZiIds ZiFlat ZiFlatProps ZiFlatThms ZiExamples.
From Coq Require Import Permutation Qfield Lqa.
Open Scope Q_scope.

Section Res.
Context {A R : Type}.
Variables (hash : A -> Z) (uuid : nat -> string).
Notation item := (@item A R).
Notation flatten := (@flatten A R hash uuid).

Lemma sput_in {B} (d : list (string * B)) k v q : In q (sput d k v) -> q = (k, v) \/ In q d.
Proof. induction d as [|[k1 v1] d IH]; cbn [sput]; [intros [<-|[]]; auto|]. destruct (String.eqb_spec k k1) as [->|n]; [intros [<-|h]; [auto|right; now right]|]. intros [<-|h]; [right; now left|]. destruct (IH h); [auto|right; now right]. Qed.
Lemma sput_names {B} (d : list (string * B)) k v x : In x (map fst (sput d k v)) <-> x = k \/ In x (map fst d).
Proof. induction d as [|[k1 v1] d IH]; cbn [sput map fst In]; [intuition|]. destruct (String.eqb_spec k k1) as [->|n]; cbn [map fst In]; [intuition|]. rewrite IH. intuition. Qed.
Lemma update_facts {B} (r : list (string * B)) : forall d, (forall q, In q (fold_left (fun d q => sput d (fst q) (snd q)) r d) -> In q r \/ In q d) /\ (forall x, In x (map fst (fold_left (fun d q => sput d (fst q) (snd q)) r d)) <-> In x (map fst r) \/ In x (map fst d)).
Proof. induction r as [|[k v] r IH]; intros d; cbn [fold_left fst snd map In]; [intuition|]. destruct (IH (sput d k v)) as [h1 h2]. split; [intros q hq; destruct (h1 q hq) as [h|h]; [auto|]; destruct (sput_in _ _ _ _ h); auto|]. intros x. rewrite h2, sput_names. intuition. Qed.
Definition inner_res (p : Z * item) : list (string * R) := match snd p with Leaf _ => [] | Sub _ _ r => r end.
Lemma collect_facts ops1 : forall d, let all := fold_left (fun d (p : Z * item) => match snd p with Leaf _ => d | Sub _ _ r => fold_left (fun d q => sput d (fst q) (snd q)) r d end) ops1 d in
  (forall q, In q all -> In q d \/ In q (flat_map inner_res ops1)) /\ (forall x, In x (map fst all) <-> In x (map fst d) \/ In x (map fst (flat_map inner_res ops1))).
Proof. induction ops1 as [|[k y] ops1 IH]; intros d; cbn [fold_left snd flat_map]; [cbn; intuition|]. destruct y as [a|o s r]; unfold inner_res at 1 3; cbn [snd app]; [apply IH|]. cbn zeta in IH |- *. destruct (IH (fold_left (fun d q => sput d (fst q) (snd q)) r d)) as [h1 h2]. destruct (update_facts r d) as [u1 u2]. split.
  - intros q hq. rewrite in_app_iff. destruct (h1 q hq) as [h|h]; [destruct (u1 q h); auto|auto].
  - intros x. rewrite h2, u2, map_app, in_app_iff. tauto. Qed.
Lemma add_missing_facts (all : list (string * R)) : forall d, exists extra, fold_left (fun d q => match sget d (fst q) with None => d ++ [q] | Some _ => d end) all d = d ++ extra /\ (forall q, In q extra -> In q all) /\ (forall x, In x (map fst (d ++ extra)) <-> In x (map fst d) \/ In x (map fst all)) /\ (NoDup (map fst d) -> NoDup (map fst (d ++ extra))).
Proof. induction all as [|[k v] all IH]; intros d; cbn [fold_left fst]; [exists []; rewrite app_nil_r; cbn; intuition|]. destruct (sget d k) as [v0|] eqn:e.
  - destruct (IH d) as (ex & h1 & h2 & h3 & h4). exists ex. split; [exact h1|]. split; [intros q hq; right; auto|]. split; [|exact h4]. intros x. rewrite h3. cbn [map fst In]. apply sget_in' in e. assert (In k (map fst d)) by (apply in_map_iff; exists (k, v0); auto). split; intros [h|h]; auto. destruct h as [<-|h]; auto.
  - destruct (IH (d ++ [(k, v)])) as (ex & h1 & h2 & h3 & h4). exists ((k, v) :: ex). rewrite <- app_assoc in h1, h3, h4. split; [exact h1|]. split; [intros q [<-|hq]; [now left|right; auto]|]. split; [intros x; rewrite h3, map_app, in_app_iff; cbn [map fst In]; intuition|]. intros nd. apply h4. rewrite map_app. cbn [map fst]. apply LibProps.nodup_app_intro; [exact nd|repeat constructor; auto|]. intros x hx [<-|[]]. now apply sget_none in e. Qed.

Lemma flatten_res i : forall n i' n', flatten i n = Ok (i', n') ->
  match i with
  | Leaf a => i' = Leaf a
  | Sub _ _ res => exists ops' schs' extra, i' = Sub ops' schs' (res ++ extra) /\ (forall x, In x (map fst (res ++ extra)) <-> In x (map fst (resources i))) /\ (forall q, In q extra -> In q (resources i)) /\ (NoDup (map fst res) -> NoDup (map fst (res ++ extra)))
  end.
Proof. induction i as [a|ops schs res IHo] using item_induction; intros n i' n' h; [injection h as <- <-; reflexivity|].
  rewrite flatten_sub in h. apply bind_Ok in h. destruct h as ([ops1 n1] & f1 & h). cbn [fst snd] in h. apply bind_Ok in h. destruct h as ([[[ops2 schs2] n2] [ok sk]] & _ & h). injection h as <- <-.
  assert (IN : (forall q, In q (flat_map inner_res ops1) -> In q (flat_map (fun p => resources (snd p)) ops)) /\ (forall x, In x (map fst (flat_map inner_res ops1)) <-> In x (map fst (flat_map (fun p => resources (snd p)) ops)))).
  { clear -f1 IHo. revert n ops1 n1 f1. induction IHo as [|[k x] ops h0 _ IH]; intros n ops1 n1 f1; cbn [flatten_ops] in f1; [injection f1 as <- <-; cbn; intuition|].
    apply bind_Ok in f1. destruct f1 as ([y m] & g1 & f1). cbn [fst snd] in f1. apply bind_Ok in f1. destruct f1 as ([r m'] & g2 & f1). injection f1 as <- <-. destruct (IH _ _ _ g2) as [i1 i2]. cbn [snd] in h0. specialize (h0 _ _ _ g1). cbn [flat_map fst snd].
    assert (Y : (forall q, In q (inner_res (k, y)) -> In q (resources x)) /\ (forall z, In z (map fst (inner_res (k, y))) <-> In z (map fst (resources x)))).
    { destruct x as [a|xo xs xr]; [subst y; cbn; intuition|]. destruct h0 as (o' & s' & ex & -> & e1 & e2 & _). unfold inner_res. cbn [snd]. split; [|exact e1]. intros q hq. apply in_app_iff in hq. destruct hq as [hq|hq]; [cbn; apply in_app_iff; now left|auto]. }
    destruct Y as [y1 y2]. split; [intros q; rewrite !in_app_iff; intros [hq|hq]; auto|]. intros z. rewrite !map_app, !in_app_iff, y2, i2. tauto. }
  destruct IN as [in1 in2]. unfold own_first. destruct (collect_facts ops1 res) as [c1 c2]. destruct (add_missing_facts (fold_left (fun d (p : Z * item) => match snd p with Leaf _ => d | Sub _ _ r => fold_left (fun d q => sput d (fst q) (snd q)) r d end) ops1 res) res) as (ex & a1 & a2 & a3 & a4). cbn [fst]. rewrite a1. do 2 eexists. exists ex. split; [reflexivity|]. cbn [resources]. split; [|split; [|exact a4]].
  - intros x. rewrite a3, c2, in2, map_app, in_app_iff. tauto.
  - intros q hq. apply a2, c1 in hq. apply in_app_iff. destruct hq; auto. Qed.

(** Own resources stay, in front; every resource of every inner schedule is there under its name, and nothing else. *)
Theorem C50_resources ops schs res n i' n' : flatten (Sub ops schs res) n = Ok (i', n') -> exists ops' schs' extra, i' = Sub ops' schs' (res ++ extra)
  /\ (forall x, In x (map fst (res ++ extra)) <-> In x (map fst (resources (Sub ops schs res)))) /\ (forall q, In q extra -> In q (resources (Sub ops schs res))) /\ (NoDup (map fst res) -> NoDup (map fst (res ++ extra))).
Proof. intros h. exact (flatten_res _ _ _ _ h). Qed.
End Res.

(** If all schedules agree on a resource, the flattened schedule has that one. *)
Theorem C50_agreed {A R} (hash : A -> Z) uuid ops schs (res : list (string * R)) n ops' schs' res' n' : flatten hash uuid (Sub ops schs res) n = Ok (Sub ops' schs' res', n') -> forall x v, In (x, v) (resources (Sub ops schs res)) -> (forall v', In (x, v') (resources (Sub ops schs res)) -> v' = v) -> In (x, v) res'.
Proof. intros h x v hi hu. destruct (C50_resources _ _ _ _ _ _ _ _ h) as (o & s & ex & e & h1 & h2 & _). injection e as -> -> ->. assert (K : In x (map fst (res ++ ex))) by (apply h1; apply in_map_iff; exists (x, v); auto). apply in_map_iff in K. destruct K as ([x' v'] & e & K). cbn in e. subst x'. assert (v' = v) as <-; [|exact K]. apply hu. apply in_app_iff in K. destruct K as [K|K]; [cbn; apply in_app_iff; now left|auto]. Qed.

(** * A worked case *)
(** X, then twice a schedule in which X and a schedule with the readout are played. *)
Definition demo_hash (o : operation) : Z := Z.of_nat (String.length (o_str o)).
Definition demo_uuid (n : nat) : string := ("uuid" ++ JsonModel.dec_Z (Z.of_nat n))%string.
Definition inner2 : item operation Q := Sub [(11%Z, Leaf readout)] [("r"%string, (11%Z, Some (ns 10)))] [("q0.ro"%string, 7)].
Definition inner1 : item operation Q := Sub [(5%Z, Leaf x_gate); (102%Z, inner2)] [("a"%string, (5%Z, Some 0)); ("b"%string, (102%Z, Some (ns 20)))] [("q0.01"%string, 6)].
Definition outer : item operation Q := Sub [(5%Z, Leaf x_gate); (101%Z, inner1)] [("s0"%string, (5%Z, Some (ns 40))); ("s1"%string, (101%Z, Some (ns 100))); ("s2"%string, (101%Z, Some (ns 500)))] [].
Definition played (r : result (item operation Q * nat)) : list (string * Q) := match r with Ok (i, _) => map (fun p => (o_str (fst p), Qred (snd p))) (timeline i) | Err _ => [] end.
Example outer_played : played (flatten demo_hash demo_uuid outer 0) = [("X(q0)"%string, Qred (ns 40)); ("X(q0)"%string, Qred (ns 100)); ("Readout(q0)"%string, Qred (ns 130)); ("X(q0)"%string, Qred (ns 500)); ("Readout(q0)"%string, Qred (ns 530))].
Proof. vm_compute. reflexivity. Qed.
Lemma demo_uuid_fresh : uuids_fresh demo_uuid outer.
Proof. split.
  - intros m n h. unfold demo_uuid in h. cbn [String.append] in h. injection h as h. apply ZiIds.dec_inj in h; lia.
  - intros n h. cbn in h. unfold demo_uuid in h. cbn [String.append] in h. repeat (destruct h as [h|h]; [discriminate|]). exact h. Qed.
Example outer_hyps : complete outer /\ well_keyed outer /\ no_clash demo_hash outer /\ hash_injective demo_hash outer /\ uuids_fresh demo_uuid outer.
Proof. split; [|split; [|split; [|split; [|exact demo_uuid_fresh]]]].
  - cbn. repeat split; try discriminate; intros; repeat match goal with h : _ \/ _ |- _ => destruct h as [h|h] end; subst; cbn in *; try discriminate; try tauto.
  - cbn. repeat split; repeat constructor; cbn; intuition discriminate.
  - intros k x a h1 h2 h3. cbn in h1, h2. repeat (destruct h2 as [h2|h2]; [subst a|]); try destruct h2; vm_compute in h3; repeat (destruct h1 as [h1|h1]; [injection h1 as ? ?; subst; try discriminate; reflexivity|]); destruct h1.
  - intros a b h1 h2 h3. cbn in h1, h2. repeat (destruct h1 as [h1|h1]; [subst a|]); try destruct h1; (repeat (destruct h2 as [h2|h2]; [subst b|]); try destruct h2); try reflexivity; vm_compute in h3; discriminate. Qed.

(** * What does not hold *)
(** Two inner schedules with different frequencies for one clock: the second one's is used for both. *)
Definition sub_with (f : Q) (k : Z) : item operation Q := Sub [(k, Leaf x_gate)] [("a"%string, (k, Some 0))] [("q0.01"%string, f)].
Theorem C50_clock_refuted : match flatten demo_hash demo_uuid (Sub [(101%Z, sub_with 6 5); (102%Z, sub_with 7 5)] [("s0"%string, (101%Z, Some 0)); ("s1"%string, (102%Z, Some (ns 100)))] []) 0 with Ok (Sub _ _ res, _) => res | _ => [] end = [("q0.01"%string, 7)].
Proof. vm_compute. reflexivity. Qed.
(** An operation that is in the schedule under an older key (as after the gates have been compiled to pulses) and in an inner schedule: it is in the result twice, which the backend then rejects. *)
Definition stale : item operation Q := Sub [(1%Z, Leaf x_gate); (101%Z, sub_with 6 2)] [("s0"%string, (1%Z, Some (ns 40))); ("s1"%string, (101%Z, Some (ns 100)))] [].
Definition as_schedule (i : item operation Q) : schedule := match i with Leaf _ => {| s_operations := []; s_schedulables := []; s_repetitions := 1%Z |} | Sub ops schs _ => {| s_operations := flat_map (fun p => match snd p with Leaf a => [(fst p, a)] | _ => [] end) ops; s_schedulables := map snd schs; s_repetitions := 1%Z |} end.
Definition then_compile (r : result (item operation Q * nat)) : result (list (string * device_config)) := do x <- r; compile by_time (as_schedule (fst x)) [hdawg] [].
Theorem C50_twins_refuted : played (flatten demo_hash demo_uuid stale 0) = [("X(q0)"%string, Qred (ns 40)); ("X(q0)"%string, Qred (ns 100))]
  /\ then_compile (flatten demo_hash demo_uuid stale 0) = Err ValueError /\ accepted (compile by_time (sched [(x_gate, ns 40)]) [hdawg] []) = true.
Proof. vm_compute. auto. Qed.
(** A key that is the hash of another operation: the inner operation replaces the outer one. *)
Theorem C50_clash_refuted : played (flatten (fun _ => 1%Z) demo_uuid (Sub [(1%Z, Leaf y_gate); (101%Z, sub_with 6 2)] [("s0"%string, (1%Z, Some (ns 40))); ("s1"%string, (101%Z, Some (ns 100)))] []) 0) = [("X(q0)"%string, Qred (ns 40)); ("X(q0)"%string, Qred (ns 100))].
Proof. vm_compute. reflexivity. Qed.
