(** C33: relative latency corrections. *)
From Verif Require Import Base NumericModel NumericProps LatencyModel.
Open Scope Q_scope.

Lemma dget_dset d k v k' : dget (dset d k v) k' = if String.eqb k' k then Some v else dget d k'.
Proof.
  induction d as [|[q w] d IH]; cbn [dset dget]; [reflexivity|]. destruct (String.eqb_spec k q) as [->|Hq]; cbn [dget].
  - destruct (String.eqb_spec k' q); reflexivity.
  - rewrite IH. destruct (String.eqb_spec k' q) as [->|]; [|reflexivity]. destruct (String.eqb_spec q k); [congruence|reflexivity].
Qed.
Lemma dget_In d k v : dget d k = Some v -> In (k, v) d.
Proof. induction d as [|[q w] d IH]; cbn [dget]; [discriminate|]. destruct (String.eqb_spec k q) as [->|_]; [intros [= ->]; left; reflexivity|right; auto]. Qed.
Lemma dset_keys d k v : NoDup (map fst d) -> NoDup (map fst (dset d k v)) /\ forall x, In x (map fst (dset d k v)) <-> x = k \/ In x (map fst d).
Proof.
  induction d as [|[q w] d IH]; cbn [dset map fst]; intros Hn; [split; [repeat constructor; intros []|intros x; cbn; intuition]|]. inversion Hn as [|? ? Hni Hn']; subst.
  destruct (String.eqb_spec k q) as [->|Hq]; cbn [map fst].
  - split; [exact Hn|]. intros x. cbn. intuition.
  - destruct (IH Hn') as [H1 H2]. split; [constructor; [rewrite H2; intros [H|H]; [congruence|contradiction]|exact H1]|]. intros x. cbn [In]. rewrite H2. intuition.
Qed.
Lemma In_dget d k v : NoDup (map fst d) -> In (k, v) d -> dget d k = Some v.
Proof.
  induction d as [|[q w] d IH]; intros Hn []; cbn [dget map fst] in *.
  - injection H as -> ->. rewrite String.eqb_refl. reflexivity.
  - inversion Hn as [|? ? Hni Hn']; subst. destruct (String.eqb_spec k q) as [->|_]; [exfalso; apply Hni; apply (in_map fst) in H; exact H|auto].
Qed.
Lemma fold_dset t pcs : forall d, NoDup (map fst d) -> (forall k v, dget d k = Some v -> v = dget0 t k) ->
  let r := fold_left (fun d pc => dset d pc (dget0 t pc)) pcs d in
  NoDup (map fst r) /\ (forall k, dget r k = if in_dec string_dec k pcs then Some (dget0 t k) else dget d k).
Proof.
  induction pcs as [|p pcs IH]; intros d Hn Hd; cbn zeta; cbn [fold_left]; [split; [exact Hn|]; intros k; destruct (in_dec string_dec k []) as [[]|]; reflexivity|].
  destruct (IH (dset d p (dget0 t p))) as [H1 H2]; [apply dset_keys, Hn| |].
  - intros k v. rewrite dget_dset. destruct (String.eqb_spec k p) as [->|]; [congruence|apply Hd].
  - split; [exact H1|]. intros k. rewrite H2, dget_dset. destruct (in_dec string_dec k pcs) as [Hi|Hi], (in_dec string_dec k (p :: pcs)) as [Hj|Hj]; try reflexivity.
    + exfalso. apply Hj. right. exact Hi.
    + destruct Hj as [<-|Hj]; [rewrite String.eqb_refl; reflexivity|contradiction].
    + destruct (String.eqb_spec k p) as [->|]; [exfalso; apply Hj; left; reflexivity|reflexivity].
Qed.
Lemma min_spec l : l <> [] -> (forall x, In x l -> min_values l <= x) /\ exists x, In x l /\ min_values l == x.
Proof.
  destruct l as [|a l]; [congruence|]. intros _. cbn [min_values]. revert a. induction l as [|y l IH]; intros a; cbn [fold_left].
  - split; [intros x [<-|[]]; lra|]. exists a. split; [left; reflexivity|reflexivity].
  - destruct (IH (Qmin a y)) as [H1 (x & Hx & Ex)]. split.
    + intros z [<-|[<-|Hz]]; [specialize (H1 _ (or_introl eq_refl)); pose proof (Q.le_min_l a y); lra|specialize (H1 _ (or_introl eq_refl)); pose proof (Q.le_min_r a y); lra|apply H1; right; exact Hz].
    + destruct Hx as [<-|Hx]; [|exists x; split; [right; right; exact Hx|exact Ex]]. destruct (Q.min_spec a y) as [[_ E]|[_ E]]; [exists a|exists y]; (split; [auto with *|rewrite Ex; exact E]).
Qed.
Lemma dget_map d m k : dget (map (fun '(k, v) => (k, v - m)) d) k = match dget d k with Some v => Some (v - m) | None => None end.
Proof. induction d as [|[q w] d IH]; cbn [map dget]; [reflexivity|]. destruct (String.eqb k q); [reflexivity|exact IH]. Qed.

(** ** C33: the result has exactly the port-clocks of the schedule; there is one amount m, the smallest configured latency among them (unspecified ones counting as 0), such that each port-clock gets its
    configured latency minus m. Hence all are >= 0, one is 0, and differences are the configured ones. *)
Theorem C33_relative : forall (pcs : list string) (table : dict),
  let r := relative_latencies pcs (Some table) in
  let conf pc := match dget table pc with Some v => v | None => 0 end in
  (forall pc, ~ In pc pcs -> dget r pc = None) /\ NoDup (map fst r) /\
  (pcs <> [] -> exists m, (exists pc, In pc pcs /\ m == conf pc) /\ (forall pc, In pc pcs -> m <= conf pc) /\ forall pc, In pc pcs -> exists v, dget r pc = Some v /\ v == conf pc - m) /\
  (forall pc v, dget r pc = Some v -> 0 <= v) /\ (pcs <> [] -> exists pc v, dget r pc = Some v /\ v == 0) /\
  (forall p1 p2 v1 v2, dget r p1 = Some v1 -> dget r p2 = Some v2 -> v1 - v2 == conf p1 - conf p2).
Proof.
  intros pcs table r conf. unfold r, relative_latencies. destruct (fold_dset table pcs []) as [Hn Hg]; [constructor|discriminate|]. cbn zeta in Hn, Hg. set (rel := fold_left (fun (d : dict) pc => dset d pc (dget0 table pc)) pcs []) in *. set (m := min_values (map snd rel)).
  assert (Hget : forall pc, dget (map (fun '(k, v) => (k, v - m)) rel) pc = if in_dec string_dec pc pcs then Some (conf pc - m) else None).
  { intros pc. rewrite dget_map, Hg. destruct (in_dec string_dec pc pcs); reflexivity. }
  assert (Hvals : forall x, In x (map snd rel) <-> exists pc, In pc pcs /\ x = conf pc).
  { intros x. rewrite in_map_iff. split.
    - intros ([k v] & <- & Hin). apply (In_dget _ _ _ Hn) in Hin. rewrite Hg in Hin. destruct (in_dec string_dec k pcs) as [Hi|]; [|discriminate]. injection Hin as <-. exists k. auto.
    - intros (pc & Hi & ->). exists (pc, conf pc). split; [reflexivity|]. apply dget_In. rewrite Hg. destruct (in_dec string_dec pc pcs); [reflexivity|contradiction]. }
  assert (Hm : pcs <> [] -> (exists pc, In pc pcs /\ m == conf pc) /\ (forall pc, In pc pcs -> m <= conf pc)).
  { intros Hne. destruct (min_spec (map snd rel)) as [H1 (x & Hx & Ex)].
    - intros E. destruct pcs as [|p pcs]; [congruence|]. assert (Hx : In (conf p) (map snd rel)) by (apply Hvals; exists p; split; [left|]; reflexivity). rewrite E in Hx. destruct Hx.
    - split; [apply Hvals in Hx; destruct Hx as (pc & Hi & ->); eauto|]. intros pc Hi. apply H1, Hvals. eauto. }
  repeat split.
  - intros pc Hi. rewrite Hget. destruct (in_dec string_dec pc pcs); [contradiction|reflexivity].
  - rewrite map_map. replace (map _ rel) with (map fst rel) by (apply map_ext; intros [? ?]; reflexivity). exact Hn.
  - intros Hne. exists m. destruct (Hm Hne) as [H1 H2]. split; [exact H1|]. split; [exact H2|]. intros pc Hi. rewrite Hget. destruct (in_dec string_dec pc pcs); [|contradiction]. eexists. split; reflexivity.
  - intros pc v. rewrite Hget. destruct (in_dec string_dec pc pcs) as [Hi|]; [|discriminate]. intros [= <-]. destruct Hm as [_ H2]; [intros ->; destruct Hi|]. specialize (H2 pc Hi). lra.
  - intros Hne. destruct (Hm Hne) as [(pc & Hi & E) _]. exists pc, (conf pc - m). rewrite Hget. destruct (in_dec string_dec pc pcs); [|contradiction]. split; [reflexivity|]. rewrite E. ring.
  - intros p1 p2 v1 v2. rewrite !Hget. destruct (in_dec string_dec p1 pcs), (in_dec string_dec p2 pcs); try discriminate. intros [= <-] [= <-]. ring.
Qed.

(** the sequencer programs: every sequencer waits at least 4 ns before its body, and for latencies that are whole nanoseconds the bodies of two port-clocks start exactly as far apart as configured;
    in general each is off by at most half a nanosecond *)
Theorem C33_start_times : forall (pcs : list string) (table : dict), let conf pc := match dget table pc with Some v => v | None => 0 end in
  forall p1 p2, In p1 pcs -> In p2 pcs ->
  let w1 := initial_wait (sequencer_latency pcs (Some table) p1) in let w2 := initial_wait (sequencer_latency pcs (Some table) p2) in
  (4 <= w1)%Z /\ (- 1 <= (inject_Z w1 - inject_Z w2) - (conf p1 - conf p2) * 1000000000 <= 1) /\
  ((forall pc, In pc pcs -> exists n, conf pc * 1000000000 == inject_Z n) -> inject_Z w1 - inject_Z w2 == (conf p1 - conf p2) * 1000000000).
Proof.
  intros pcs table conf p1 p2 H1 H2 w1 w2. destruct (C33_relative pcs table) as (_ & _ & Hm & _). destruct Hm as (m & (pm & Hpm & Em) & Hmin & Hv); [intros ->; destruct H1|]. change (m == conf pm) in Em. change (forall pc, In pc pcs -> m <= conf pc) in Hmin. change (forall pc, In pc pcs -> exists v, dget (relative_latencies pcs (Some table)) pc = Some v /\ v == conf pc - m) in Hv. clearbody conf.
  assert (Hw : forall p, In p pcs -> initial_wait (sequencer_latency pcs (Some table) p) = (4 + py_round ((conf p - m) * 1000000000))%Z).
  { intros p Hp. destruct (Hv p Hp) as (v & Hg & Ev). unfold sequencer_latency, dget0. rewrite Hg. unfold initial_wait. rewrite (py_round_comp ((conf p - m) * 1000000000) (v * 1000000000)) by (rewrite Ev; reflexivity).
    destruct (Qeq_bool v 0) eqn:E; [|reflexivity]. apply Qeq_bool_iff in E. rewrite (py_round_comp (v * 1000000000) (inject_Z 0)) by (rewrite E; reflexivity). rewrite py_round_int. reflexivity. }
  unfold w1, w2. rewrite (Hw p1 H1), (Hw p2 H2). rewrite !inject_Z_plus. change (inject_Z 4) with 4. pose proof (py_round_spec ((conf p1 - m) * 1000000000)) as [R1 R1']. pose proof (py_round_spec ((conf p2 - m) * 1000000000)) as [R2 R2'].
  split; [|split].
  - assert (Hq : m <= conf p1) by exact (Hmin p1 H1). assert (Hlt : (-1 < py_round ((conf p1 - m) * 1000000000))%Z); [|lia]. apply inject_Z_lt. change (inject_Z (-1)) with (- (1)). lra.
  - lra.
  - intros Hint. assert (Hr : forall p, In p pcs -> inject_Z (py_round ((conf p - m) * 1000000000)) == (conf p - m) * 1000000000).
    { intros p Hp. destruct (Hint p Hp) as [a Ha]. destruct (Hint pm Hpm) as [b Hb]. assert (E : (conf p - m) * 1000000000 == inject_Z (a - b)) by (unfold Z.sub; rewrite inject_Z_plus, inject_Z_opp, <- Ha, <- Hb, Em; ring).
      rewrite (py_round_comp _ _ E), py_round_int. symmetry. exact E. }
    rewrite (Hr p1 H1), (Hr p2 H2). ring.
Qed.
(** without a table of corrections all sequencers wait 4 ns *)
Theorem C33_none : forall pcs pc, initial_wait (sequencer_latency pcs None pc) = 4%Z. Proof. reflexivity. Qed.

Example C33_ex : let t := [("a"%string, 8 # 1000000000); ("b"%string, -(4 # 1000000000)); ("z"%string, -(100 # 1))] in
  map (fun pc => initial_wait (sequencer_latency ["a"; "b"; "c"]%string (Some t) pc)) ["a"; "b"; "c"]%string = [16; 4; 8]%Z.
Proof. vm_compute. reflexivity. Qed.
Print Assumptions C33_relative.
Print Assumptions C33_start_times.
