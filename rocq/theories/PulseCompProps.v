(** C12, C13: compensation pulses cancel the flux and start after the last pulse. *)
From Verif Require Import Base QSort TimingModel TimingSpec TimingProps TableModel TableProps PulseCompModel.
From Coq Require Import List.
Open Scope string_scope.
Open Scope list_scope.
Open Scope Q_scope.

(** ** Specification, in terms of the rows of the timing table (one row per executed pulse) *)
(** the row is a pulse played on the port with the baseband clock *)
Definition on_port (p : string) (r : row) : Prop := r_is_acq r = false /\ port (r_what r) = Some p /\ clock (r_what r) = "cl0.baseband".
Definition on_portb (p : string) (r : row) : bool := negb (r_is_acq r) && match port (r_what r) with Some q => String.eqb q p | None => false end && String.eqb (clock (r_what r)) baseband.
Definition row_area (r : row) : Q := match wave (r_what r) with Square a => a * r_duration r | Sampled m => m * r_duration r | _ => 0 end.
(** the sum of amplitude times duration over all executed baseband pulses on the port *)
Fixpoint flux (p : string) (rows : list row) : Q := match rows with [] => 0 | r :: l => (if on_portb p r then row_area r else 0) + flux p l end.

Lemma on_portb_iff p r : on_portb p r = true <-> on_port p r.
Proof.
  unfold on_portb, on_port, baseband. rewrite !andb_true_iff, negb_true_iff, (String.eqb_eq (clock _)). destruct (port (r_what r)) as [q|]; [rewrite String.eqb_eq|]; (split; [intros [[H1 H2] H3]|intros (H1 & H2 & H3)]); repeat split; congruence.
Qed.
Lemma flux_app p a b : flux p (a ++ b) == flux p a + flux p b.
Proof. induction a as [|r a IH]; cbn [app flux]; [lra|]. rewrite IH. lra. Qed.
Lemma flux_none p rows : (forall r, In r rows -> ~ on_port p r) -> flux p rows == 0.
Proof. induction rows as [|r l IH]; intros H; cbn [flux]; [lra|]. destruct (on_portb p r) eqn:E; [apply on_portb_iff in E; exfalso; eapply H; [left; reflexivity|exact E]|]. rewrite IH; [lra|]. intros x Hx. apply H. right. exact Hx. Qed.

(** ** Dictionaries *)
Lemma lookup_app {A} (a b : list (string * A)) p : lookup (a ++ b) p = match lookup a p with Some v => Some v | None => lookup b p end.
Proof. induction a as [|[k v] a IH]; [reflexivity|]. cbn [app lookup]. destruct (String.eqb k p); [reflexivity|exact IH]. Qed.
Lemma lookup_merge m1 m2 p : lookup (merge_sum_and_end m1 m2) p = match lookup m1 p, lookup m2 p with Some v, Some w => Some (merge v w) | Some v, None => Some v | None, o => o end.
Proof.
  unfold merge_sum_and_end. rewrite lookup_app.
  assert (E1 : lookup (map (fun '(k, v) => match lookup m2 k with Some w => (k, merge v w) | None => (k, v) end) m1) p = match lookup m1 p with Some v => Some (match lookup m2 p with Some w => merge v w | None => v end) | None => None end).
  { induction m1 as [|[k v] l IH]; [reflexivity|]. cbn [map lookup]. destruct (lookup m2 k) as [w|] eqn:Ek; cbn [lookup]; destruct (String.eqb_spec k p) as [->|Hne]; rewrite ?Ek; auto. }
  rewrite E1. destruct (lookup m1 p) as [v|] eqn:Ep; [destruct (lookup m2 p); reflexivity|]. clear E1.
  induction m2 as [|[k v] l IH]; [reflexivity|]. cbn [filter lookup]. destruct (lookup m1 k) eqn:Ek; cbn [lookup]; destruct (String.eqb_spec k p) as [->|Hne]; auto. congruence.
Qed.
Lemma NoDup_merge m1 m2 : NoDup (map fst m1) -> NoDup (map fst m2) -> NoDup (map fst (merge_sum_and_end m1 m2)).
Proof.
  intros H1 H2. unfold merge_sum_and_end. rewrite map_app.
  assert (E : map fst (map (fun '(k, v) => match lookup m2 k with Some w => (k, merge v w) | None => (k, v) end) m1) = map fst m1). { clear. induction m1 as [|[k v] l IH]; [reflexivity|]. cbn. destruct (lookup m2 k); cbn; rewrite IH; reflexivity. }
  rewrite E. clear E.
  assert (D : forall k, In k (map fst (filter (fun '(k, _) => match lookup m1 k with Some _ => false | None => true end) m2)) -> ~ In k (map fst m1) /\ In k (map fst m2)).
  { intros k Hk. apply in_map_iff in Hk. destruct Hk as [[k' v] [<- Hk]]. apply filter_In in Hk. destruct Hk as [Hi Hl]. split; [|apply in_map_iff; exists (k', v); auto]. cbn. intros Hin. destruct (lookup m1 k') eqn:El; [discriminate|]. clear - Hin El. induction m1 as [|[a b] l IH]; [destruct Hin|]. cbn in *. destruct (String.eqb_spec a k'); [discriminate|]. destruct Hin; [congruence|auto]. }
  assert (H2' : NoDup (map fst (filter (fun '(k, _) => match lookup m1 k with Some _ => false | None => true end) m2))).
  { clear - H2. induction m2 as [|[k v] l IH]; [constructor|]. cbn in H2. inversion H2; subst. cbn [filter]. destruct (lookup m1 k); [apply IH; assumption|]. cbn. constructor; [|apply IH; assumption]. intros Hi. apply H1. apply in_map_iff in Hi. destruct Hi as [[a b] [<- Hi]]. apply filter_In in Hi. apply in_map_iff. exists (a, b). split; [reflexivity|apply Hi]. }
  revert H2' D. generalize (map fst (filter (fun '(k, _) => match lookup m1 k with Some _ => false | None => true end) m2)). intros l Hl D. clear - H1 Hl D. induction (map fst m1) as [|x r IH]; [exact Hl|]. inversion H1; subst. cbn. constructor; [|apply IH; [assumption|]]. { rewrite in_app_iff. intros [Hi|Hi]; [auto|]. apply D in Hi. destruct Hi as [Hi _]. apply Hi. left. reflexivity. } intros k Hk. apply D in Hk. cbn in Hk. tauto.
Qed.
Lemma mem_iff p l : mem p l = true <-> In p l.
Proof. unfold mem. rewrite existsb_exists. split; [intros (x & Hx & E); apply String.eqb_eq in E; subst; exact Hx|intros H; exists p; split; [exact H|apply String.eqb_refl]]. Qed.
Lemma lookup_in {A} (m : list (string * A)) p v : lookup m p = Some v -> In (p, v) m.
Proof. induction m as [|[k w] l IH]; [discriminate|]. cbn. destruct (String.eqb_spec k p) as [->|]; [intros [= ->]; left; reflexivity|right; auto]. Qed.
Lemma lookup_nodup {A} (m : list (string * A)) p v : NoDup (map fst m) -> In (p, v) m -> lookup m p = Some v.
Proof. induction m as [|[k w] l IH]; intros N Hi; [destruct Hi|]. cbn in N. inversion N; subst. cbn. destruct Hi as [[= -> ->]|Hi]; [rewrite String.eqb_refl; reflexivity|]. destruct (String.eqb_spec k p) as [->|]; [exfalso; apply H1; apply in_map_iff; exists (p, v); auto|auto]. Qed.

(** ** What the computed sums mean *)
(** acquisitions are marked as such, loops are not run a negative number of times, and their bodies do not have negative durations *)
Fixpoint regular (o : TableModel.op) : Prop :=
  match o with
  | Leaf ps qs => Forall (fun i => is_acq i = false) ps /\ Forall (fun i => is_acq i = true) qs
  | Loop b n _ => regular b /\ (0 <= n)%Z /\ forall d, duration b = Ok d -> 0 <= d
  | Cond b _ _ => regular b
  | Sub items _ _ => (fix all (l : list (option Q * Z * TableModel.op)) : Prop := match l with [] => True | (_, _, x) :: r => regular x /\ all r end) items
  end.
Lemma regular_sub items n c : regular (Sub items n c) <-> Forall (fun i => regular (snd i)) items.
Proof. cbn [regular]. induction items as [|[[a h] x] l IH]; [split; auto|]. rewrite IH. split; [intros [H1 H2]; constructor; auto|intros H; inversion H; auto]. Qed.
Fixpoint sum_end_items (t : Q) (ports : list string) (c : bool) (l : list (option Q * Z * TableModel.op)) (m : sums) : result sums :=
  match l with [] => Ok m | (a, _, x) :: r => match a with None => Err KeyError | Some u => do new <- sum_end x (t + u) ports c; sum_end_items t ports c r (merge_sum_and_end m new) end end.
Lemma sum_end_sub items n d t ports c : sum_end (Sub items n d) t ports c = sum_end_items t ports c items [].
Proof. cbn [sum_end]. generalize (@nil (string * (Q * Q))). induction items as [|[[a h] x] l IH]; intros m; [reflexivity|]. cbn [sum_end_items]. destruct a as [u|]; [|reflexivity]. destruct (sum_end x (t + u) ports c); [apply IH|reflexivity]. Qed.

(** [describes m rows dt]: for every port of interest the dictionary holds the flux of the rows and the last end, shifted by [dt]; ports without an entry have no rows *)
Definition describes (ports : list string) (m : sums) (rows : list row) (dt : Q) : Prop :=
  NoDup (map fst m) /\
  (forall p, lookup m p <> None -> In p ports) /\
  forall p, In p ports -> match lookup m p with
    | Some (s, e) => flux p rows == s /\ (forall r, In r rows -> on_port p r -> abs_time r + r_duration r <= e + dt) /\ exists r, In r rows /\ on_port p r /\ abs_time r + r_duration r == e + dt
    | None => forall r, In r rows -> ~ on_port p r
    end.
Lemma describes_nil ports dt : describes ports [] [] dt.
Proof. split; [constructor|]. split; [intros p H; cbn in H; congruence|]. intros p _ r []. Qed.
Lemma describes_merge ports m1 m2 r1 r2 dt : describes ports m1 r1 dt -> describes ports m2 r2 dt -> describes ports (merge_sum_and_end m1 m2) (r1 ++ r2) dt.
Proof.
  intros (N1 & P1 & D1) (N2 & P2 & D2). split; [apply NoDup_merge; assumption|]. split.
  - intros p H. rewrite lookup_merge in H. destruct (lookup m1 p) eqn:E1; [apply P1; congruence|]. apply P2. exact H.
  - intros p Hp. specialize (D1 p Hp). specialize (D2 p Hp). rewrite lookup_merge. destruct (lookup m1 p) as [[s1 e1]|], (lookup m2 p) as [[s2 e2]|].
    + destruct D1 as (F1 & U1 & x1 & I1 & O1 & A1), D2 as (F2 & U2 & x2 & I2 & O2 & A2). unfold merge. cbn [fst snd]. split; [rewrite flux_app; lra|]. destruct (Qlt_bool e1 e2) eqn:E; [apply Qlt_bool_iff in E|assert (e2 <= e1) by (destruct (Qlt_le_dec e1 e2) as [L|L]; [apply Qlt_bool_iff in L; congruence|exact L])].
      * split; [intros r Hr Ho; apply in_app_or in Hr; destruct Hr as [Hr|Hr]; [specialize (U1 r Hr Ho); lra|apply U2; assumption]|]. exists x2. split; [apply in_or_app; right; exact I2|auto].
      * split; [intros r Hr Ho; apply in_app_or in Hr; destruct Hr as [Hr|Hr]; [apply U1; assumption|specialize (U2 r Hr Ho); lra]|]. exists x1. split; [apply in_or_app; left; exact I1|auto].
    + destruct D1 as (F1 & U1 & x1 & I1 & O1 & A1). split; [rewrite flux_app, F1, (flux_none p r2 D2); lra|]. split; [intros r Hr Ho; apply in_app_or in Hr; destruct Hr as [Hr|Hr]; [auto|exfalso; eapply D2; eassumption]|]. exists x1. split; [apply in_or_app; left; exact I1|auto].
    + destruct D2 as (F2 & U2 & x2 & I2 & O2 & A2). split; [rewrite flux_app, F2, (flux_none p r1 D1); lra|]. split; [intros r Hr Ho; apply in_app_or in Hr; destruct Hr as [Hr|Hr]; [exfalso; eapply D1; eassumption|auto]|]. exists x2. split; [apply in_or_app; right; exact I2|auto].
    + intros r Hr Ho. apply in_app_or in Hr. destruct Hr as [Hr|Hr]; [eapply D1|eapply D2]; eassumption.
Qed.
Lemma describes_silent ports m rows rows' dt : describes ports m rows dt -> (forall p r, In p ports -> In r rows' -> ~ on_port p r) -> describes ports m (rows ++ rows') dt.
Proof.
  intros (N & P & D) H. split; [exact N|]. split; [exact P|]. intros p Hp. specialize (D p Hp). destruct (lookup m p) as [[s e]|].
  - destruct D as (F & U & x & I & O & A). split; [rewrite flux_app, F, (flux_none p rows'); [lra|intros r Hr; apply H; assumption]|]. split; [intros r Hr Ho; apply in_app_or in Hr; destruct Hr as [Hr|Hr]; [auto|exfalso; eapply H; eassumption]|]. exists x. split; [apply in_or_app; left; exact I|auto].
  - intros r Hr Ho. apply in_app_or in Hr. destruct Hr as [Hr|Hr]; [eapply D|eapply H]; eassumption.
Qed.
Lemma describes_ext ports m rows dt dt' : dt == dt' -> describes ports m rows dt -> describes ports m rows dt'.
Proof. intros E (N & P & D). split; [exact N|]. split; [exact P|]. intros p Hp. specialize (D p Hp). destruct (lookup m p) as [[s e]|]; [|exact D]. destruct D as (F & U & x & I & O & A). split; [exact F|]. split; [intros r Hr Ho; rewrite <- E; auto|]. exists x. rewrite <- E. auto. Qed.

Lemma leaf_rows_in l t id r : In r (leaf_rows l t id) -> exists x, In x l /\ r_what r = what x /\ r_is_acq r = is_acq x /\ r_duration r = dur x /\ abs_time r = t + t0 x.
Proof. unfold leaf_rows. intros H. apply in_map_iff in H. destruct H as [[i x] [<- H]]. apply in_combine_r in H. exists x. auto. Qed.
(** leaves, one pulse at a time *)
Lemma sum_leaf ports (c : bool) t t' id : forall ps, Forall (fun i => is_acq i = false) ps -> forall s0 m0 rows0 m,
  foldM (fun m i => match port (what i) with
             | Some p => if mem p ports && String.eqb (clock (what i)) baseband then if c then Err ValueError else do s <- area_pulse i; Ok (merge_sum_and_end m [(p, (s, t + t0 i + dur i))]) else Ok m
             | None => Ok m end) ps m0 = Ok m ->
  describes ports m0 rows0 (t' - t) ->
  describes ports m (rows0 ++ map (fun '(i, x) => {| abs_time := t' + t0 x; r_duration := dur x; r_is_acq := is_acq x; wf_idx := i; operation_hash := id; r_what := what x |}) (combine (seq s0 (length ps)) ps)) (t' - t).
Proof.
  induction 1 as [|x ps Hx Hps IH]; intros s0 m0 rows0 m E D; cbn [foldM] in E.
  - injection E as <-. cbn. rewrite app_nil_r. exact D.
  - match type of E with bind ?e _ = _ => destruct e as [m1|] eqn:E1; [|discriminate] end. cbn [bind] in E. cbn [length seq combine map].
    match goal with |- describes _ _ (_ ++ ?r :: ?l) _ => replace (rows0 ++ r :: l) with ((rows0 ++ [r]) ++ l) by (rewrite <- app_assoc; reflexivity); set (rx := r) in * end.
    apply IH with (m0 := m1); [exact E|].
    assert (Hs : forall p, on_port p rx -> port (what x) = Some p /\ clock (what x) = baseband) by (intros p (_ & H1 & H2); split; assumption).
    destruct (port (what x)) as [q|] eqn:Ep.
    + destruct (mem q ports && String.eqb (clock (what x)) baseband) eqn:Eb.
      * apply andb_true_iff in Eb. destruct Eb as [Hq Hc]. apply mem_iff in Hq. apply String.eqb_eq in Hc. destruct c; [discriminate|]. destruct (area_pulse x) as [s|] eqn:Ea; [|discriminate]. cbn [bind] in E1. injection E1 as <-. apply describes_merge; [exact D|].
        split; [repeat constructor; intros []|]. split; [intros p Hp; cbn in Hp; destruct (String.eqb_spec q p); [subst; exact Hq|congruence]|]. intros p Hp. cbn [lookup]. destruct (String.eqb_spec q p) as [->|Hne].
        -- assert (Ho : on_port p rx) by (split; [exact Hx|split; [exact Ep|exact Hc]]). split; [|split].
           ++ cbn [flux]. rewrite (proj2 (on_portb_iff p rx) Ho). unfold row_area, area_pulse in *. cbn [r_what r_duration rx]. destruct (wave (what x)); try discriminate; injection Ea as <-; lra.
           ++ intros r [<-|[]] _. cbn. lra.
           ++ exists rx. split; [left; reflexivity|]. split; [exact Ho|]. cbn. lra.
        -- intros r [<-|[]] Ho. apply Hs in Ho. destruct Ho as [[= ->] _]. congruence.
      * injection E1 as <-. apply describes_silent; [exact D|]. intros p r Hp [<-|[]] Ho. apply Hs in Ho. destruct Ho as [[= ->] Hc]. rewrite Hc, String.eqb_refl, (proj2 (mem_iff p ports) Hp) in Eb. discriminate.
    + injection E1 as <-. apply describes_silent; [exact D|]. intros p r Hp [<-|[]] Ho. apply Hs in Ho. destruct Ho as [[=] _].
Qed.
Lemma describes_loop ports d : 0 <= d -> forall k m rows (L : nat -> list row) dt, (forall i, describes ports m (L i) (dt + inject_Z (Z.of_nat i) * d)) -> rows = List.concat (map L (seq 0 (S k))) ->
  describes ports (map (fun '(p, (s, e)) => (p, (inject_Z (Z.of_nat (S k)) * s, inject_Z (Z.of_nat (S k) - 1) * d + e))) m) rows dt.
Proof.
  intros Hd k m rows L dt H Er. destruct (H 0%nat) as (N & P & _).
  assert (El : forall n e p, lookup (map (fun '(p, (s, x)) => (p, (n * s, e + x))) m) p = match lookup m p with Some (s, x) => Some (n * s, e + x) | None => None end). { intros n e p. clear. induction m as [|[q [s x]] l IH]; [reflexivity|]. cbn. destruct (String.eqb q p); auto. }
  split; [|split].
  - rewrite map_map. replace (map (fun x => fst (let '(p, (s, e)) := x in (p, (inject_Z (Z.of_nat (S k)) * s, inject_Z (Z.of_nat (S k) - 1) * d + e)))) m) with (map fst m); [exact N|]. apply map_ext. intros [q [s e]]. reflexivity.
  - intros p Hp. rewrite El in Hp. apply P. destruct (lookup m p); congruence.
  - intros p Hp. rewrite El. pose proof (fun i => proj2 (proj2 (H i)) p Hp) as Hi. cbn beta in Hi. destruct (lookup m p) as [[s e]|].
    + subst rows. split; [|split].
      * clear - Hi. generalize 0%nat. assert (G : forall n a, flux p (List.concat (map L (seq a n))) == inject_Z (Z.of_nat n) * s). { induction n as [|n IH]; intros a; cbn [seq map List.concat]; [cbn [flux]; change (inject_Z (Z.of_nat 0)) with 0; lra|]. rewrite flux_app, IH, (proj1 (Hi a)). rewrite Nat2Z.inj_succ. unfold Z.succ. rewrite inject_Z_plus. change (inject_Z 1) with 1. lra. } intros a. apply G.
      * intros r Hr Ho. apply in_concat in Hr. destruct Hr as (l & Hl & Hr). apply in_map_iff in Hl. destruct Hl as (i & <- & Hi'). apply in_seq in Hi'. pose proof (proj1 (proj2 (Hi i)) r Hr Ho) as Hle. assert (inject_Z (Z.of_nat i) <= inject_Z (Z.of_nat (S k) - 1)) by (rewrite <- Zle_Qle; lia). nra.
      * destruct (Hi k) as (_ & _ & x & I & O & A). exists x. split; [apply in_concat; exists (L k); split; [apply in_map; apply in_seq; lia|exact I]|]. split; [exact O|]. rewrite A. replace (Z.of_nat (S k) - 1)%Z with (Z.of_nat k) by lia. lra.
    + subst rows. intros r Hr Ho. apply in_concat in Hr. destruct Hr as (l & Hl & Hr). apply in_map_iff in Hl. destruct Hl as (i & <- & _). eapply Hi; eassumption.
Qed.
(** ports of interest are not used at all inside a conditional *)
Lemma sum_end_means : forall o ports c t t' id m rows, regular o -> sum_end o t ports c = Ok m -> generate o t' id = Ok rows -> describes ports m rows (t' - t).
Proof.
  induction o as [ps qs|b n t1 IH|b t1 u IH|items n d IH] using op_nested; intros ports c t t' id m rows R Es Eg.
  - destruct R as [R1 R2]. cbn [sum_end generate] in *. injection Eg as <-. destruct (has_voltage_offset ps && _); [discriminate|]. apply describes_silent.
    + unfold leaf_rows. apply (sum_leaf ports c t t' id ps R1 0%nat [] [] m Es). apply describes_nil.
    + intros p r _ Hr (Ho & _). apply leaf_rows_in in Hr. destruct Hr as (x & Hx & _ & Ha & _). apply (proj1 (Forall_forall _ _) R2) in Hx. congruence.
  - destruct R as (Rb & Hn & Hd). cbn [sum_end generate] in *. destruct (sum_end b t ports c) as [m0|] eqn:E0; [|discriminate]. cbn [bind] in Es. destruct (Z.eqb_spec n 0) as [|Hn0]; [discriminate|]. destruct (mapM _ (seq 0 (Z.to_nat n))) as [ls|] eqn:El; [|discriminate]. cbn [bind] in Eg. injection Eg as <-.
    assert (Hk : exists k, Z.to_nat n = S k) by (exists (pred (Z.to_nat n)); lia). destruct Hk as [k Hk]. assert (En : n = Z.of_nat (S k)) by lia. rewrite Hk in El.
    destruct (duration b) as [d|] eqn:Ed; [|cbn [seq mapM] in El; cbn [bind] in El; discriminate]. specialize (Hd d eq_refl).
    assert (Em : m = map (fun '(p, (s, e)) => (p, (inject_Z n * s, inject_Z (n - 1) * d + e))) m0). { clear - Es. revert m Es. induction m0 as [|[p [s e]] l IHl]; intros m Es; cbn [mapM bind] in Es; [injection Es as <-; reflexivity|]. destruct (mapM _ l) as [l'|]; [|discriminate]. cbn [bind] in Es. injection Es as <-. cbn [map]. f_equal. apply IHl. reflexivity. }
    subst m. cbn [bind] in El.
    assert (HL : forall i r, generate b (t' + inject_Z (Z.of_nat i) * d) id = Ok r -> describes ports m0 r (t' - t + inject_Z (Z.of_nat i) * d)). { intros i r Hr. eapply describes_ext; [|eapply IH; [exact Rb|exact E0|exact Hr]]. lra. }
    (* generation succeeds for every i when it does for one: use the recorded lists *)
    assert (HG : forall a, In a (seq 0 (S k)) -> exists r, generate b (t' + inject_Z (Z.of_nat a) * d) id = Ok r). { clear - El. revert ls El. induction (seq 0 (S k)) as [|i l IHl]; intros ls El a Ha; [destruct Ha|]. cbn [mapM] in El. destruct (generate b _ id) as [r|] eqn:Eg; [|discriminate]. cbn [bind] in El. destruct (mapM _ l) as [ls'|]; [|discriminate]. destruct Ha as [<-|Ha]; [eauto|eapply IHl; [reflexivity|exact Ha]]. }
    assert (HT : forall t1, exists r, generate b t1 id = Ok r).
    { destruct (HG 0%nat) as [r0 H0]; [apply in_seq; lia|]. intros t2.
      assert (G : forall o t1 t2 id r, generate o t1 id = Ok r -> exists r', generate o t2 id = Ok r').
      { clear. induction o as [ps qs|b n t1 IH|b t1 u IH|items n d IH] using op_nested; intros t2 t3 id r E.
        - eexists; reflexivity.
        - cbn [generate] in *. destruct (mapM _ _) as [ls|] eqn:El; [|discriminate]. assert (G : forall l ls, mapM (fun i => do d <- duration b; generate b (t2 + inject_Z (Z.of_nat i) * d) id) l = Ok ls -> exists ls', mapM (fun i => do d <- duration b; generate b (t3 + inject_Z (Z.of_nat i) * d) id) l = Ok ls').
          { clear - IH. induction l as [|i l IHl]; intros ls E; [eexists; reflexivity|]. cbn [mapM] in *. destruct (duration b) as [d|]; [|discriminate]. cbn [bind] in *. destruct (generate b (t2 + _) id) as [x|] eqn:Ex; [|discriminate]. cbn [bind] in E. destruct (mapM _ l) as [y|] eqn:Ey; [|discriminate]. destruct (IH _ (t3 + inject_Z (Z.of_nat i) * d) _ _ Ex) as [r' ->]. cbn [bind]. destruct (IHl y eq_refl) as [ls' ->]. eexists; reflexivity. }
          destruct (G _ _ El) as [ls' ->]. eexists; reflexivity.
        - eapply IH; exact E.
        - rewrite generate_sub in *. revert r E. induction items as [|[[a h] x] l IHl]; intros r E; [eexists; reflexivity|]. cbn [generate_items] in *. inversion IH as [|? ? IHx IHf]; subst. destruct a as [v|]; [|discriminate]. destruct (generate x (t2 + v) (Some h)) as [y|] eqn:Ey; [|discriminate]. cbn [bind] in E. destruct (generate_items t2 l) as [z|] eqn:Ez; [|discriminate]. destruct (IHx _ (t3 + v) _ _ Ey) as [r' Hr']. cbn [snd] in Hr'. rewrite Hr'. cbn [bind]. destruct (IHl IHf z eq_refl) as [w ->]. eexists; reflexivity. }
      eapply G. exact H0. }
    set (L := fun i => match generate b (t' + inject_Z (Z.of_nat i) * d) id with Ok r => r | Err _ => [] end).
    assert (EL : ls = map L (seq 0 (S k))). { clear - El. revert ls El. induction (seq 0 (S k)) as [|i l IHl]; intros ls El; [injection El as <-; reflexivity|]. cbn [mapM] in El. destruct (generate b _ id) as [r|] eqn:Eg; [|discriminate]. cbn [bind] in El. destruct (mapM _ l) as [ls'|]; [|discriminate]. cbn [bind] in El. injection El as <-. cbn [map]. f_equal; [unfold L; rewrite Eg; reflexivity|apply IHl; reflexivity]. }
    rewrite En. apply (describes_loop ports d Hd k m0 _ L (t' - t)); [|rewrite EL; reflexivity].
    intros i. apply HL. unfold L. destruct (HT (t' + inject_Z (Z.of_nat i) * d)) as [r ->]. reflexivity.
  - cbn [sum_end generate regular] in *. eapply IH; eassumption.
  - rewrite sum_end_sub in Es. rewrite generate_sub in Eg. apply regular_sub in R.
    assert (G : forall l m0 rows0 m rows, Forall (fun i => forall ports c t t' id m rows, regular (snd i) -> sum_end (snd i) t ports c = Ok m -> generate (snd i) t' id = Ok rows -> describes ports m rows (t' - t)) l -> Forall (fun i => regular (snd i)) l -> sum_end_items t ports c l m0 = Ok m -> generate_items t' l = Ok rows -> describes ports m0 rows0 (t' - t) -> describes ports m (rows0 ++ rows) (t' - t)).
    { clear. induction l as [|[[a h] x] l IHl]; intros m0 rows0 m rows HF HR Es Eg D; cbn [sum_end_items generate_items] in *; [injection Es as <-; injection Eg as <-; rewrite app_nil_r; exact D|]. destruct a as [v|]; [|discriminate]. inversion HF as [|? ? Fx Fl]; inversion HR as [|? ? Rx Rl]; subst. destruct (sum_end x (t + v) ports c) as [new|] eqn:Ex; [|discriminate]. cbn [bind] in Es. destruct (generate x (t' + v) (Some h)) as [rx|] eqn:Gx; [|discriminate]. cbn [bind] in Eg. destruct (generate_items t' l) as [rl|] eqn:Gl; [|discriminate]. cbn [bind] in Eg. injection Eg as <-.
      rewrite app_assoc. apply (IHl (merge_sum_and_end m0 new)); auto. apply describes_merge; [exact D|]. eapply describes_ext; [|eapply Fx; [exact Rx|exact Ex|exact Gx]]. lra. }
    apply (G items [] [] m rows IH R Es Eg). apply describes_nil.
Qed.
