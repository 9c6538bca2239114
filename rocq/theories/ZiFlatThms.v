(** C50: flattening subschedules for the Zurich Instruments backend keeps what is played and when. *)
From Verif Require Import Base ZiModel ZiProps ZiFlat ZiFlatProps.
From Coq Require Import Permutation Qfield Lqa.
Open Scope Q_scope.

Section Thms.
Context {A R : Type}.
Variables (hash : A -> Z) (uuid : nat -> string).
Notation item := (@item A R).
Notation flatten := (@flatten A R hash uuid).
Notation flat := (@flat A R).

Lemma fold_and {X} (P : X -> Prop) l : fold_right (fun p q => P p /\ q) True l <-> Forall P l.
Proof. induction l as [|x l IH]; cbn [fold_right]; [split; constructor|]. rewrite IH. split; [intros [h1 h2]; now constructor|intros h; inversion h; auto]. Qed.
Lemma inner_hyps ops schs res p : In p ops -> complete (Sub ops schs res) -> well_keyed (Sub ops schs res) -> no_clash hash (Sub ops schs res) -> hash_injective hash (Sub ops schs res) -> uuids_fresh uuid (Sub ops schs res) ->
  complete (snd p : item) /\ well_keyed (snd p) /\ no_clash hash (snd p) /\ hash_injective hash (snd p) /\ uuids_fresh uuid (snd p).
Proof. intros hp (c & _) (w & _) nc hi (u1 & u2). rewrite fold_and, Forall_forall in c, w. split; [auto|]. split; [auto|].
  assert (L : forall a, In a (leaves (snd p)) -> In a (leaves (Sub ops schs res))) by (intros a h; cbn; apply in_flat_map; eauto).
  split; [intros k x a h1 h2 h3; apply (nc k x a); auto; cbn; apply in_app_iff; right; apply in_flat_map; eauto|]. split; [intros a b h1 h2 h3; apply hi; auto|]. split; [exact u1|]. intros n h. apply (u2 n). cbn. apply in_app_iff. right. apply in_flat_map. eauto. Qed.

Definition good_result (i : item) : Prop := forall n, complete i -> well_keyed i -> no_clash hash i -> hash_injective hash i -> uuids_fresh uuid i -> exists i' n', flatten i n = Ok (i', n') /\ (n <= n')%nat /\ flat i i'.
Lemma flatten_ops_ok ops : Forall (fun p => forall n, exists i' n', flatten (snd p) n = Ok (i', n') /\ (n <= n')%nat /\ flat (snd p) i') ops -> forall n, exists ops1 n1, flatten_ops hash uuid ops n = Ok (ops1, n1) /\ (n <= n1)%nat /\ Forall2 (fun p q => fst p = fst q /\ flat (snd p) (snd q)) ops ops1.
Proof. induction 1 as [|[k x] ops h _ IH]; intros n; [exists [], n; split; [reflexivity|]; split; [lia|constructor]|]. cbn [flatten_ops]. destruct (h n) as (i' & n' & e1 & e2 & e3). cbn [snd] in e1, e3. rewrite e1. cbn [bind fst snd]. destruct (IH n') as (ops1 & n1 & f1 & f2 & f3). rewrite f1. cbn [bind fst snd]. exists ((k, i') :: ops1), n1. split; [reflexivity|]. split; [lia|]. constructor; auto. Qed.
Lemma ops_keys (P : item -> item -> Prop) ops ops1 : Forall2 (fun p q => fst p = fst q /\ P (snd p) (snd q)) ops ops1 -> map fst ops = map fst ops1 /\ (forall k x, zget ops k = Some x -> exists y, zget ops1 k = Some y /\ P x y) /\ (forall k y, zget ops1 k = Some y -> exists x, zget ops k = Some x /\ P x y).
Proof. induction 1 as [|[k x] [k' y] ops ops1 [h1 h2] hf (IH1 & IH2 & IH3)]; [repeat split; intros; discriminate|]. cbn [fst snd] in h1, h2. subst k'. cbn [map fst]. split; [now rewrite IH1|]. cbn [zget]. split; intros k0 z; (destruct (Z.eqb k0 k); [intros h; injection h as ->; eauto|auto]). Qed.

Theorem flatten_flat i : good_result i.
Proof. induction i as [a|ops schs res IHo] using item_induction; intros n c w nc hi uf; [exists (Leaf a), n; split; [reflexivity|]; split; [lia|reflexivity]|].
  rewrite flatten_sub. destruct (flatten_ops_ok ops) with (n := n) as (ops1 & n1 & e1 & e2 & e3).
  { rewrite Forall_forall in *. intros p hp m. destruct (inner_hyps ops schs res p hp c w nc hi uf) as (q1 & q2 & q3 & q4 & q5). now apply (IHo p hp m). }
  rewrite e1. cbn [bind fst snd]. destruct (ops_keys _ _ _ e3) as (k1 & k2 & k3).
  pose (i := Sub ops schs res). pose (good := fun a => In a (leaves i)).
  assert (INL : forall k x a, zget ops k = Some x -> In a (leaves x) -> good a). { intros k x a h1 h2. apply zget_in in h1. unfold good, i. cbn. apply in_flat_map. exists (k, x). auto. }
  assert (CL : forall k y a, zget ops1 k = Some y -> good a -> hash a = k -> y = Leaf a). { intros k y a h1 h2 h3. destruct (k3 k y h1) as (x & h4 & h5). assert (x = Leaf a) as ->. { apply (nc k x a); auto. cbn. apply in_app_iff. left. now apply zget_in. } exact h5. }
  assert (w' := w). assert (c' := c). destruct w' as (_ & w1 & w2 & _). destruct c' as (_ & cs). destruct uf as (u1 & u2).
  destruct (flatten_loop hash uuid ops1 good CL hi u1 (fun k => zget (map (fun p => (fst p, timeline (snd p))) ops) k) n1 schs [] ops1 [] n1 [] []) as (ops' & new' & n' & ok' & sk' & r1 & r2 & r3 & r4 & r5 & r6 & r7).
  - intros x hx. destruct (cs x hx) as [h1 h2]. destruct (snd (snd x)) as [t|] eqn:et; [|now destruct h1]. destruct (zget ops (fst (snd x))) as [z|] eqn:ez; [|now destruct h2]. destruct (k2 _ _ ez) as (y & h3 & h4). exists t, y, (timeline z). rewrite zget_map, ez. repeat split; auto. destruct z as [a|zo zs zr]; cbn [flat] in h4.
    + subst y. split; [reflexivity|]. apply (INL _ _ a ez). now left.
    + destruct h4 as (o' & s' & r' & -> & f1 & f2 & _). split; [exact f1|]. intros p hp. apply (INL _ _ _ ez). auto.
  - apply grown_refl.
  - lia.
  - cbn [filter app]. rewrite app_nil_r. exact w2.
  - intros m h. apply (u2 m). cbn. apply in_app_iff. now left.
  - intros x [].
  - constructor.
  - intros k. split; [intros []|intros (x & [] & _)].
  - reflexivity.
  - cbn [filter app] in *. rewrite app_nil_r in r1. rewrite r1. cbn [bind].
    assert (SC : fold_left spop sk' (filter (sub_at ops1) schs ++ new') = new').
    { rewrite spops, filter_app, r7. assert (E : forall k, existsb (String.eqb k) (rev (map fst (filter (sub_at ops1) schs))) = true <-> In k (map fst (filter (sub_at ops1) schs))). { intros k. rewrite existsb_exists. split; [intros (z & h1 & h2); apply String.eqb_eq in h2; subst z; now apply in_rev|intros h; exists k; split; [now apply -> in_rev|apply String.eqb_refl]]. }
      rewrite map_app in r4. assert (F1 : forall l0 : list (string * (Z * option Q)), (forall p, In p l0 -> In (fst p) (map fst (filter (sub_at ops1) schs))) -> filter (fun p => negb (existsb (String.eqb (fst p)) (rev (map fst (filter (sub_at ops1) schs))))) l0 = []). { induction l0 as [|p l0 IHl]; intros hl; [reflexivity|]. cbn [filter]. rewrite (proj2 (E (fst p)) (hl p (or_introl eq_refl))). cbn [negb]. apply IHl. intros q hq. apply hl. now right. }
      rewrite F1 by (intros p hp; apply in_map, hp). cbn [app].
      assert (F2 : forall l0 : list (string * (Z * option Q)), (forall p, In p l0 -> ~ In (fst p) (map fst (filter (sub_at ops1) schs))) -> filter (fun p => negb (existsb (String.eqb (fst p)) (rev (map fst (filter (sub_at ops1) schs))))) l0 = l0). { induction l0 as [|p l0 IHl]; intros hl; [reflexivity|]. cbn [filter]. destruct (existsb _ _) eqn:ex; [apply E in ex; exfalso; apply (hl p); [now left|exact ex]|]. cbn [negb]. f_equal. apply IHl. intros q hq. apply hl. now right. }
      apply F2. intros p hp h. clear -r4 hp h. induction (map fst (filter (sub_at ops1) schs)) as [|z zs IHz]; [destruct h|]. cbn [app] in r4. inversion r4 as [|? ? q1 q2]; subst. destruct h as [->|h]; [apply q1, in_app_iff; right; apply in_map, hp|auto]. }
    rewrite SC, zpops. eexists _, n'. split; [reflexivity|]. split; [lia|]. cbn [flat]. do 3 eexists. split; [reflexivity|].
    assert (OK : forall k a, zget ops' k = Some (Leaf a) -> negb (existsb (Z.eqb k) ok') = true). { intros k a h. apply negb_true_iff, not_true_iff_false. intros q. apply existsb_exists in q. destruct q as (k0 & q1 & q2). apply Z.eqb_eq in q2. subst k0. apply r6 in q1. destruct q1 as (x & _ & s1 & s2). unfold sub_at in s1. rewrite s2 in s1. destruct (zget ops1 k) as [y|] eqn:ey; [|discriminate]. destruct r2 as (g1 & _). rewrite (g1 _ _ ey) in h. injection h as ->. discriminate. }
    split; [|split; [|split; [|split]]].
    + eapply forall2_weaken; [|exact r5]. intros e p ((q1 & q2) & _). split; [|exact q2]. rewrite (zget_filter (fun k => negb (existsb (Z.eqb k) ok'))); [exact q1|]. eapply OK; eauto.
    + intros p hp. change (In p (flat_map (block (fun k => zget (map (fun p => (fst p, timeline (snd p))) ops) k)) schs)) in hp. clear -r5 hp. revert hp. induction r5 as [|e p' l l' [_ h] _ IH]; [intros []|]. intros [<-|hp]; [exact h|auto].
    + rewrite map_app in r4. clear -r4. induction (map fst (filter (sub_at ops1) schs)) as [|z zs IH]; [exact r4|]. inversion r4; subst. auto.
    + destruct r2 as (_ & _ & g3). specialize (g3 ltac:(rewrite <- k1; exact w1)). clear -g3. induction ops' as [|[k y] l IH]; cbn [filter map fst]; [constructor|]. cbn [map fst] in g3. inversion g3 as [|? ? q1 q2]; subst. destruct (negb _); [|auto]. cbn [map fst]. constructor; [|auto]. intros h. apply q1. apply in_map_iff in h. destruct h as (z & z1 & z2). apply filter_In in z2. apply in_map_iff. exists z. tauto.
    + intros k y hy. destruct (existsb (Z.eqb k) ok') eqn:ek; [exfalso; apply zget_in, filter_In in hy; cbn [fst] in hy; rewrite ek in hy; now destruct hy|]. rewrite (zget_filter (fun k => negb (existsb (Z.eqb k) ok'))) in hy by now rewrite ek. destruct y as [a|yo ys yr]; [now left|right]. split; [destruct r2 as (_ & g2 & _); destruct (g2 _ _ hy) as [g|(a & _ & q & _)]; [rewrite k1; apply zget_in in g; apply in_map_iff; exists (k, Sub yo ys yr); auto|discriminate]|]. intros x hx e. apply not_true_iff_false in ek. apply ek. apply existsb_exists. exists k. split; [|apply Z.eqb_refl]. apply r6. exists x. split; [exact hx|]. split; [|exact e]. unfold sub_at. rewrite e. destruct r2 as (_ & g2 & _). destruct (g2 _ _ hy) as [g|(a & _ & q & _)]; [rewrite g; reflexivity|discriminate]. Qed.

(** what a flat schedule plays *)
Lemma flat_timeline ops schs res tl : Forall2 (@plays A R ops) schs tl -> Forall2 (fun p q => fst p = fst q /\ snd p == snd q) (timeline (Sub ops schs res)) tl.
Proof. induction 1 as [|e p schs tl (h1 & t & h2 & h3) hf IH]; [constructor|]. cbn [timeline flat_map] in *. rewrite h2, zget_map, h1. cbn [option_map timeline map app fst snd]. constructor; [cbn [fst snd]; split; [reflexivity|rewrite h3; ring]|exact IH]. Qed.
End Thms.

(** A schedule with all times given is accepted. The result has no schedules in it any more; it plays the same operations at the same times, in the same order. *)
Theorem C50_timeline {A R} (hash : A -> Z) uuid ops schs (res : list (string * R)) n : let s := Sub ops schs res in
  complete s -> well_keyed s -> no_clash hash s -> hash_injective hash s -> uuids_fresh uuid s ->
  exists ops' schs' res' n', flatten hash uuid s n = Ok (Sub ops' schs' res', n')
    /\ Forall2 (fun p q => fst p = fst q /\ snd p == snd q) (timeline (Sub ops' schs' res')) (timeline s)
    /\ (forall x, In x schs' -> exists a, zget ops' (fst (snd x)) = Some (Leaf a) /\ snd (snd x) <> None) /\ List.length schs' = List.length (timeline s) /\ NoDup (map fst schs') /\ NoDup (map fst ops').
Proof. intros s c w nc hi uf. destruct (flatten_flat hash uuid s n c w nc hi uf) as (i' & n' & h1 & _ & h2). destruct h2 as (ops' & schs' & res' & -> & f & _ & nd & ndo & _). exists ops', schs', res', n'. split; [exact h1|]. split; [eapply flat_timeline; eauto|]. split; [|split; [|split; auto]].
  - intros x hx. clear -f hx. induction f as [|e p l l' (q1 & t & q2 & _) _ IH]; [destruct hx|]. destruct hx as [<-|hx]; [exists (fst p); split; [exact q1|congruence]|auto].
  - clear -f. induction f; cbn; auto. Qed.

(** If every operation of the schedule is used, no schedule is left among the operations. *)
Theorem C50_unnested {A R} (hash : A -> Z) uuid ops schs (res : list (string * R)) n : let s := Sub ops schs res in
  complete s -> well_keyed s -> no_clash hash s -> hash_injective hash s -> uuids_fresh uuid s -> (forall k, In k (map fst ops) -> exists x, In x schs /\ fst (snd x) = k) ->
  exists ops' schs' res' n', flatten hash uuid s n = Ok (Sub ops' schs' res', n') /\ forall k y, In (k, y) ops' -> is_leaf y.
Proof. intros s c w nc hi uf hu. destruct (flatten_flat hash uuid s n c w nc hi uf) as (i' & n' & h1 & _ & h2). destruct h2 as (ops' & schs' & res' & -> & f & _ & nd & ndo & u). exists ops', schs', res', n'. split; [exact h1|]. intros k y hy. destruct (u k y (zget_some _ _ _ ndo hy)) as [h|[h1' h]]; [exact h|]. destruct (hu k h1') as (x & q1 & q2). now destruct (h x q1). Qed.
