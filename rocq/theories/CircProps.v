(** C40: the compiled circuit is the one the device configuration prescribes. *)
From Verif Require Import Base TimingModel TableModel CircModel CircSpec.
From Coq Require Import List Arith.
Open Scope string_scope.
Open Scope list_scope.
Open Scope Q_scope.

(** ** Dictionaries *)
Lemma get_put {A} (d : dict A) k v k' : get (put d k v) k' = if String.eqb k k' then Some v else get d k'.
Proof.
  induction d as [|[k0 w] d IH]; cbn [put get]; [reflexivity|]. destruct (String.eqb_spec k0 k) as [->|Hk]; cbn [get].
  - destruct (String.eqb k k'); reflexivity.
  - rewrite IH. destruct (String.eqb_spec k0 k') as [->|_]; [|reflexivity]. destruct (String.eqb_spec k k'); [congruence|reflexivity].
Qed.
Lemma get_replaced {A} (b a : dict A) k : get (replaced b a) k = match get a k with Some v => Some (match get b k with Some w => w | None => v end) | None => None end.
Proof.
  induction a as [|[k0 v] a IH]; cbn [replaced map get]; [reflexivity|]. destruct (String.eqb_spec k0 k) as [->|_]; [reflexivity|exact IH].
Qed.
Lemma get_app {A} (a b : dict A) k : get (a ++ b) k = match get a k with Some v => Some v | None => get b k end.
Proof. induction a as [|[k0 v] a IH]; cbn [app get]; [reflexivity|]. destruct (String.eqb k0 k); [reflexivity|exact IH]. Qed.
Lemma get_filter {A} (p : string -> bool) (d : dict A) k : get (filter (fun '(k, _) => p k) d) k = if p k then get d k else None.
Proof.
  induction d as [|[k0 v] d IH]; cbn [filter get]; [destruct (p k); reflexivity|]. destruct (p k0) eqn:E; cbn [get]; destruct (String.eqb_spec k0 k) as [->|_]; try exact IH; rewrite E in *; [reflexivity|]. rewrite IH. reflexivity.
Qed.
Lemma get_merged {A} (a b : dict A) k : get (merged a b) k = match get b k with Some v => Some v | None => get a k end.
Proof.
  unfold merged. rewrite get_app, get_replaced, (get_filter (fun k => negb (has a k))). unfold has. destruct (get a k); [destruct (get b k); reflexivity|]. cbn. destruct (get b k); reflexivity.
Qed.
Lemma index_ok {A} (d : dict A) k v : index d k = Ok v <-> get d k = Some v.
Proof. unfold index. destruct (get d k); split; intros [= ->]; reflexivity. Qed.

(** ** Arguments *)
Lemma from_gate_spec g : forall keys kw kw', from_gate g keys kw = Ok kw' ->
  (forall k, In k keys -> exists v, get (args g) k = Some v /\ get kw' k = Some v) /\ (forall k, ~ In k keys -> get kw' k = get kw k).
Proof.
  induction keys as [|k keys IH]; intros kw kw' E; cbn in E; [injection E as <-; split; [intros k []|reflexivity]|].
  destruct (index (args g) k) as [v|] eqn:Ev; [|discriminate]. apply index_ok in Ev. cbn [bind] in E. destruct (IH _ _ E) as [I1 I2]. split.
  - intros k' [<-|Hk]; [|apply I1, Hk]. destruct (in_dec string_dec k keys) as [Hi|Hi]; [apply I1, Hi|]. exists v. split; [exact Ev|]. rewrite (I2 k Hi), get_put, String.eqb_refl. reflexivity.
  - intros k' Hk. rewrite I2, get_put; [|intros H; apply Hk; right; exact H]. destruct (String.eqb_spec k k') as [->|_]; [exfalso; apply Hk; left; reflexivity|reflexivity].
Qed.
Lemma from_gate_mux_spec g i : forall keys kw kw', from_gate_mux g i keys kw = Ok kw' ->
  (forall k, In k keys -> exists v, GateArg g (Some i) k v /\ get kw' k = Some v) /\ (forall k, ~ In k keys -> get kw' k = get kw k).
Proof.
  induction keys as [|k keys IH]; intros kw kw' E; cbn [from_gate_mux foldM] in E; [injection E as <-; split; [intros k []|reflexivity]|].
  destruct (index (args g) k) as [v|] eqn:Ev; [|discriminate]. apply index_ok in Ev. cbn [bind] in E.
  assert (Hx : exists x, GateArg g (Some i) k x /\ from_gate_mux g i keys (put kw k x) = Ok kw').
  { destruct v as [|q|s|b|l|n]; cbn [bind] in E; try (eexists; split; [apply GA_shared; [exact Ev|discriminate]|exact E]). destruct (nth_error l i) as [x|] eqn:En; [|discriminate]. cbn [bind] in E. exists x. split; [eapply GA_each; eassumption|exact E]. }
  destruct Hx as (x & Hx & E'). destruct (IH _ _ E') as [I1 I2]. split.
  - intros k' [<-|Hk]; [|apply I1, Hk]. destruct (in_dec string_dec k keys) as [Hi|Hi]; [apply I1, Hi|]. exists x. split; [exact Hx|]. rewrite (I2 k Hi), get_put, String.eqb_refl. reflexivity.
  - intros k' Hk. rewrite I2, get_put; [|intros H; apply Hk; right; exact H]. destruct (String.eqb_spec k k') as [->|_]; [exfalso; apply Hk; left; reflexivity|reflexivity].
Qed.
Lemma GateArg_fun g i k v w : GateArg g i k v -> GateArg g i k w -> v = w.
Proof. intros H1 H2. inversion H1; subst; inversion H2; subst; try congruence; repeat match goal with H1 : get ?d ?k = Some _, H2 : get ?d ?k = Some _ |- _ => rewrite H1 in H2; injection H2 as H2; subst end; try congruence; exfalso; match goal with H : forall l, _ <> VList l |- _ => eapply H; reflexivity end. Qed.
Lemma negated_spec v w : negated v = Ok w <-> Minus v w.
Proof. split. - destruct v as [|q|s|b|l|n]; try discriminate; cbn; intros [= <-]; [constructor|destruct b; constructor]. - destruct 1; reflexivity. Qed.
Lemma next_delay_spec g kw kw' : next_delay g kw = Ok kw' ->
  (skips_delay g /\ exists v w, get kw "acq_delay" = Some v /\ Minus v w /\ forall k, get kw' k = if String.eqb "next_operation_delay" k then Some w else get kw k) \/ (~ skips_delay g /\ kw' = kw).
Proof.
  unfold next_delay, skips_delay. destruct (is_measure g), (apply_acq_delay g); cbn [andb negb]; intros E; try (right; split; [intuition discriminate|congruence]).
  left. split; [auto|]. destruct (index kw "acq_delay") as [v|] eqn:Ev; [|discriminate]. cbn [bind] in E. destruct (negated v) as [w|] eqn:Ew; [|discriminate]. cbn [bind] in E. injection E as <-. exists v, w. split; [apply index_ok, Ev|]. split; [apply negated_spec, Ew|]. intros k. apply get_put.
Qed.
Lemma base_single g c kw kw1 : next_delay g (kwargs c) = Ok kw1 -> from_gate g (gate_keys c) kw1 = Ok kw -> forall k v, get kw k = Some v <-> BaseArg g c None k v.
Proof.
  intros E1 E2 k v. destruct (from_gate_spec _ _ _ _ E2) as [G1 G2]. destruct (in_dec string_dec k (gate_keys c)) as [Hi|Hi].
  - destruct (G1 k Hi) as (w & Hw & Hk). rewrite Hk. split.
    + intros [= <-]. apply BA_gate; [exact Hi|congruence|constructor; exact Hw].
    + intros H. f_equal. inversion H as [? ? _ _ Hg|? ? _ Hn _ _|? ? Hn]; subst; [inversion Hg; subst; congruence|exfalso; apply (Hn eq_refl), Hi|contradiction].
  - rewrite (G2 k Hi). destruct (next_delay_spec _ _ _ E1) as [(Hs & d & w & Hd & Hm & Hk)|[Hs ->]].
    + rewrite Hk. destruct (String.eqb_spec "next_operation_delay" k) as [<-|Hne].
      * split; [intros [= <-]; eapply BA_delay; [exact Hs|intros _; exact Hi|constructor; exact Hd|exact Hm]|]. intros H. f_equal. inversion H as [? ? Hg|d' ? _ _ Ha Hm'|? ? _ Hn]; subst; [contradiction| |exfalso; apply (Hn eq_refl), Hs]. inversion Ha; subst. assert (d = d') by congruence. subst d'. destruct Hm; inversion Hm'; reflexivity.
      * split; [intros H; apply BA_config; [exact Hi|congruence|exact H]|]. intros H. inversion H; subst; [contradiction|congruence|assumption].
    + split; [intros H; apply BA_config; [exact Hi|auto|exact H]|]. intros H. inversion H; subst; [contradiction|contradiction|assumption].
Qed.
Lemma base_mux g c i kw kw1 : from_gate_mux g i (gate_keys c) (kwargs c) = Ok kw1 -> next_delay g kw1 = Ok kw -> forall k v, get kw k = Some v <-> BaseArg g c (Some i) k v.
Proof.
  intros E1 E2 k v. destruct (from_gate_mux_spec _ _ _ _ _ E1) as [G1 G2].
  assert (B : (k = "next_operation_delay" -> ~ skips_delay g) -> (get kw1 k = Some v <-> BaseArg g c (Some i) k v)).
  { intros Hn. destruct (in_dec string_dec k (gate_keys c)) as [Hi|Hi].
    - destruct (G1 k Hi) as (w & Hw & Hk). rewrite Hk. split; [intros [= <-]; apply BA_gate; auto|]. intros H. f_equal. inversion H; subst; [eapply GateArg_fun; eassumption|exfalso; apply Hn; auto|contradiction].
    - rewrite (G2 k Hi). split; [intros H; apply BA_config; auto|]. intros H. inversion H; subst; [contradiction|exfalso; apply Hn; auto|assumption]. }
  destruct (next_delay_spec _ _ _ E2) as [(Hs & d & w & Hd & Hm & Hk)|[Hs ->]].
  - rewrite Hk. destruct (String.eqb_spec "next_operation_delay" k) as [<-|Hne]; [|apply B; congruence].
    assert (Ha : AcqDelay g c (Some i) d). { destruct (in_dec string_dec "acq_delay" (gate_keys c)) as [Hi|Hi]; [destruct (G1 _ Hi) as (x & Hx & Hx'); apply AD_gate; [exact Hi|congruence]|rewrite (G2 _ Hi) in Hd; apply AD_config; assumption]. }
    split; [intros [= <-]; eapply BA_delay; [exact Hs|discriminate|exact Ha|exact Hm]|]. intros H. f_equal. inversion H as [? ? _ Hn|d' ? _ _ Ha' Hm'|? ? _ Hn]; subst; [exfalso; eapply Hn; [reflexivity|discriminate|exact Hs]| |exfalso; apply (Hn eq_refl), Hs].
    assert (d = d') by (inversion Ha; subst; inversion Ha'; subst; try congruence; eapply GateArg_fun; eassumption). subst d'. destruct Hm; inversion Hm'; reflexivity.
  - apply B. intros _. exact Hs.
Qed.
Lemma called g c i over kw : (forall k v, get kw k = Some v <-> BaseArg g c i k v) -> CalledWith g c i over (override (merged (own_overrides g) over) kw).
Proof.
  intros H k v. unfold override. rewrite get_replaced, get_merged. fold (overridden g over k). change (match get over k with Some w => Some w | None => get (own_overrides g) k end) with (overridden g over k). split.
  - destruct (get kw k) as [w|] eqn:E; [|discriminate]. intros [= <-]. exists w. split; [apply H, E|]. reflexivity.
  - intros (w & Hw & ->). apply H in Hw. rewrite Hw. reflexivity.
Qed.
Lemma supplied_single g c kw kw1 : next_delay g (kwargs c) = Ok kw1 -> from_gate g (gate_keys c) kw1 = Ok kw -> Supplied g c None.
Proof.
  intros E1 E2. split.
  - intros k Hk. destruct (from_gate_spec _ _ _ _ E2) as [G1 _]. destruct (G1 k Hk) as (v & Hv & _). exists v. constructor. exact Hv.
  - intros Hs. destruct (next_delay_spec _ _ _ E1) as [(_ & d & w & Hd & Hm & _)|[Hn _]]; [|contradiction]. exists d, w. split; [constructor; exact Hd|exact Hm].
Qed.
Lemma supplied_mux g c i kw kw1 : from_gate_mux g i (gate_keys c) (kwargs c) = Ok kw1 -> next_delay g kw1 = Ok kw -> Supplied g c (Some i).
Proof.
  intros E1 E2. destruct (from_gate_mux_spec _ _ _ _ _ E1) as [G1 G2]. split.
  - intros k Hk. destruct (G1 k Hk) as (v & Hv & _). exists v. exact Hv.
  - intros Hs. destruct (next_delay_spec _ _ _ E2) as [(_ & d & w & Hd & Hm & _)|[Hn _]]; [|contradiction]. exists d, w. split; [|exact Hm].
    destruct (in_dec string_dec "acq_delay" (gate_keys c)) as [Hi|Hi]; [destruct (G1 _ Hi) as (x & Hx & Hx'); apply AD_gate; [exact Hi|congruence]|rewrite (G2 _ Hi) in Hd; apply AD_config; assumption].
Qed.
Lemma represents_single g c over dev : device_repr g c (merged (own_overrides g) over) = Ok dev -> Represents g c None over dev.
Proof.
  unfold device_repr. destruct (next_delay g (kwargs c)) as [kw1|] eqn:E1; [|discriminate]. cbn [bind]. destruct (from_gate g (gate_keys c) kw1) as [kw|] eqn:E2; [|discriminate]. cbn [bind]. unfold call. destruct (factory c) as [f|] eqn:Ef; [|discriminate]. intros E. exists f. eexists. split; [exact Ef|]. split; [eapply supplied_single; eassumption|]. split; [|exact E]. apply called. eapply base_single; eassumption.
Qed.
Lemma represents_mux g c i over dev : device_repr_mux g c i (merged (own_overrides g) over) = Ok dev -> Represents g c (Some i) over dev.
Proof.
  unfold device_repr_mux. destruct (from_gate_mux g i (gate_keys c) (kwargs c)) as [kw1|] eqn:E1; [|discriminate]. cbn [bind]. destruct (next_delay g kw1) as [kw|] eqn:E2; [|discriminate]. cbn [bind]. unfold call. destruct (factory c) as [f|] eqn:Ef; [|discriminate]. intros E. exists f. eexists. split; [exact Ef|]. split; [eapply supplied_mux; eassumption|]. split; [|exact E]. apply called. eapply base_mux; eassumption.
Qed.
Lemma called_fun g c i over kw kw' : CalledWith g c i over kw -> CalledWith g c i over kw' -> forall k, get kw k = get kw' k.
Proof.
  intros H H' k. destruct (get kw k) as [v|] eqn:E.
  - apply H in E. apply H' in E. symmetry. exact E.
  - destruct (get kw' k) as [v|] eqn:E'; [|reflexivity]. apply H' in E'. apply H in E'. congruence.
Qed.

(** ** Soundness *)
Lemma sched_dec o : is_sched o = true <-> is_schedule o.
Proof. split; [destruct o; try discriminate; intros _; unfold is_schedule; eauto 10|intros (? & ? & ? & ? & ? & ? & ->); reflexivity]. Qed.
Lemma not_sched o : is_sched o = false -> ~ is_schedule o.
Proof. intros H Hs. apply sched_dec in Hs. congruence. Qed.
Lemma represent_extended l dev : represent l dev = extended l [dev].
Proof. unfold represent, extended. destruct l as [g p a]. destruct dev; cbn; rewrite ?app_nil_r; reflexivity. Qed.
Lemma extended_app l x y : extended (extended l x) y = extended l (x ++ y).
Proof. unfold extended. cbn. rewrite !flat_map_app, !app_assoc. reflexivity. Qed.
Lemma extended_nil l : extended l [] = l.
Proof. unfold extended. cbn. rewrite !app_nil_r. destruct l; reflexivity. Qed.
Lemma edge_name_on cfg g a b e ed c : find_edge cfg (symmetric g) a b = Ok e -> get (edges cfg) e = Some ed -> get ed (gtype g) = Some c -> OnEdge cfg g a b c.
Proof.
  unfold find_edge, has. destruct (get (edges cfg) (edge_name a b)) as [d1|] eqn:E1.
  - intros [= <-] He Hc. exists ed. split; [exact Hc|]. left. exact He.
  - destruct (symmetric g) eqn:Es; [|discriminate]. intros E He Hc. exists ed. split; [exact Hc|]. right. split; [exact E1|]. split; [exact Es|].
    assert (Hin : In e (filter (fun k => match get (edges cfg) k with Some _ => true | None => false end) (nodup string_dec [edge_name a b; edge_name b a]))) by (destruct (filter _ _) as [|x [|y l]]; try discriminate; injection E as ->; left; reflexivity).
    apply filter_In in Hin. destruct Hin as [Hin Hx]. apply nodup_In in Hin. destruct Hin as [<-|[<-|[]]]; [rewrite E1 in Hx; discriminate|exact He].
Qed.
Lemma edge_complete cfg g a b c : OnEdge cfg g a b c -> exists e ed, find_edge cfg (symmetric g) a b = Ok e /\ get (edges cfg) e = Some ed /\ get ed (gtype g) = Some c.
Proof.
  intros (ed & Hc & [He|(He & Hs & Hb)]).
  - exists (edge_name a b), ed. unfold find_edge, has. rewrite He. auto.
  - exists (edge_name b a), ed. split; [|auto]. unfold find_edge. assert (Hh : has (edges cfg) (edge_name a b) = false) by (unfold has; rewrite He; reflexivity). assert (Hh' : has (edges cfg) (edge_name b a) = true) by (unfold has; rewrite Hb; reflexivity). rewrite Hh, Hs. cbn [nodup]. destruct (in_dec string_dec (edge_name a b) [edge_name b a]) as [[Hi|[]]|Hi]; [congruence|]. cbn [in_dec nodup filter]. cbn. rewrite Hh, Hh'. reflexivity.
Qed.
Lemma attach_sound cfg rec over id l g dev o' : (forall ov x y, rec ov x = Ok y -> Device cfg ov x y) -> attach rec (merged (own_overrides g) over) id l dev = Ok o' -> Becomes cfg over id l g dev o'.
Proof.
  intros Hrec. unfold attach. destruct (is_sched dev) eqn:Es; [intros E; apply B_sched; [apply sched_dec, Es|apply Hrec, E]|]. intros [= <-]. rewrite represent_extended. apply B_leaf, not_sched, Es.
Qed.
Lemma mux_sound cfg rec over g : (forall ov x y, rec ov x = Ok y -> Device cfg ov x y) -> forall qs i l flag subs l' flag' subs', mux rec cfg (merged (own_overrides g) over) g i qs l flag subs = Ok (l', flag', subs') ->
  exists plain new, Parts cfg over g i qs plain new /\ l' = extended l plain /\ subs' = subs ++ new /\ flag' = (flag || match plain with [] => false | _ => true end)%bool.
Proof.
  intros Hrec. induction qs as [|q qs IH]; intros i l flag subs l' flag' subs' E; cbn [mux] in E.
  - injection E as <- <- <-. exists [], []. rewrite extended_nil, app_nil_r, orb_false_r. repeat split. constructor.
  - destruct (index (elements cfg) q) as [el|] eqn:E1; [|discriminate]. cbn [bind] in E. destruct (index el (gtype g)) as [c|] eqn:E2; [|discriminate]. cbn [bind] in E. destruct (device_repr_mux g c i (merged (own_overrides g) over)) as [dev|] eqn:E3; [|discriminate]. cbn [bind] in E.
    assert (Hon : OnElement cfg q (gtype g) c) by (exists el; split; apply index_ok; assumption). apply represents_mux in E3. destruct (is_sched dev) eqn:Es.
    + destruct (rec (merged (over_of dev) (merged (own_overrides g) over)) dev) as [d|] eqn:Er; [|discriminate]. cbn [bind] in E. destruct (IH _ _ _ _ _ _ _ E) as (plain & new & P & -> & -> & ->). exists plain, (d :: new). split; [eapply P_sched; [exact Hon|exact E3|apply sched_dec, Es|apply Hrec, Er|exact P]|]. rewrite <- app_assoc. auto.
    + destruct (IH _ _ _ _ _ _ _ E) as (plain & new & P & -> & -> & ->). exists (dev :: plain), new. split; [eapply P_plain; [exact Hon|exact E3|apply not_sched, Es|exact P]|]. rewrite represent_extended, extended_app, orb_true_r. auto.
Qed.
Lemma multiplexed_sound cfg rec over id l g r : (forall ov x y, rec ov x = Ok y -> Device cfg ov x y) -> empty l -> l_gate l = Some g -> List.length (elems g) <> 1%nat -> (forall a b, elems g = [a; b] -> exists c, OnElement cfg a (gtype g) c) ->
  multiplexed rec cfg (merged (own_overrides g) over) id l g = Ok r -> Device cfg over (GLeaf id l) (fst r) /\ exists plain subs, Parts cfg over g 0 (elems g) plain subs /\ snd r = extended l plain.
Proof.
  intros Hrec Hl Hg Hn H2. unfold multiplexed. destruct (mux rec cfg _ g 0 (elems g) l false []) as [[[l' flag] subs]|] eqn:E; [|discriminate]. cbn [bind]. destruct (mux_sound _ _ _ _ Hrec _ _ _ _ _ _ _ _ E) as (plain & new & P & -> & Hs & ->). cbn [app] in Hs. subst new.
  pose proof (D_multi cfg over id l g plain subs Hl Hg Hn H2 P) as D. destruct subs as [|s subs]; intros [= <-]; cbn [fst snd]; (split; [|eauto]); [exact D|]. destruct plain; exact D.
Qed.
Lemma gate_sound cfg rec over id l r : (forall ov x y, rec ov x = Ok y -> Device cfg ov x y) -> empty l -> gate_to_device rec cfg over id l = Ok r -> Device cfg over (GLeaf id l) (fst r).
Proof.
  intros Hrec Hl. unfold gate_to_device. destruct (l_gate l) as [g|] eqn:Hg; [|discriminate].
  assert (Hm : List.length (elems g) <> 1%nat -> (forall a b, elems g = [a; b] -> exists c, OnElement cfg a (gtype g) c) -> multiplexed rec cfg (merged (own_overrides g) over) id l g = Ok r -> Device cfg over (GLeaf id l) (fst r)) by (intros H1 H2 E; eapply multiplexed_sound; eassumption).
  destruct (elems g) as [|a [|b [|c rest]]] eqn:Ee.
  - apply Hm; [discriminate|discriminate].
  - unfold single. destruct (index (elements cfg) a) as [el|] eqn:E1; [|discriminate]. cbn [bind]. destruct (index el (gtype g)) as [c|] eqn:E2; [|discriminate]. cbn [bind]. destruct (device_repr g c _) as [dev|] eqn:E3; [|discriminate]. cbn [bind]. destruct (attach rec _ id l dev) as [o'|] eqn:E4; [|discriminate]. cbn [bind]. intros [= <-]. cbn [fst]. eapply D_single; [exact Hl|exact Hg|exact Ee|exists el; split; apply index_ok; eassumption|apply represents_single, E3|eapply attach_sound; eassumption].
  - destruct (index (elements cfg) a) as [el|] eqn:E1; [|discriminate]. cbn [bind]. unfold has. destruct (get el (gtype g)) as [c|] eqn:E2.
    + apply Hm; [discriminate|]. intros a' b' [= <- <-]. exists c, el. split; [apply index_ok, E1|exact E2].
    + unfold two. destruct (find_edge cfg (symmetric g) a b) as [e|] eqn:E3; [|discriminate]. cbn [bind]. destruct (index (edges cfg) e) as [ed|] eqn:E4; [|discriminate]. cbn [bind]. destruct (index ed (gtype g)) as [c|] eqn:E5; [|discriminate]. cbn [bind]. destruct (device_repr g c _) as [dev|] eqn:E6; [|discriminate]. cbn [bind]. destruct (attach rec _ id l dev) as [o'|] eqn:E7; [|discriminate]. cbn [bind]. intros [= <-]. cbn [fst].
      eapply D_two; [exact Hl|exact Hg|exact Ee|apply index_ok, E1|exact E2| |apply represents_single, E6|eapply attach_sound; eassumption]. eapply edge_name_on; [exact E3|apply index_ok, E4|apply index_ok, E5].
  - apply Hm; [discriminate|discriminate].
Qed.
Lemma empty_dec l : {empty l} + {~ empty l}.
Proof. unfold empty. destruct (pulses l), (acqs l); auto; right; intros [? ?]; discriminate. Qed.
(** Whatever the compiler returns is what the configuration prescribes ([Device] in CircSpec.v): every gate is represented by its configured factory, called with the configured arguments, those of the gate and the overrides; everything else is unchanged. *)
Theorem C40_sound : forall fuel cfg over o o', c2d fuel cfg over o = Ok o' -> Device cfg over o o'.
Proof.
  induction fuel as [|f IH]; intros cfg over o o' E; [discriminate|]. cbn [c2d] in E. destruct o as [id l|c d|n b|u b|qs m g r b|own d r n ops ss].
  - destruct (empty_dec l) as [He|He].
    + destruct He as [Hp Ha]. rewrite Hp, Ha in E. destruct (gate_to_device (c2d f cfg) cfg over id l) as [x|] eqn:Ex; [|discriminate]. cbn [bind] in E. injection E as <-. eapply gate_sound; [|split; assumption|exact Ex]. intros ov y z. apply IH.
    + assert (E' : Ok (GLeaf id l) = Ok o') by (destruct (pulses l) eqn:Hp; [destruct (acqs l) eqn:Ha; [exfalso; apply He; split; assumption|exact E]|exact E]). injection E' as <-. apply D_done, He.
  - injection E as <-. constructor.
  - destruct (c2d f cfg over b) as [b'|] eqn:Eb; [|discriminate]. injection E as <-. constructor. apply IH, Eb.
  - destruct (c2d f cfg over b) as [b'|] eqn:Eb; [|discriminate]. injection E as <-. constructor. apply IH, Eb.
  - destruct qs as [qs|].
    + destruct (foldM (comp_step cfg) qs _) as [[[max grid] rate]|] eqn:Ef; [|discriminate]. cbn [bind] in E. destruct (c2d f cfg over b) as [b'|] eqn:Eb; [|discriminate]. injection E as <-. eapply D_comp; [exact Ef|apply IH, Eb].
    + destruct (c2d f cfg over b) as [b'|] eqn:Eb; [|discriminate]. injection E as <-. constructor. apply IH, Eb.
  - match type of E with bind ?e _ = _ => destruct e as [ops'|] eqn:Eo; [|discriminate] end. injection E as <-. constructor. revert ops' Eo. induction ops as [|[k x] ops IHo]; intros ops' Eo; cbn [mapM] in Eo; [injection Eo as <-; constructor|].
    destruct (c2d f cfg (merged own over) x) as [x'|] eqn:Ex; [|discriminate]. cbn [bind] in Eo. destruct (mapM _ ops) as [r'|]; [|discriminate]. injection Eo as <-. constructor; [apply IH, Ex|apply IHo; reflexivity].
Qed.
