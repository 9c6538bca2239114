(** C71: real-time distortion filters. *)
From Verif Require Import Base CircModel PathModel RtfModel RtfSpec RtfProps RtfProps2.
From Coq Require Import Ascii.
Local Open Scope string_scope.
Local Open Scope list_scope.
Local Open Scope Z_scope.

Lemma foldM_app3 {A B} (f : B -> A -> result B) l1 l2 b : foldM f (l1 ++ l2) b = bind (foldM f l1 b) (foldM f l2).
Proof. revert b. induction l1 as [|x l IH]; intros b; cbn [app foldM]; [reflexivity|]. destruct (f b x); cbn [bind]; auto. Qed.

(** ** Corrections per output *)
Lemma real_number ch o : In (ch, [o]) drives -> channel_number ch = Ok o.
Proof. intros H. cbn in H. repeat (destruct H as [H|H]; [first [discriminate | injection H as <- <-; reflexivity]|]). contradiction. Qed.
Lemma complex_number ch o o' : In (ch, [o; o']) drives -> exists n, channel_number ch = Ok n /\ o = (2 * n)%nat /\ o' = (2 * n + 1)%nat.
Proof.
  intros H. cbn in H. repeat (destruct H as [H|H]; [first [discriminate | injection H as <- <- <-; eexists; split; [reflexivity|]; split; reflexivity]|]). contradiction.
Qed.
Lemma drives_functional ch a b : In (ch, a) drives -> In (ch, b) drives -> a = b.
Proof. intros H K. destruct (drives_outs _ _ H) as [H' _], (drives_outs _ _ K) as [K' _]. congruence. Qed.

Record confinv (dcs : dict dcopt) (pcs : dict path) (confs : list (nat * dconf)) : Prop := {
  ci_in : forall o c, nget confs o = Some c -> assigned dcs pcs o (f_corr c);
  ci_all : forall o c, assigned dcs pcs o c -> nget confs o <> None;
  ci_nodup : NoDup (map fst confs) }.

Lemma nget_in {A} (d : list (nat * A)) k : nget d k <> None <-> In k (map fst d).
Proof.
  induction d as [|[k' v] r IH]; cbn [nget map fst In]; [tauto|]. destruct (Nat.eqb_spec k' k) as [->|N]; [split; [auto|discriminate]|]. rewrite IH. tauto.
Qed.
Lemma nput_nodup {A} (d : list (nat * A)) k v : NoDup (map fst d) -> NoDup (map fst (nput d k v)).
Proof.
  intros H. destruct (nget d k) eqn:E; [rewrite nput_keys; [exact H|congruence]|].
  assert (X : nput d k v = d ++ [(k, v)]).
  { clear H. induction d as [|[k' w] r IH]; cbn [nput nget app] in *; [reflexivity|]. destruct (Nat.eqb k' k); [discriminate|]. now rewrite IH. }
  rewrite X, map_app. cbn. apply NoDup_remove_2 || idtac. rewrite <- (rev_involutive (map fst d ++ [k])). apply NoDup_rev. rewrite rev_app_distr. cbn. constructor.
  - rewrite <- in_rev. intros K. apply nget_in in K. congruence.
  - now apply NoDup_rev.
Qed.

Lemma assigned_snoc dcs pcs pc dc o c : assigned (dcs ++ [(pc, dc)]) pcs o c <-> assigned dcs pcs o c \/ exists p, get pcs pc = Some p /\ corrects (p_ch p) dc o c.
Proof.
  split.
  - intros (pc' & dc' & p & H & G & K). apply in_app_iff in H. destruct H as [H|[H|[]]]; [left; exists pc', dc', p; auto|]. injection H as <- <-. right. eauto.
  - intros [(pc' & dc' & p & H & G & K)|(p & G & K)]; [exists pc', dc', p|exists pc, dc, p]; rewrite in_app_iff; cbn; auto.
Qed.

Lemma confs_inv descs pcs dcs confs : fitting dcs pcs -> distortion_configs descs pcs dcs = Ok confs -> confinv dcs pcs confs.
Proof.
  unfold distortion_configs. revert confs. induction dcs as [|[pc dc] l IH] using rev_ind; intros confs FT E.
  - injection E as <-. constructor; [discriminate|intros o c (? & ? & ? & [] & _)|constructor].
  - rewrite foldM_app3 in E. destruct (foldM _ l []) as [confs0|]; cbn [bind foldM] in E; [|discriminate].
    assert (I : confinv l pcs confs0). { apply IH; [|reflexivity]. intros a b p H. apply FT. apply in_app_iff. auto. }
    destruct (conf_step descs pcs confs0 (pc, dc)) as [confs'|] eqn:S1; cbn [bind] in E; [|discriminate]. injection E as <-. destruct I as [I1 I2 I3].
    assert (SKIP : confs' = confs0 -> (forall o c p, get pcs pc = Some p -> ~ corrects (p_ch p) dc o c) -> confinv (l ++ [(pc, dc)]) pcs confs').
    { intros -> N. constructor; [|intros o c H|exact I3].
      - intros o c H. apply assigned_snoc. left. now apply I1.
      - apply assigned_snoc in H. destruct H as [H|(p & G & K)]; [now apply (I2 o c)|]. exfalso. now apply (N o c p). }
    unfold conf_step in S1. destruct (get pcs pc) as [p|] eqn:G; [|apply SKIP; [congruence|intros; congruence]].
    assert (FP : match dc with Soft => True | One _ => exists o, In (p_ch p, [o]) drives | Several _ => exists o o', In (p_ch p, [o; o']) drives end).
    { apply (FT pc dc p); [apply in_app_iff; right; now left|exact G]. }
    destruct dc as [|c|cs]; [apply SKIP; [congruence|]; intros o c p' _ K; inversion K| |].
    + destruct FP as [o DR]. rewrite (real_number _ _ DR) in S1. cbn [bind] in S1. destruct (debug_of descs (p_ch p)) as [dbg|]; cbn [bind] in S1; [|discriminate].
      destruct (nget confs0 o) eqn:NG; [discriminate|]. injection S1 as <-. constructor.
      * intros o' c' H. rewrite nget_nput in H. apply assigned_snoc. destruct (Nat.eqb_spec o o') as [<-|N]; [|left; now apply I1].
        injection H as <-. right. exists p. split; [exact G|]. cbn. now constructor.
      * intros o' c' H. rewrite nget_nput. destruct (Nat.eqb_spec o o') as [<-|N]; [discriminate|]. apply assigned_snoc in H. destruct H as [H|(p' & G' & K)]; [now apply (I2 o' c')|].
        exfalso. assert (p' = p) by congruence. subst p'. inversion K as [ch x y DR'| |]; subst. pose proof (drives_functional _ _ _ DR DR'). congruence.
      * now apply nput_nodup.
    + destruct FP as (o & o' & DR). destruct (complex_number _ _ _ DR) as (n & CN & E1 & E2). rewrite CN in S1. cbn [bind] in S1.
      destruct (debug_of descs (p_ch p)) as [dbg|]; cbn [bind] in S1; [|discriminate]. destruct (nget confs0 n) eqn:NG; [discriminate|].
      destruct cs as [|a [|b r]]; [discriminate|discriminate|]. apply (f_equal (fun r => match r with Ok l => l | Err _ => [] end)) in S1. cbv beta iota in S1. subst confs' o o'. set (o := (2 * n)%nat) in *. set (o' := (o + 1)%nat) in *. constructor.
      * intros x c' H. rewrite !nget_nput in H. apply assigned_snoc. destruct (Nat.eqb_spec o' x) as [<-|N1]; [|destruct (Nat.eqb_spec o x) as [<-|N2]].
        -- injection H as <-. right. exists p. split; [exact G|]. cbn. now apply (corrects_Q _ o).
        -- injection H as <-. right. exists p. split; [exact G|]. cbn. now apply (corrects_I _ _ o').
        -- left. now apply I1.
      * intros x c' H. rewrite !nget_nput. destruct (Nat.eqb_spec o' x) as [<-|N1]; [discriminate|]. destruct (Nat.eqb_spec o x) as [<-|N2]; [discriminate|].
        apply assigned_snoc in H. destruct H as [H|(p' & G' & K)]; [now apply (I2 x c')|].
        exfalso. assert (p' = p) by congruence. subst p'. inversion K as [|ch y z a' b' r' DR'|ch y z a' b' r' DR']; subst; pose proof (drives_functional _ _ _ DR DR'); congruence.
      * now apply nput_nodup, nput_nodup.
Qed.

(** ** Enabling the filters *)
Lemma filt_eqb_spec a b : reflect (a = b) (filt_eqb a b).
Proof. destruct a, b; constructor; congruence. Qed.
Definition filter_step (o : nat) (c : dconf) (s : list dset) (f : filt) : result (list dset) :=
  match f_corr c f with None => Ok s | Some v => if bad_coeffs f v then Err ValueError else upd s o (set_filter f v (f_debug c)) end.
(** the settings of a filter after the correction [c] *)
Definition after (c : dconf) (d : dset) (f : filt) : rtf :=
  match f_corr c f with None => d f | Some v => {| r_coeffs := Some v; r_cfg := Enabled; r_delay := if f_debug c then true else r_delay (d f) |} end.

Lemma filters_inv o c : forall fs s s', NoDup fs -> foldM (filter_step o c) fs s = Ok s' ->
  List.length s' = List.length s /\ (forall m, m <> o -> nth_error s' m = nth_error s m) /\
  (forall d', nth_error s' o = Some d' -> exists d, nth_error s o = Some d /\ forall f, (In f fs -> d' f = after c d f) /\ (~ In f fs -> d' f = d f)) /\
  (forall f v, In f fs -> f_corr c f = Some v -> bad_coeffs f v = false).
Proof.
  induction fs as [|f fs IH]; intros s s' ND E; cbn [foldM] in E.
  - injection E as <-. split; [reflexivity|]. split; [reflexivity|]. split; [|intros ? ? []]. intros d' H. exists d'. split; [exact H|]. intros f. split; [intros []|reflexivity].
  - inversion ND as [|x y N1 N2]; subst. destruct (filter_step o c s f) as [t|] eqn:S1; cbn [bind] in E; [|discriminate]. destruct (IH _ _ N2 E) as (L & O & D & B).
    unfold filter_step in S1. destruct (f_corr c f) as [v|] eqn:CF.
    + destruct (bad_coeffs f v) eqn:BC; [discriminate|]. apply upd_spec in S1. destruct S1 as (U1 & U2 & U3 & U4). split; [congruence|]. split; [|split].
      * intros m M. rewrite O by exact M. now apply U4.
      * intros d' H. destruct (D _ H) as (d1 & H1 & K). destruct (U3 _ H1) as (d & H2 & ->). exists d. split; [exact H2|]. intros g. destruct (K g) as [K1 K2]. split.
        -- intros [<-|G]; [rewrite K2 by exact N1|rewrite K1 by exact G].
           ++ unfold set_filter, after. rewrite CF. destruct (filt_eqb_spec f f); [reflexivity|congruence].
           ++ unfold after, set_filter. destruct (filt_eqb_spec f g) as [<-|]; [contradiction|reflexivity].
        -- intros G. rewrite K2 by (intros X; apply G; now right). unfold set_filter. destruct (filt_eqb_spec f g) as [<-|]; [exfalso; apply G; now left|reflexivity].
      * intros g w [<-|G] CG; [congruence|now apply B].
    + injection S1 as <-. split; [exact L|]. split; [exact O|]. split.
      * intros d' H. destruct (D _ H) as (d & H1 & K). exists d. split; [exact H1|]. intros g. destruct (K g) as [K1 K2]. split.
        -- intros [<-|G]; [|now apply K1]. rewrite K2 by exact N1. unfold after. now rewrite CF.
        -- intros G. apply K2. intros X. apply G. now right.
      * intros g w [<-|G] CG; [congruence|now apply B].
Qed.
Lemma all_filters_nodup : NoDup all_filters.
Proof. repeat constructor; cbn; intuition congruence. Qed.
Lemma all_filters_in f : In f all_filters.
Proof. destruct f; cbn; tauto. Qed.

Lemma apply_inv : forall confs s s', NoDup (map fst confs) -> foldM apply_conf confs s = Ok s' ->
  List.length s' = List.length s /\
  (forall o d', nth_error s' o = Some d' -> exists d, nth_error s o = Some d /\ forall f, d' f = match nget confs o with Some c => after c d f | None => d f end) /\
  (forall o c, nget confs o = Some c -> (o < List.length s)%nat /\ forall f v, f_corr c f = Some v -> bad_coeffs f v = false).
Proof.
  induction confs as [|[k c] r IH]; intros s s' ND E; cbn [foldM] in E.
  - injection E as <-. split; [reflexivity|]. split; [|discriminate]. intros o d H. exists d. auto.
  - cbn [map fst] in ND. inversion ND as [|x y N1 N2]; subst. destruct (apply_conf s (k, c)) as [t|] eqn:A; cbn [bind] in E; [|discriminate].
    unfold apply_conf in A. destruct (upd s k (fun d => d)) as [u|] eqn:U; cbn [bind] in A; [|discriminate]. apply upd_spec in U. destruct U as (_ & U & _).
    apply (filters_inv k c all_filters) in A; [|apply all_filters_nodup]. destruct A as (L1 & O1 & D1 & B1). destruct (IH _ _ N2 E) as (L2 & D2 & B2).
    assert (KN : nget r k = None). { destruct (nget r k) eqn:X; [|reflexivity]. exfalso. apply N1. apply nget_in. congruence. }
    split; [congruence|]. split.
    + intros o d' H. destruct (D2 _ _ H) as (d1 & H1 & K1). cbn [nget]. destruct (Nat.eqb_spec k o) as [<-|NE].
      * destruct (D1 _ H1) as (d & H2 & K2). exists d. split; [exact H2|]. intros f. rewrite K1, KN. apply K2, all_filters_in.
      * rewrite O1 in H1 by auto. exists d1. auto.
    + intros o c'. cbn [nget]. destruct (Nat.eqb_spec k o) as [<-|NE].
      * intros H. injection H as <-. split; [exact U|]. intros f v. apply B1, all_filters_in.
      * intros H. rewrite <- L1. now apply B2.
Qed.
