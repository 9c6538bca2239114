(** Write sequences: what a call of the model does to the parameters. *)
From Verif Require Import Base PathModel PathProps6 JsonModel JsonProps2 ZiIds LibThms7 QbModel QbSpec.
Local Open Scope string_scope.
Local Open Scope list_scope.

Definition item := (loc * string * value)%type.
Section D.
Variable d : driver.
Hypothesis gc : GoodCalibration d.

Definition wr (m : memory) (it : item) : memory :=
  let '(l, p, v) := it in
  if has d l p then if force_set d then upd m l p {| hw := v; cached := Some v |}
                    else if same_as_cache m l p v then m else upd m l p {| hw := v; cached := Some v |}
  else m.
Definition settable (it : item) : Prop := let '(l, p, v) := it in has d l p = true \/ bt_ignored p v = true.
Definition Writes (m : M unit) (ws : list item) : Prop := forall c c', m c = (c', Ok tt) -> mem c' = fold_left wr ws (mem c) /\ Forall settable ws.

Lemma loc_eqb_eq a b : loc_eqb a b = true <-> a = b.
Proof. destruct a, b; cbn; try rewrite Nat.eqb_eq; split; congruence. Qed.
Lemma upd_same m l p c : upd m l p c l p = c.
Proof. unfold upd. assert (loc_eqb l l = true) as -> by now apply loc_eqb_eq. now rewrite String.eqb_refl. Qed.
Lemma upd_other m l p c l' p' : (l, p) <> (l', p') -> upd m l p c l' p' = m l' p'.
Proof. intros h. unfold upd. destruct (loc_eqb l l') eqn:E; [|auto]. destruct (String.eqb_spec p p'); [|auto]. apply loc_eqb_eq in E. exfalso. apply h. congruence. Qed.

Lemma then_inv {A} (m n : M A) c c' r : (m >> n) c = (c', r) -> (exists c1 a, m c = (c1, Ok a) /\ n c1 = (c', r)) \/ (exists e, m c = (c', Err e) /\ r = Err e).
Proof. unfold andthen, bnd. destruct (m c) as [c1 [a|e]]; intros h; [left; eauto|right]. injection h as <- <-. eauto. Qed.
Lemma then_ok (m n : M unit) c c' : (m >> n) c = (c', Ok tt) -> exists c1, m c = (c1, Ok tt) /\ n c1 = (c', Ok tt).
Proof. intros h. apply then_inv in h. destruct h as [(c1 & [] & a & b)|(e & _ & h)]; [eauto|discriminate]. Qed.
Lemma bnd_inv {A B} (m : M A) (f : A -> M B) c c' r : bnd m f c = (c', r) -> (exists c1 a, m c = (c1, Ok a) /\ f a c1 = (c', r)) \/ (exists e, m c = (c', Err e) /\ r = Err e).
Proof. unfold bnd. destruct (m c) as [c1 [a|e]]; intros h; [left; eauto|right]. injection h as <- <-. eauto. Qed.

Lemma writes_ret : Writes (ret tt) [].
Proof. intros c c' h. injection h as <-. split; auto. Qed.
Lemma writes_raise e ws : Writes (raise e) ws.
Proof. intros c c' h. discriminate h. Qed.
Lemma writes_then m n a b : Writes m a -> Writes n b -> Writes (m >> n) (a ++ b).
Proof. intros h1 h2 c c' h. apply then_ok in h. destruct h as (c1 & e1 & e2). apply h1 in e1. apply h2 in e2. destruct e1 as [e1 ?]. destruct e2 as [e2 ?]. rewrite e2, e1, fold_left_app. split; [auto|]. apply Forall_app. auto. Qed.
Lemma writes_raw l p v c c' : raw_set d l p v c = (c', Ok tt) -> mem c' = upd (mem c) l p {| hw := v; cached := Some v |}.
Proof. unfold raw_set. destruct (accepts d l p v); intros h; [|discriminate]. injection h as <-. reflexivity. Qed.
Lemma writes_set l p v : Writes (set_parameter d l p v) [(l, p, v)].
Proof. intros c c'. unfold set_parameter. cbn [fold_left wr]. destruct (has d l p) eqn:Eh.
  - intros h. assert (F : Forall settable [(l, p, v)]) by (constructor; [left; auto|constructor]). split; [|auto]. destruct (force_set d); [now apply writes_raw|]. unfold bnd, gets in h. destruct (same_as_cache (mem c) l p v); [injection h as <-; auto|now apply writes_raw].
  - destruct (bt_ignored p v) eqn:Eb; intros h; [|discriminate]. injection h as <-. split; [auto|]. constructor; [right; auto|constructor]. Qed.
Lemma writes_when {A} (o : option A) f (g : A -> list item) : (forall a, o = Some a -> Writes (f a) (g a)) -> Writes (when_some o f) (match o with Some a => g a | None => [] end).
Proof. destruct o; intros h; [now apply h|apply writes_ret]. Qed.
Lemma writes_each {A} (l : list A) f (g : A -> list item) : (forall a, In a l -> Writes (f a) (g a)) -> Writes (for_each l f) (flat_map g l).
Proof. induction l as [|x l IH]; intros h; cbn [for_each flat_map]; [apply writes_ret|]. apply writes_then; [apply h; cbn; auto|apply IH; intros; apply h; cbn; auto]. Qed.
Lemma writes_nco f : Writes (set_nco f) [].
Proof. intros c c' h. injection h as <-. split; auto. Qed.
Lemma writes_names f : Writes (set_names f) [].
Proof. intros c c' h. injection h as <-. split; auto. Qed.
Lemma writes_mgr f : Writes (set_mgr f) [].
Proof. intros c c' h. injection h as <-. split; auto. Qed.
Lemma writes_gets {A} (f : comp -> A) (g : A -> M unit) ws : (forall a, Writes (g a) ws) -> Writes (bnd (gets f) g) ws.
Proof. intros h c c' e. unfold bnd, gets in e. now apply h in e. Qed.
Lemma writes_lift {A} (r : result A) (g : A -> M unit) ws : (forall a, r = Ok a -> Writes (g a) ws) -> Writes (bnd (lift r) g) ws.
Proof. intros h c c' e. unfold bnd, lift in e. destruct r; [now apply (h a) in e|discriminate]. Qed.

(** The state left in every case, also when the call raises: only listed keys change *)
Definition Touch {A} (m : M A) (P : loc -> string -> Prop) : Prop := forall c c' r, m c = (c', r) -> forall l p, ~ P l p -> mem c' l p = mem c l p.
Definition Keeps {A} (m : M A) : Prop := forall c c' r, m c = (c', r) -> Coherent (mem c) -> Coherent (mem c').
Lemma touch_then {A} (m n : M A) P : Touch m P -> Touch n P -> Touch (m >> n) P.
Proof. intros h1 h2 c c' r h l p k. apply then_inv in h. destruct h as [(c1 & a & e1 & e2)|(e & e1 & _)]; [rewrite (h2 _ _ _ e2 l p k)|]; eapply h1; eauto. Qed.
Lemma keeps_then {A} (m n : M A) : Keeps m -> Keeps n -> Keeps (m >> n).
Proof. intros h1 h2 c c' r h k. apply then_inv in h. destruct h as [(c1 & a & e1 & e2)|(e & e1 & _)]; eauto. Qed.
Lemma touch_bnd {A B} (m : M A) (f : A -> M B) P : Touch m P -> (forall a, Touch (f a) P) -> Touch (bnd m f) P.
Proof. intros h1 h2 c c' r h l p k. apply bnd_inv in h. destruct h as [(c1 & a & e1 & e2)|(e & e1 & _)]; [rewrite (h2 _ _ _ _ e2 l p k)|]; eapply h1; eauto. Qed.
Lemma keeps_bnd {A B} (m : M A) (f : A -> M B) : Keeps m -> (forall a, Keeps (f a)) -> Keeps (bnd m f).
Proof. intros h1 h2 c c' r h k. apply bnd_inv in h. destruct h as [(c1 & a & e1 & e2)|(e & e1 & _)]; eauto. eapply h2; eauto. Qed.
Lemma touch_weaken {A} (m : M A) (P Q : loc -> string -> Prop) : Touch m P -> (forall l p, P l p -> Q l p) -> Touch m Q.
Proof. intros h k c c' r e l p n. eapply h; eauto. Qed.
Lemma touch_pure {A} (m : M A) P : (forall c, mem (fst (m c)) = mem c) -> Touch m P.
Proof. intros h c c' r e l p _. specialize (h c). rewrite e in h. cbn in h. now rewrite h. Qed.
Lemma keeps_pure {A} (m : M A) : (forall c, mem (fst (m c)) = mem c) -> Keeps m.
Proof. intros h c c' r e k. specialize (h c). rewrite e in h. cbn in h. now rewrite h. Qed.
Lemma coherent_upd m l p v : Coherent m -> Coherent (upd m l p {| hw := v; cached := Some v |}).
Proof. intros h l' p' w. unfold upd. destruct (loc_eqb l l' && String.eqb p p'); cbn; [congruence|apply h]. Qed.
Lemma touch_set l p v : Touch (set_parameter d l p v) (fun l' p' => l' = l /\ p' = p).
Proof. intros c c' r h l' p' n. unfold set_parameter in h.
  assert (K : forall c c' r, raw_set d l p v c = (c', r) -> mem c' l' p' = mem c l' p'). { intros c0 c1 r0. unfold raw_set. destruct (accepts d l p v); intros e; injection e as <- <-; [cbn; apply upd_other; intros q; apply n; injection q; auto|auto]. }
  destruct (has d l p); [|destruct (bt_ignored p v); injection h as <- <-; auto]. destruct (force_set d); [eauto|]. unfold bnd, gets in h. destruct (same_as_cache (mem c) l p v); [injection h as <- <-; auto|eauto]. Qed.
Lemma keeps_set l p v : Keeps (set_parameter d l p v).
Proof. intros c c' r h k. unfold set_parameter in h.
  assert (K : forall r, raw_set d l p v c = (c', r) -> Coherent (mem c')). { intros r0. unfold raw_set. destruct (accepts d l p v); intros e; injection e as <- <-; [cbn; now apply coherent_upd|auto]. }
  destruct (has d l p); [|destruct (bt_ignored p v); injection h as <- <-; auto]. destruct (force_set d); [eauto|]. unfold bnd, gets in h. destruct (same_as_cache (mem c) l p v); [injection h as <- <-; auto|eauto]. Qed.
Lemma touch_when {A} (o : option A) f P : (forall a, o = Some a -> Touch (f a) P) -> Touch (when_some o f) P.
Proof. destruct o; intros h; [now apply h|now apply touch_pure]. Qed.
Lemma keeps_when {A} (o : option A) f : (forall a, Keeps (f a)) -> Keeps (when_some o f).
Proof. destruct o; intros h; [now apply h|now apply keeps_pure]. Qed.
Lemma touch_each {A} (l : list A) f P : (forall a, In a l -> Touch (f a) P) -> Touch (for_each l f) P.
Proof. induction l as [|x l IH]; intros h; cbn [for_each]; [now apply touch_pure|]. apply touch_then; [apply h; cbn; auto|apply IH; intros; apply h; cbn; auto]. Qed.
Lemma keeps_each {A} (l : list A) f : (forall a, Keeps (f a)) -> Keeps (for_each l f).
Proof. induction l as [|x l IH]; intros h; cbn [for_each]; [now apply keeps_pure|]. apply keeps_then; auto. Qed.

(** ** What a list of writes leaves *)
Definition key (it : item) : loc * string := fst it.
Lemma wr_other m it l p : key it <> (l, p) -> wr m it l p = m l p.
Proof. destruct it as [[l0 p0] v]. cbn [key fst wr]. intros h. destruct (has d l0 p0); [|auto]. destruct (force_set d); [now apply upd_other|]. destruct (same_as_cache m l0 p0 v); [auto|now apply upd_other]. Qed.
Lemma wr_coherent m it : Coherent m -> Coherent (wr m it).
Proof. destruct it as [[l0 p0] v]. cbn [wr]. intros h. destruct (has d l0 p0); [|auto]. destruct (force_set d); [now apply coherent_upd|]. destruct (same_as_cache m l0 p0 v); [auto|now apply coherent_upd]. Qed.
Lemma wrs_coherent ws : forall m, Coherent m -> Coherent (fold_left wr ws m).
Proof. induction ws; cbn; intros; auto using wr_coherent. Qed.
Lemma wrs_other ws l p : ~ In (l, p) (map key ws) -> forall m, fold_left wr ws m l p = m l p.
Proof. induction ws as [|it ws IH]; cbn [map fold_left]; intros h m; [auto|]. rewrite IH by (intros q; apply h; cbn; auto). apply wr_other. intros q. apply h. cbn. auto. Qed.
Lemma qlist_eqb_refl l : qlist_eqb l l = true.
Proof. induction l as [|x l IH]; cbn; [auto|]. rewrite IH, andb_true_r. apply Qeq_bool_iff. reflexivity. Qed.
Lemma py_eq_refl v : py_eq v v = true.
Proof. unfold py_eq. destruct v; cbn; try apply Qeq_bool_iff; try reflexivity; try apply String.eqb_refl; apply qlist_eqb_refl. Qed.
Definition Ready (m : memory) : Prop := Coherent m \/ force_set d = true.
Lemma wr_holds m l p v : has d l p = true -> Ready m -> Holds (wr m (l, p, v)) l p v.
Proof. intros h g. unfold Holds. cbn [wr]. rewrite h. destruct (force_set d) eqn:E; [rewrite upd_same; apply py_eq_refl|]. destruct g as [g|g]; [|congruence]. destruct (same_as_cache m l p v) eqn:S; [|rewrite upd_same; apply py_eq_refl]. unfold same_as_cache in S. destruct (cached (m l p)) eqn:C; [|discriminate]. apply g in C. now rewrite C. Qed.
Lemma key_dec (a b : loc * string) : {a = b} + {a <> b}.
Proof. destruct a as [l p], b as [l' p']. destruct (String.string_dec p p') as [->|n]; [|right; congruence]. assert (E : {l = l'} + {l <> l'}) by (decide equality; apply Nat.eq_dec). destruct E as [->|n]; [left; auto|right; congruence]. Qed.
(** the last write to a key decides *)
Lemma wrs_last ws l p : has d l p = true -> In (l, p) (map key ws) -> forall m, Ready m -> exists v, In (l, p, v) ws /\ Holds (fold_left wr ws m) l p v.
Proof. intros hp. induction ws as [|it ws IH]; cbn [map fold_left]; intros h m g; [destruct h|].
  destruct (in_dec key_dec (l, p) (map key ws)) as [i|n].
  - destruct (IH i (wr m it)) as (v & hv & r); [destruct g; [left; now apply wr_coherent|now right]|]. exists v. cbn. auto.
  - destruct h as [h|h]; [|contradiction]. destruct it as [[l0 p0] v]. cbn in h. injection h as -> ->. exists v. split; [cbn; auto|]. unfold Holds. rewrite wrs_other by auto. now apply wr_holds. Qed.
End D.
