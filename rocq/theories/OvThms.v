(** C61: the check of pulses with voltage offsets. *)
From Coq Require Import Permutation.
From Verif Require Import Base QSort OvModel OvSpec OvProps.
Local Open Scope Q_scope.
Local Open Scope string_scope.

(** the operations of a schedule with their times, in order of time *)
Definition in_time (x : item) : list (Q * oper) := sortq fst (collect x 0).
Definition all_ok (l : list (Q * oper)) : Prop := Forall (fun x => durations_ok (snd x)) l.

Lemma starting_in : forall e l y, starting_before e l = Some y -> In y l.
Proof. intros e. induction l as [|x l IH]; cbn; intros y H; [discriminate H|]. destruct (Qle_bool (e - tol) (fst x)); [discriminate H|]. destruct (_ || _); [injection H as <-; now left | right; auto]. Qed.

(** an error is raised only for two operations, one with an offset, that overlap *)
Lemma scan_sound : forall l last e, scan last l = Err e -> all_ok (match last with Some p => p :: l | None => l end) ->
  e = RuntimeError /\ exists a b, (two l a b \/ last = Some b /\ In a l) /\ has_voltage_offset (snd a) = true /\ detected a b.
Proof.
  induction l as [|x l IH]; intros last e H D; [discriminate H|]. cbn [scan] in H.
  assert (Dl : all_ok l /\ durations_ok (snd x) /\ match last with Some p => durations_ok (snd p) | None => True end).
  { destruct last; inversion D as [|? ? A B]; subst; [inversion B; subst; auto | auto]. }
  destruct Dl as [Dl [Dx Dp]].
  match type of H with bind ?c _ = _ => destruct c as [[]|e'] eqn:C end; cbn [bind] in H.
  - apply IH in H; [|destruct (valid_pulse (snd x)); [now constructor | destruct last; [now constructor | exact Dl]]].
    destruct H as [-> [a [b [W [O T]]]]]. split; [reflexivity|]. exists a, b. split; [|auto]. destruct W as [[r P]|[L I]].
    + left. exists (x :: r). rewrite P. rewrite perm_swap. now rewrite (perm_swap x b).
    + destruct (valid_pulse (snd x)).
      * injection L as <-. left. apply two_sym. apply in_split in I. destruct I as [p [q ->]]. exact (two_split _ [] p q x a).
      * right. split; [exact L | now right].
  - injection H as <-. destruct (has_voltage_offset (snd x)) eqn:O; [|discriminate C].
    destruct last as [p|].
    + destruct (Qlt_bool (fst x + tol) (op_end p)).
      * destruct (check_spec x p Dx Dp) as [[E T]|[E _]]; rewrite E in C; [injection C as <-|discriminate C]. split; [easy|]. exists x, p. split; [right; split; [easy | now left]|auto].
      * destruct (starting_before (op_end x) l) as [y|] eqn:S; [|discriminate C]. apply starting_in in S. pose proof S as I. apply in_split in S. destruct S as [u [v ->]].
        assert (Dy : durations_ok (snd y)) by (unfold all_ok in Dl; rewrite Forall_forall in Dl; auto).
        destruct (check_spec x y Dx Dy) as [[E T]|[E _]]; rewrite E in C; [injection C as <-|discriminate C]. split; [easy|]. exists x, y. split; [left; exact (two_split _ [] u v x y)|auto].
    + destruct (starting_before (op_end x) l) as [y|] eqn:S; [|discriminate C]. apply starting_in in S. pose proof S as I. apply in_split in S. destruct S as [u [v ->]].
      assert (Dy : durations_ok (snd y)) by (unfold all_ok in Dl; rewrite Forall_forall in Dl; auto).
      destruct (check_spec x y Dx Dy) as [[E T]|[E _]]; rewrite E in C; [injection C as <-|discriminate C]. split; [easy|]. exists x, y. split; [left; exact (two_split _ [] u v x y)|auto].
Qed.
(** C61, no false alarm. For every schedule in which no pulse has a negative duration: the check raises only RuntimeError, and only if two of its operations,
    one with a voltage offset, overlap on the same port-clock name. *)
Theorem C61_only_overlaps : forall x e, (forall t o, occurs x 0 t o -> durations_ok o) -> validate x = Err e ->
  e = RuntimeError /\ exists a b, two (collect x 0) a b /\ occurs x 0 (fst a) (snd a) /\ occurs x 0 (fst b) (snd b) /\ with_offset (snd a) /\ overlap_on_a_key a b.
Proof.
  intros x e D H. unfold validate in H. apply scan_sound in H.
  - destruct H as [-> [a [b [[W|[L _]] [O [k [s [f [s' [f' [X [Y [V _]]]]]]]]]]]]]; [|discriminate L]. split; [reflexivity|]. exists a, b.
    assert (W' : two (collect x 0) a b) by (eapply two_perm; [apply sortq_perm | exact W]). destruct (two_in _ _ _ _ W') as [Ia Ib].
    destruct a as [ta oa], b as [tb ob]. apply collected in Ia, Ib. split; [exact W'|]. split; [apply Ia|]. split; [apply Ib|]. split; [now apply offset_spec|]. exists k, s, f, s', f'. auto.
  - apply Forall_forall. intros [t o] I. apply sortq_In in I. apply collected in I. destruct I as [I _]. exact (D t o I).
Qed.

(** what is checked: every operation with a voltage offset against the one before it in time, if that has not ended, else against the next one, if it has started *)
Lemma scan_checked : forall l last, scan last l = Ok tt -> Forall (fun y => valid_pulse (snd y) = true) l ->
  forall l1 x l2, l = (l1 ++ x :: l2)%list -> has_voltage_offset (snd x) = true ->
  let before := match rev l1 with p :: _ => Some p | [] => last end in
  match before with
  | Some p => if Qlt_bool (fst x + tol) (op_end p) then check x p = Ok tt else
              match l2 with y :: _ => if Qle_bool (op_end x - tol) (fst y) then True else check x y = Ok tt | [] => True end
  | None => match l2 with y :: _ => if Qle_bool (op_end x - tol) (fst y) then True else check x y = Ok tt | [] => True end
  end.
Proof.
  induction l as [|z l IH]; intros last H V l1 x l2 E O; [destruct l1; discriminate E|]. cbn [scan] in H. inversion V as [|? ? Vz Vl]; subst.
  match type of H with bind ?c _ = _ => destruct c as [[]|e'] eqn:C end; cbn [bind] in H; [|discriminate H]. rewrite Vz in H. destruct l1 as [|z' l1]; injection E as -> ->; cbn [rev].
  - rewrite O in C. assert (N : match starting_before (op_end x) l2 with Some y => check x y | None => Ok tt end = Ok tt ->
      match l2 with y :: _ => if Qle_bool (op_end x - tol) (fst y) then True else check x y = Ok tt | [] => True end).
    { destruct l2 as [|y r]; [easy|]. cbn [starting_before]. destruct (Qle_bool _ _); [easy|]. inversion Vl as [|? ? Vy _]; subst. rewrite Vy. cbn. auto. }
    destruct last as [p|]; [destruct (Qlt_bool (fst x + tol) (op_end p)) eqn:Q; [exact C | exact (N C)]|exact (N C)].
  - pose proof (IH (Some z') H Vl l1 x l2 eq_refl O) as K. cbv zeta in *. destruct (rev l1) as [|p r] eqn:R; [cbn; exact K | cbn [app]; exact K].
Qed.
(** C61, neighbours. If the check passes, then of two operations that follow each other in time:
    the second, if it has a voltage offset and starts (by more than 1e-10 s) before the end of the first, does not overlap it except at identical times; *)
Theorem C61_previous_checked : forall x l1 a b l2, (forall t o, occurs x 0 t o -> durations_ok o) -> validate x = Ok tt -> in_time x = (l1 ++ a :: b :: l2)%list ->
  with_offset (snd b) -> fst b + (1 # 10000000000) < op_end a ->
  forall k s e s' e', extent b k s e -> extent a k s' e' -> overlap s e s' e' -> s == s' /\ e == e'.
Proof.
  intros x l1 a b l2 D H E O L k s e s' e' Xb Xa V.
  assert (Da : forall y, In y (in_time x) -> durations_ok (snd y)). { intros [t o] I. unfold in_time in I. apply sortq_In in I. apply collected in I. destruct I as [I _]. exact (D t o I). }
  assert (Vl : Forall (fun y => valid_pulse (snd y) = true) (in_time x)).
  { apply Forall_forall. intros y I. unfold in_time in I. apply sortq_In in I. pose proof (collected_valid x 0) as W. rewrite Forall_forall in W. auto. }
  assert (E' : in_time x = ((l1 ++ [a]) ++ b :: l2)%list) by (rewrite <- app_assoc; exact E). apply offset_spec in O.
  pose proof (scan_checked (in_time x) None H Vl (l1 ++ [a]) b l2 E' O) as C. cbv zeta in C. rewrite rev_app_distr in C. cbn [rev app] in C.
  assert (Q : Qlt_bool (fst b + tol) (op_end a) = true) by now apply qlt. rewrite Q in C.
  assert (Ib : In b (in_time x)) by (rewrite E; apply in_or_app; cbn; auto). assert (Ia : In a (in_time x)) by (rewrite E; apply in_or_app; cbn; auto).
  destruct (check_spec b a (Da _ Ib) (Da _ Ia)) as [[Q' _]|[_ N]]; [congruence|].
  destruct (Qeq_dec s s') as [E1|E1]; [destruct (Qeq_dec e e') as [E2|E2]; [auto|]|]; (exfalso; apply N; exists k, s, e, s', e'; refine (conj Xb (conj Xa (conj V _))); intros [A B]; auto).
Qed.
(** the first, if it has a voltage offset, the one before it has ended when it starts, and the second starts before its end, does not overlap the second except at identical times. *)
Theorem C61_next_checked : forall x l1 a b l2, (forall t o, occurs x 0 t o -> durations_ok o) -> validate x = Ok tt -> in_time x = (l1 ++ a :: b :: l2)%list ->
  with_offset (snd a) -> fst b < op_end a - (1 # 10000000000) -> (forall l0 p, l1 = (l0 ++ [p])%list -> op_end p <= fst a + (1 # 10000000000)) ->
  forall k s e s' e', extent a k s e -> extent b k s' e' -> overlap s e s' e' -> s == s' /\ e == e'.
Proof.
  intros x l1 a b l2 D H E O L P k s e s' e' Xa Xb V.
  assert (Da : forall y, In y (in_time x) -> durations_ok (snd y)). { intros [t o] I. unfold in_time in I. apply sortq_In in I. apply collected in I. destruct I as [I _]. exact (D t o I). }
  assert (Vl : Forall (fun y => valid_pulse (snd y) = true) (in_time x)).
  { apply Forall_forall. intros y I. unfold in_time in I. apply sortq_In in I. pose proof (collected_valid x 0) as W. rewrite Forall_forall in W. auto. }
  apply offset_spec in O. pose proof (scan_checked (in_time x) None H Vl l1 a (b :: l2) E O) as C. cbv zeta in C.
  assert (Q : Qle_bool (op_end a - tol) (fst b) = false) by (destruct (Qle_bool _ _) eqn:Q; auto; apply Qle_bool_iff in Q; unfold tol in Q; lra).
  assert (C' : check a b = Ok tt).
  { destruct (rev l1) as [|p r] eqn:R; [now rewrite Q in C|]. assert (R' : l1 = (rev r ++ [p])%list) by (rewrite <- (rev_involutive l1), R; reflexivity). specialize (P _ _ R').
    assert (N : Qlt_bool (fst a + tol) (op_end p) = false) by now apply qlt_not. now rewrite N, Q in C. }
  assert (Ib : In b (in_time x)) by (rewrite E; apply in_or_app; cbn; auto). assert (Ia : In a (in_time x)) by (rewrite E; apply in_or_app; cbn; auto).
  destruct (check_spec a b (Da _ Ia) (Da _ Ib)) as [[Q' _]|[_ N]]; [congruence|].
  destruct (Qeq_dec s s') as [E1|E1]; [destruct (Qeq_dec e e') as [E2|E2]; [auto|]|]; (exfalso; apply N; exists k, s, e, s', e'; refine (conj Xa (conj Xb (conj V _))); intros [A B]; auto).
Qed.

(** C61, completeness on one port-clock *)
(** the whole operation plays on [k], for its whole duration, which is longer than the tolerance *)
Definition whole (k : string) (y : Q * oper) : Prop := durations_ok (snd y) /\ extent y k (fst y) (op_end y) /\ tol < odur (snd y).
Definition apart (a b : Q * oper) : Prop := op_end a <= fst b \/ op_end b <= fst a.
Definition same_times (a b : Q * oper) : Prop := fst a == fst b /\ op_end a == op_end b.
(** no two identical operations' times, and the operations without offset do not overlap each other *)
Definition fair (l : list (Q * oper)) : Prop := forall a b, two l a b -> ~ same_times a b /\ (has_voltage_offset (snd a) = false -> has_voltage_offset (snd b) = false -> apart a b).
Fixpoint linked (l : list (Q * oper)) : Prop := match l with a :: ((b :: _) as r) => op_end a <= fst b + tol /\ linked r | _ => True end.
Lemma not_checked : forall k a b, whole k a -> whole k b -> ~ same_times a b -> fst b <= fst a -> fst a < op_end b -> (check a b = Ok tt -> False) /\ (check b a = Ok tt -> False).
Proof.
  intros k a b [Da [Xa La]] [Db [Xb Lb]] N L1 L2. unfold tol in *. assert (Ea : op_end a == fst a + odur (snd a)) by reflexivity.
  assert (T : detected a b /\ detected b a).
  { assert (V : exists y, (fst a < y < op_end a) /\ (fst b < y < op_end b)).
    { destruct (Qlt_le_dec (op_end a) (op_end b)).
      - exists ((fst a + op_end a) / 2). assert (W : fst a < (fst a + op_end a) / 2 < op_end a) by (split; [apply Qlt_shift_div_l | apply Qlt_shift_div_r]; lra). lra.
      - exists ((fst a + op_end b) / 2). assert (W : fst a < (fst a + op_end b) / 2 < op_end b) by (split; [apply Qlt_shift_div_l | apply Qlt_shift_div_r]; lra). lra. }
    destruct V as [y [[V1 V2] [V3 V4]]]. split; [exists k, (fst a), (op_end a), (fst b), (op_end b) | exists k, (fst b), (op_end b), (fst a), (op_end a)]; (split; [assumption|]); (split; [assumption|]);
      (split; [exists y; left; lra | intros [Q1 Q2]; apply N; split; lra]). }
  destruct T as [T1 T2]. destruct (check_spec a b Da Db) as [[E _]|[_ E]]; [|now destruct E]. destruct (check_spec b a Db Da) as [[E' _]|[_ E']]; [|now destruct E']. split; congruence.
Qed.
Lemma scan_complete : forall k l last, scan last l = Ok tt -> let all := match last with Some p => p :: l | None => l end in
  Forall (whole k) all -> Forall (fun y => valid_pulse (snd y) = true) all -> srtq fst all -> fair all ->
  (forall p y r, last = Some p -> l = y :: r -> has_voltage_offset (snd p) = true -> op_end p <= fst y + tol) -> linked all.
Proof.
  intros k. induction l as [|x l IH]; intros last H all W V S F P; [subst all; destruct last; exact I|]. cbn [scan] in H.
  match type of H with bind ?c _ = _ => destruct c as [[]|e'] eqn:C end; cbn [bind] in H; [|discriminate H].
  assert (Wl : whole k x /\ Forall (whole k) l /\ valid_pulse (snd x) = true /\ Forall (fun y => valid_pulse (snd y) = true) l /\ srtq fst (x :: l) /\ fair (x :: l)).
  { subst all. destruct last as [p|].
    - inversion W as [|? ? _ W1]; subst. inversion W1; subst. inversion V as [|? ? _ V1]; subst. inversion V1; subst. destruct S as [_ S]. repeat (split; [assumption|]).
      intros a b [r T]. apply F. exists (p :: r). rewrite T, perm_swap. now rewrite (perm_swap p b).
    - inversion W; subst. inversion V; subst. auto 10. }
  destruct Wl as [Wx [Wl [Vx [Vl [Sx Fx]]]]]. rewrite Vx in H.
  assert (L : match last with Some p => op_end p <= fst x + tol | None => True end).
  { destruct last as [p|]; [|exact I]. subst all. inversion W as [|? ? Wp _]; subst. destruct S as [Sp _]. inversion Sp as [|? ? Lp _]; subst.
    destruct (F p x) as [N A]; [exact (two_split _ [] [] l p x)|].
    destruct (Qlt_le_dec (fst x + tol) (op_end p)) as [Q|Q]; [exfalso | exact Q]. assert (Q0 : fst x < op_end p) by (unfold tol in Q; lra).
    assert (N' : ~ same_times x p) by (intros [A1 A2]; apply N; split; lra).
    destruct (not_checked k x p Wx Wp N' Lp Q0) as [Nc _].
    destruct (has_voltage_offset (snd x)) eqn:O.
    - apply qlt in Q. rewrite Q in C. auto.
    - destruct (has_voltage_offset (snd p)) eqn:Op; [specialize (P p x l eq_refl eq_refl Op); lra|].
      destruct Wx as [_ [_ Wx]]. destruct (A eq_refl eq_refl) as [B|B]; [lra|]. unfold op_end, tol in *. lra. }
  assert (R : linked (x :: l)).
  { apply (IH (Some x) H); [now constructor | now constructor | exact Sx | exact Fx|]. intros p y r E1 -> O. injection E1 as <-. rewrite O in C.
    assert (B : match last with Some p => if Qlt_bool (fst x + tol) (op_end p) then Some p else None | None => None end = None).
    { destruct last as [p|]; [|reflexivity]. apply qlt_not in L. now rewrite L. }
    rewrite B in C. cbn [starting_before] in C. destruct (Qle_bool (op_end x - tol) (fst y)) eqn:Q; [apply Qle_bool_iff in Q; lra|]. exfalso.
    inversion Vl as [|? ? Vy _]; subst. rewrite Vy in C. cbn [orb] in C. inversion Wl as [|? ? Wy _]; subst. destruct Sx as [Sy _]. inversion Sy as [|? ? Ly _]; subst.
    destruct (Fx y x) as [N _]; [apply two_sym; exact (two_split _ [] [] r x y)|]. assert (Q1 : fst y < op_end x) by (destruct (Qlt_le_dec (fst y) (op_end x - tol)) as [Z|Z]; [unfold tol in Z; lra | apply Qle_bool_iff in Z; congruence]).
    destruct (not_checked k y x Wy Wx N Ly Q1) as [_ Nc]. auto. }
  subst all. destruct last as [p|]; [|exact R]. split; [exact L | exact R].
Qed.
Lemma linked_all : forall l, linked l -> srtq fst l -> forall l1 a l2 b l3, l = (l1 ++ a :: l2 ++ b :: l3)%list -> op_end a <= fst b + tol.
Proof.
  induction l as [|x l IH]; intros L S l1 a l2 b l3 E; [destruct l1; discriminate E|]. destruct l1 as [|z l1].
  - injection E as -> ->. destruct S as [_ S]. destruct l2 as [|c l2]; cbn [app] in *; [apply L|]. destruct L as [L _]. destruct S as [S _].
    rewrite Forall_forall in S. assert (I : In b (l2 ++ b :: l3)) by (apply in_or_app; cbn; auto). specialize (S b I). lra.
  - injection E as -> ->. apply (IH) with (l1 := l1) (l2 := l2) (l3 := l3); [|apply S|reflexivity]. destruct (l1 ++ a :: l2 ++ b :: l3)%list eqn:Q; [exact I | apply L].
Qed.
(** C61, no missed overlap, on one port-clock: if all operations play on the same port and clock for their whole duration, no two of them at identical times, and
    the ones without offset do not overlap each other, then a schedule that passes the check has no overlap longer than 1e-10 s at all. *)
Theorem C61_complete_on_one_port_clock : forall x k, validate x = Ok tt ->
  (forall y, In y (collect x 0) -> whole k y) -> fair (collect x 0) ->
  forall a b, two (collect x 0) a b -> op_end a <= fst b + (1 # 10000000000) \/ op_end b <= fst a + (1 # 10000000000).
Proof.
  intros x k H W F a b T.
  assert (L : linked (in_time x)).
  { apply (scan_complete k (in_time x) None H).
    - apply Forall_forall. intros y I. apply W. unfold in_time in I. now apply sortq_In in I.
    - apply Forall_forall. intros y I. unfold in_time in I. apply sortq_In in I. pose proof (collected_valid x 0) as V. rewrite Forall_forall in V. auto.
    - apply sortq_srt.
    - intros c d U. apply F. eapply two_perm; [apply sortq_perm | exact U].
    - discriminate. }
  assert (T' : two (in_time x) a b) by (eapply two_perm; [symmetry; apply sortq_perm | exact T]).
  destruct (two_order _ _ _ _ T') as [l1 [l2 [l3 [E|E]]]]; [left | right]; exact (linked_all _ L (sortq_srt fst _) _ _ _ _ _ E).
Qed.
