(** C42: theorems about conditional playback. *)
From Verif Require Import Base CircModel CircProps CircProps5 QSort NumericModel CondModel CondSpec CondProps CondProps2 CondProps3 CondProps4 CondProps5 CondProps6.
From Coq Require Import List Lia Lqa Setoid Bool.
Open Scope list_scope.
Open Scope Q_scope.

Section F.
Variable mt : portclock -> result module_type.
Variable m : cmap.
Variable o' : cop.
Hypothesis F : Facts mt m o'.

Lemma acq_address la p d a k l : Sub (KLeaf la p d) o' -> In a la -> Labelled a k l -> exists c, entry m (Some l) = Some c /\ SendsTo a k (ci_addr c).
Proof using F.
  intros S Hi L. destruct (f_leaf _ _ _ F _ _ _ S) as (LO & Fi & _). assert (C : conditional_acquisition la = true) by (apply labelled_conditional; eauto 6). specialize (Fi C). rewrite Forall_forall in Fi. destruct (Fi _ Hi) as (A & B & D). destruct L as [a l P|a l P|a l c n P|a l mi h i P|a lo l h i P|a lo mi l i P|a lo mi h l P]; cbn [SendsTo].
  - apply (A _ P).
  - exfalso. apply (proj2 LO _ _ Hi P).
  - destruct (B _ _ _ P) as (e & E1 & E2 & _). eauto.
  - destruct (D _ _ _ _ Low _ P eq_refl) as (e & E1 & E2 & _). eauto.
  - destruct (D _ _ _ _ Mid _ P eq_refl) as (e & E1 & E2 & _). eauto.
  - destruct (D _ _ _ _ High _ P eq_refl) as (e & E1 & E2 & _). eauto.
  - destruct (D _ _ _ _ Invalid _ P eq_refl) as (e & E1 & E2 & _). eauto.
Qed.
Lemma acq_sends la p d a k x : Sub (KLeaf la p d) o' -> In a la -> SendsTo a k x -> exists c, entry m (label_at (a_proto a) k) = Some c /\ ci_addr c = x.
Proof using F.
  intros S Hi H. destruct (f_leaf _ _ _ F _ _ _ S) as (_ & _ & Mi). rewrite Forall_forall in Mi. destruct (Mi _ Hi) as (A & B). destruct k as [k|]; cbn in H.
  - destruct (B _ _ H) as (lo & mi & hi & inv & l & c & P & D & E & X). exists c. rewrite P. cbn. rewrite D. auto.
  - destruct (A _ H) as (l & c & E & X & [P|(cd & n & P)]); exists c; rewrite P; auto.
Qed.
Lemma address_label l c l' c' : entry m l = Some c -> entry m l' = Some c' -> (ci_addr c = ci_addr c' <-> l = l').
Proof using F. intros E E'. split; [apply (numbered_inj m); [apply (f_num _ _ _ F)|exact E|exact E']|intros ->; congruence]. Qed.
Lemma activates_labelled la p d a k l : Sub (KLeaf la p d) o' -> In a la -> Labelled a k l -> exists ls, Activates (KLeaf la p d) ls.
Proof using F.
  intros S Hi L. destruct (f_leaf _ _ _ F _ _ _ S) as (LO & _). assert (C : conditional_acquisition la = true) by (apply labelled_conditional; eauto 6). destruct (proj1 LO _ _ _ Hi L) as (a0 & r & k0 & l0 & -> & L0). exists (labels_of (a0 :: r)). split; [cbn [event_of]; rewrite C; reflexivity|]. intros N. assert (I : In l0 (labels_of (a0 :: r))); [|rewrite N in I; exact I]. cbn. destruct L0 as [a1 l1 P|a1 l1 P|a1 l1 c n P|a1 l1 mi h i P|a1 lo l1 h i P|a1 lo mi l1 i P|a1 lo mi h l1 P]; rewrite P; try (left; reflexivity).
  all: apply nodup_In; cbn [opt_list]; rewrite ?in_app_iff; cbn; auto 6.
Qed.
Lemma activates_leaf x ls l : Activates x ls -> In l ls -> exists la p d a r k, x = KLeaf la p d /\ la = a :: r /\ Labelled a k l.
Proof.
  intros [X _] Hl. destruct x as [la p d|p| |lz ad i c f b|]; cbn in X; try discriminate. destruct (conditional_acquisition la); [|discriminate]. injection X as <-. destruct la as [|a r]; [destruct Hl|]. cbn in Hl. exists (a :: r), p, d, a, r. destruct (a_proto a) as [x|x|x c n|lo mi hi inv|] eqn:P.
  - destruct x; [|destruct Hl]. destruct Hl as [->|[]]. exists None. split; [reflexivity|]. split; [reflexivity|]. apply L_thr, P.
  - destruct x; [|destruct Hl]. destruct Hl as [->|[]]. exists None. split; [reflexivity|]. split; [reflexivity|]. apply L_weighted, P.
  - destruct x; [|destruct Hl]. destruct Hl as [->|[]]. exists None. split; [reflexivity|]. split; [reflexivity|]. eapply L_trigger, P.
  - apply nodup_In in Hl. rewrite !in_app_iff in Hl.
    assert (T : forall y, In l (@opt_list string y) -> y = Some l). { intros [y|]; cbn; [intros [->|[]]; reflexivity|intros []]. }
    destruct Hl as [H|[H|[H|H]]]; apply T in H; subst; [exists (Some Low)|exists (Some Mid)|exists (Some High)|exists (Some Invalid)]; (split; [reflexivity|]; split; [reflexivity|]); [eapply L_low|eapply L_mid|eapply L_high|eapply L_invalid]; exact P.
  - destruct Hl.
Qed.
Lemma cond_filled l x i c f b : Sub (KCond l x i c f b) o' -> exists e, entry m (Some l) = Some e /\ x = Some (ci_addr e) /\ incl (used_pcs b) (ci_pcs e) /\ (forall v, i = Some v -> ci_invert e = Some v) /\ (forall v, c = Some v -> ci_count e = Some v).
Proof using F. intros S. apply (f_cond _ _ _ F _ _ _ _ _ _ S). Qed.

(** ** Times *)
Variable tl : list (Q * cop).
Hypothesis T : Timeline o' tl.
Variable delay : Q.
Hypothesis W : Waits o' delay.
Lemma sorted_le (A B : list (Q * cop)) t x u y : tl = A ++ B -> In (t, x) A -> In (u, y) B -> t <= u.
Proof using T. intros -> H1 H2. pose proof (t_sorted _ _ T) as S. apply srtq_app in S. destruct S as (_ & _ & S). apply (S _ _ H1 H2). Qed.
Lemma delay_pos ta la p d a : Runs o' 0 ta (KLeaf la p d) -> In a la -> 0 <= a_t0 a /\ a_t0 a + (5 # 1000000000) <= delay.
Proof using W. intros R H. eapply (proj1 (proj2 W)); eassumption. Qed.
(** an acquisition that comes before another one: its triggers arrive before the other one *)
Lemma earlier_acq J1 t x ls J2 ta y ls' J3 : tl = J1 ++ (t, x) :: J2 ++ (ta, y) :: J3 -> Activates x ls -> Activates y ls' -> t + delay <= ta.
Proof using T W.
  intros E X Y. destruct ls as [|l ls]; [destruct X as [_ X]; congruence|]. destruct (activates_leaf _ _ l X) as (la & p & d & a & r & k & -> & -> & L); [left; reflexivity|]. destruct (cond_between _ _ _ _ _ _ _ _ _ _ _ l T E X Y) as (tc & ad & i & c & f & b & Hc); [left; reflexivity|].
  assert (Rx : Runs o' 0 t (KLeaf (a :: r) p d)). { apply (t_sound _ _ T). rewrite E. apply in_or_app. right. left. reflexivity. }
  assert (Rc : Runs o' 0 tc (KCond l ad i c f b)). { apply (t_sound _ _ T). rewrite E. apply in_or_app. right. right. apply in_or_app. left. exact Hc. }
  assert (t <= tc). { eapply (sorted_le (J1 ++ [(t, KLeaf (a :: r) p d)])); [rewrite <- app_assoc; exact E|apply in_or_app; right; left; reflexivity|apply in_or_app; left; exact Hc]. }
  assert (tc <= ta). { eapply (sorted_le (J1 ++ (t, KLeaf (a :: r) p d) :: J2) ((ta, y) :: J3)); [rewrite <- app_assoc; exact E|apply in_or_app; right; right; exact Hc|left; reflexivity]. }
  destruct (proj1 W _ _ _ _ _ _ _ _ _ _ _ _ _ Rx (or_introl eq_refl) L Rc) as [Lt|Le]; lra.
Qed.
(** where an activating operation can be, relative to a conditional and its acquisition *)
Lemma position K1 ta x ls K2 tc c S2 t y ls' : tl = (K1 ++ (ta, x) :: K2) ++ (tc, c) :: S2 -> Activates x ls -> (forall ls, ~ Activates c ls) -> (forall t y ls', In (t, y) K2 -> ~ Activates y ls') -> Runs o' 0 t y -> Activates y ls' -> t + delay <= ta \/ (t == ta /\ y = x) \/ tc <= t.
Proof using T W.
  intros E X C N R Y. destruct (t_complete _ _ T _ _ R) as (u & Hu & Eu). rewrite E in Hu. rewrite <- Eu. apply in_app_or in Hu. destruct Hu as [Hu|[Hu|Hu]].
  - apply in_app_or in Hu. destruct Hu as [Hu|[[= -> ->]|Hu]].
    + left. apply in_split in Hu. destruct Hu as (J1 & J2 & ->). rewrite <- !app_assoc in E. eapply earlier_acq; [exact E|exact Y|exact X].
    + right. left. split; reflexivity.
    + exfalso. apply (N _ _ _ Hu Y).
  - injection Hu as -> ->. exfalso. apply (C _ Y).
  - right. right. eapply (sorted_le ((K1 ++ (ta, x) :: K2) ++ [(tc, c)]) S2); [rewrite <- app_assoc; exact E|apply in_or_app; right; left; reflexivity|exact Hu].
Qed.
End F.
