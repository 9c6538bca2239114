(** C42: theorems about conditional playback. *)
From Verif Require Import Base CircModel CircProps CircProps5 QSort NumericModel CondModel CondSpec CondProps CondProps2 CondProps3 CondProps4.
From Coq Require Import List Lia Lqa Setoid Bool.
Open Scope list_scope.
Open Scope Q_scope.

Definition label_at (p : proto) (k : option kind) : option string :=
  match p, k with
  | PThresholded l, None | PWeighted l, None | PTrigger l _ _, None => l
  | PDual lo mi hi inv, Some k => dual_label lo mi hi inv k
  | _, _ => None
  end.
Lemma labelled_iff a k l : Labelled a k l <-> label_at (a_proto a) k = Some l.
Proof.
  split; [intros L; destruct L as [? ? P|? ? P|? ? ? ? P|? ? ? ? ? P|? ? ? ? ? P|? ? ? ? ? P|? ? ? ? ? P]; rewrite P; reflexivity|].
  destruct (a_proto a) as [x|x|x c n|lo mi hi inv|] eqn:P; destruct k as [[]|]; cbn; try discriminate; intros ->; [apply L_thr|apply L_weighted|eapply L_trigger|eapply L_low|eapply L_mid|eapply L_high|eapply L_invalid]; exact P.
Qed.
Lemma same_labelled a a' k l : same_acq a a' -> (Labelled a' k l <-> Labelled a k l).
Proof. intros (E & _). rewrite !labelled_iff, E. reflexivity. Qed.
Lemma labelled_fun a k l l' : Labelled a k l -> Labelled a k l' -> l = l'.
Proof. rewrite !labelled_iff. congruence. Qed.
Lemma forall2_in {A B} (R : A -> B -> Prop) l l' : Forall2 R l l' -> (forall b, In b l' -> exists a, In a l /\ R a b) /\ (forall a, In a l -> exists b, In b l' /\ R a b).
Proof. induction 1 as [|a b l l' H _ [I1 I2]]; [split; intros ? []|]. split; [intros x [<-|Hx]; [exists a; split; [left; reflexivity|exact H]|destruct (I1 x Hx) as (y & Hy & Ry); exists y; split; [right|]; assumption]|intros x [<-|Hx]; [exists b; split; [left; reflexivity|exact H]|destruct (I2 x Hx) as (y & Hy & Ry); exists y; split; [right|]; assumption]]. Qed.
Lemma labels_written l l' : Forall2 same_acq l l' -> LabelsOk l -> LabelsOk l'.
Proof.
  intros F [A B]. destruct (forall2_in _ _ _ F) as [F1 _]. split.
  - intros a k lbl Hi L. destruct (F1 a Hi) as (b & Hb & S). apply (same_labelled _ _ _ _ S) in L. destruct (A b k lbl Hb L) as (a0 & r & k0 & l0 & -> & L0). inversion F as [|? a1 ? r1 S1 _]; subst. exists a1, r1, k0, l0. split; [reflexivity|]. apply (same_labelled _ _ _ _ S1), L0.
  - intros a lbl Hi E. destruct (F1 a Hi) as (b & Hb & (S & _)). apply (B b lbl Hb). congruence.
Qed.
Lemma bare_written b b' : Written b b' -> forall l', Bare b' l' -> exists l, Bare b l /\ Forall2 same_acq l l'.
Proof. intros W l' Hb. revert b W. induction Hb as [l p d|n b' l' Hb IH]; intros b W; inversion W; subst; [eexists; split; [constructor|assumption]|]. destruct (IH _ ltac:(eassumption)) as (l & Hl & F). exists l. split; [constructor; exact Hl|exact F]. Qed.
Lemma written_some ops ops' : written_ops ops ops' -> forall k, get ops k <> None -> get ops' k <> None.
Proof. induction 1 as [|k o o' r r' W _ IH]; intros k0; cbn; [auto|]. destruct (String.eqb k k0); [discriminate|apply IH]. Qed.
Lemma considered_ok latch_id o o1 : Considered latch_id o -> Written o o1 -> ok latch_id o1.
Proof.
  intros (_ & _ & C) W x' S. destruct (written_sub _ _ W _ S) as (x & Sx & Wx). specialize (C _ Sx). destruct Wx as [l l' p d F|p|n b b' Wb|l a i c a' i' c' f b|d ops ops' items Wo]; cbn in *; auto.
  - eapply labels_written; [exact F|apply C].
  - intros l' a k lbl Hb Ha L. destruct (bare_written _ _ Wb _ Hb) as (l & Hl & F). destruct (forall2_in _ _ _ F) as [F1 _]. destruct (F1 a Ha) as (a0 & Ha0 & Sa). apply (C l a0 k lbl Hl Ha0). apply (same_labelled _ _ _ _ Sa), L.
  - destruct C as [C1 C2]. split; [intros pc; left; eapply written_none; [exact Wo|apply C1]|]. intros a id Hi. eapply written_some; [exact Wo|]. eapply C2, Hi.
Qed.
(** the facts the theorems are made of *)
Record Facts (mt : portclock -> result module_type) (m : cmap) (o' : cop) : Prop := {
  f_num : numbered m;
  f_range : forall l c, entry m l = Some c -> (1 <= ci_addr c <= 15)%Z;
  f_leaf : forall l p d, Sub (KLeaf l p d) o' -> LabelsOk l /\ (conditional_acquisition l = true -> Forall (acq_filled mt m) l) /\ Forall (acq_minimal m) l;
  f_cond : forall l a i c f b, Sub (KCond l a i c f b) o' -> node_filled mt m (KCond l a i c f b);
  f_latch : forall r p, Runs o' 0 r (KLatch p) -> Cause m o' 0 r p;
  f_served : Served m o' 0 [];
  f_check : exists es act, events o' 0 = Ok es /\ check es = Ok act }.
Lemma numbered_nil : numbered []. Proof. split; [constructor|reflexivity]. Qed.
Lemma numbered_range m l c : numbered m -> entry m l = Some c -> (1 <= ci_addr c)%Z.
Proof. intros [_ A] H. apply find_in in H. apply (in_map (fun '(_, c) => ci_addr c)) in H. rewrite A in H. apply in_map_iff in H. destruct H as (n & E & Hn). apply in_seq in Hn. cbn in E. lia. Qed.
Lemma nodup_map_inj {A B} (f : A -> B) l x y : NoDup (map f l) -> In x l -> In y l -> f x = f y -> x = y.
Proof. induction l as [|a l IH]; cbn; [intros _ []|]. intros N. inversion N as [|? ? H1 H2]; subst. intros [<-|Hx] [<-|Hy] E; [reflexivity| | |apply IH; assumption]; exfalso; apply H1; [rewrite E|rewrite <- E]; apply in_map; assumption. Qed.
Lemma numbered_inj m l c l' c' : numbered m -> entry m l = Some c -> entry m l' = Some c' -> ci_addr c = ci_addr c' -> l = l'.
Proof.
  intros [_ A] H H' E. apply find_in in H, H'. assert (N : NoDup (map (fun '(_, c) => ci_addr c) m)). { rewrite A. apply FinFun.Injective_map_NoDup; [intros a b; apply Nat2Z.inj|apply seq_NoDup]. }
  pose proof (nodup_map_inj _ _ _ _ N H H' E) as P. congruence.
Qed.
Lemma facts mt latch_id o o' : Considered latch_id o -> conditional_playback mt latch_id o = Ok o' -> exists m, Facts mt m o'.
Proof.
  intros C E. pose proof C as (Inj & (d0 & ops0 & items0 & Eo) & CN). unfold conditional_playback in E. apply bind_inv in E. destruct E as ([o1 m] & E1 & E). apply bind_inv in E. destruct E as ([o2 rs] & E2 & E). destruct (existsb _ m) eqn:X; [discriminate|]. apply bind_inv in E. destruct E as (es & E3 & E). apply bind_inv in E. destruct E as (act & E4 & [= <-]).
  destruct (set_map_spec mt _ _ _ _ numbered_nil E1) as (N & _ & W & F & M). pose proof (considered_ok _ _ _ C W) as Ok1. destruct (insert_spec _ Inj m _ _ _ _ _ Ok1 E2) as (G & Ok2 & Cs & B & S & _).
  assert (M' : forall x, Sub x o1 -> node_minimal m x). { apply M. intros x Sx. specialize (CN _ Sx). destruct x as [l p d| | | |]; cbn; auto. apply Forall_forall. intros a Ha. apply CN, Ha. }
  exists m. constructor.
  - exact N.
  - intros l c H. split; [eapply numbered_range; eassumption|]. apply find_in in H. destruct (Z.leb_spec (ci_addr c) 15) as [|Gt]; [assumption|]. exfalso. assert (T : existsb (fun '(_, c) => Z.ltb max_address (ci_addr c)) m = true); [|congruence]. apply existsb_exists. exists (l, c). split; [exact H|]. apply Z.ltb_lt. exact Gt.
  - intros l p d Sx. split; [apply (Ok2 _ Sx)|]. apply (g_sub _ _ _ G) in Sx; [|exact I]. split; [exact (F _ Sx)|exact (M' _ Sx)].
  - intros l a i c f b Sx. apply F. apply (g_sub _ _ _ G) in Sx; [exact Sx|exact I].
  - intros r p R. assert (Hno : ~ Runs o1 0 r (KLatch p)). { intros R1. apply runs_sub in R1. destruct (written_sub _ _ W _ R1) as (x & Sx & Wx). inversion Wx; subst. apply (CN _ Sx). }
    destruct (g_cause _ _ _ G _ _ _ R) as [R1|(ta & l & pcs & d & a & k & lbl & R1 & H)]; [contradiction|]. exists ta, l, pcs, d, a, k, lbl. split; [apply (g_fwd _ _ _ G), R1|exact H].
  - assert (rs = []); [|subst rs; exact S]. subst o. inversion W; subst. cbn [depth] in E2. rewrite insert_sched in E2. apply bind_inv in E2. destruct E2 as (y & _ & [= _ <-]). reflexivity.
  - exists es, act. auto.
Qed.
