(** C28: waveform tables; C36, C37: waveform padding. *)
From Verif Require Import Base NumericModel NumericProps WfModel.
Open Scope Q_scope.

(** ** C28 *)
Section S.
Variable hash : list Z -> Z.
Notation add_all := (add_all hash).
Notation uuid := (uuid hash).

(** the table holds, under index [i], a waveform equal to [w] to 12 decimals *)
Definition stored (d : list entry) (w : waveform) (i : nat) : Prop :=
  exists e, In e d /\ index e = i /\ round12 (data e) = round12 w.

(** internal invariant: indices are 0,1,2,... in order, keys are those of the data, all different *)
Definition TInv (d : list entry) : Prop :=
  map index d = seq 0 (List.length d) /\ NoDup (map key d) /\ Forall (fun e => key e = uuid (data e)) d.

Lemma first_free_spec d n : map index d = seq 0 n -> forall fuel k, (k <= n)%nat -> (n < fuel + k)%nat -> first_free fuel k d = n.
Proof.
  intros Hd. assert (He : forall k, existsb (fun e => Nat.eqb (index e) k) d = true <-> (k < n)%nat).
  { intros k. rewrite existsb_exists. split.
    - intros [e [H1 H2]]. apply Nat.eqb_eq in H2. assert (In k (map index d)) by (apply in_map_iff; eauto). rewrite Hd in H. apply in_seq in H. lia.
    - intros Hk. assert (In k (map index d)) by (rewrite Hd; apply in_seq; lia). apply in_map_iff in H. destruct H as [e [H1 H2]]. exists e. split; [exact H2|apply Nat.eqb_eq; exact H1]. }
  induction fuel as [|f IH]; intros k Hk Hf; [lia|]. cbn. destruct (existsb _ d) eqn:E.
  - apply He in E. apply IH; lia.
  - destruct (Nat.lt_ge_cases k n) as [Hl|Hl]; [apply He in Hl; congruence|lia].
Qed.

Lemma find_key d k : match find (fun e => Z.eqb (key e) k) d with Some e => In e d /\ key e = k | None => ~ In k (map key d) end.
Proof.
  destruct (find _ d) as [e|] eqn:E.
  - apply find_some in E. destruct E as [H1 H2]. apply Z.eqb_eq in H2. auto.
  - intros Hin. apply in_map_iff in Hin. destruct Hin as [e [H1 H2]]. pose proof (find_none _ _ E _ H2) as H. cbn in H. apply Z.eqb_neq in H. contradiction.
Qed.

Lemma add_wf_inv d w d' i : TInv d -> add_wf hash d w = (d', i) ->
  TInv d' /\ (exists s, d' = d ++ s) /\ exists e, In e d' /\ index e = i /\ key e = uuid w /\ (forall e', In e' d' -> ~ In e' d -> data e' = w).
Proof.
  intros [H1 [H2 H3]] H. unfold add_wf in H. pose proof (find_key d (uuid w)) as HF.
  destruct (find _ d) as [e|].
  - injection H as <- <-. destruct HF as [F1 F2]. split; [repeat split; assumption|]. split; [exists []; rewrite app_nil_r; reflexivity|].
    exists e. repeat split; auto. intros e' He Hn. contradiction.
  - assert (Hff : first_free (S (List.length d)) 0 d = List.length d) by (apply first_free_spec; [exact H1|lia|lia]).
    rewrite Hff in H. injection H as <- <-. split; [|split; [eauto|]].
    + repeat split.
      * rewrite map_app, H1, app_length. cbn [map List.length index]. rewrite Nat.add_1_r, seq_S. reflexivity.
      * rewrite map_app. cbn.
        clear -H2 HF. induction (map key d) as [|x l IH]; cbn; [constructor; [intros []|constructor]|]. inversion H2; subst. constructor.
        -- rewrite in_app_iff. intros [Hx|[Hx|[]]]; [contradiction|]. apply HF. left. congruence.
        -- apply IH; [assumption|]. intros Hx. apply HF. right. exact Hx.
      * apply Forall_app. split; [exact H3|]. repeat constructor.
    + eexists. split; [apply in_or_app; right; left; reflexivity|]. repeat split. intros e' He Hn. apply in_app_or in He. destruct He as [He|[<-|[]]]; [contradiction|reflexivity].
Qed.

Lemma add_all_inv ws : forall d d' is, TInv d -> add_all d ws = (d', is) ->
  TInv d' /\ (exists s, d' = d ++ s) /\ (forall e, In e d' -> In e d \/ In (data e) ws) /\
  Forall2 (fun w i => exists e, In e d' /\ index e = i /\ key e = uuid w) ws is.
Proof.
  induction ws as [|w r IH]; intros d d' is HI H.
  - injection H as <- <-. repeat split; try apply HI; [exists []; rewrite app_nil_r; reflexivity|auto|constructor].
  - cbn in H. destruct (add_wf hash d w) as [d1 i] eqn:E1. destruct (add_all d1 r) as [d2 is2] eqn:E2. injection H as <- <-.
    destruct (add_wf_inv _ _ _ _ HI E1) as [I1 [[s1 S1] [e [B1 [B2 [B3 B4]]]]]]. destruct (IH _ _ _ I1 E2) as [I2 [[s2 S2] [C2 F2]]].
    split; [exact I2|]. split; [exists (s1 ++ s2); rewrite S2, S1, app_assoc; reflexivity|]. split.
    + intros e' He'. destruct (C2 e' He') as [Hd1|Hr]; [|right; right; exact Hr].
      destruct (in_dec (fun a b : entry => ltac:(repeat decide equality) : {a = b} + {a <> b}) e' d) as [Hd|Hd]; [left; exact Hd|].
      right. left. symmetry. apply B4; assumption.
    + constructor; [|exact F2]. exists e. split; [rewrite S2; apply in_or_app; left; exact B1|]. auto.
Qed.

Lemma NoDup_map_inj {A B} (f : A -> B) l a b : NoDup (map f l) -> In a l -> In b l -> f a = f b -> a = b.
Proof.
  induction l as [|x l IH]; intros Hn Ha Hb Hf; [destruct Ha|]. cbn in Hn. inversion Hn; subst.
  destruct Ha as [->|Ha], Hb as [->|Hb]; auto.
  - exfalso. apply H1. rewrite Hf. apply in_map. exact Hb.
  - exfalso. apply H1. rewrite <- Hf. apply in_map. exact Ha.
Qed.

(** the process hash does not collide on the waveforms of this sequencer *)
Definition no_collision (ws : list waveform) : Prop :=
  forall v w, In v ws -> In w ws -> hash (round12 v) = hash (round12 w) -> round12 v = round12 w.

(** After inserting any list of waveforms into an empty table: the indices in the table are 0..n-1, each once; every waveform
    is stored under the index that was returned for it (also after later insertions); two waveforms
    got the same index exactly if they are equal to 12 decimals. *)
Theorem C28_waveform_table : forall ws d is, no_collision ws -> add_all [] ws = (d, is) ->
  map index d = seq 0 (List.length d) /\
  Forall2 (stored d) ws is /\
  (forall a b wa wb ia ib, nth_error ws a = Some wa -> nth_error is a = Some ia -> nth_error ws b = Some wb -> nth_error is b = Some ib ->
     (ia = ib <-> round12 wa = round12 wb)).
Proof.
  intros ws d is Hnc H.
  assert (HI : TInv []) by (repeat split; constructor).
  destruct (add_all_inv ws [] d is HI H) as [[I1 [I2 I3]] [_ [C F]]].
  assert (Hdata : forall e, In e d -> In (data e) ws) by (intros e He; destruct (C e He) as [[]|]; assumption).
  assert (F' : forall a wa ia, nth_error ws a = Some wa -> nth_error is a = Some ia -> exists e, In e d /\ index e = ia /\ key e = uuid wa).
  { clear -F. induction F; intros a wa ia Ha Hb; [destruct a; discriminate|]. destruct a; cbn in *; [injection Ha as <-; injection Hb as <-; assumption|eauto]. }
  rewrite Forall_forall in I3. split; [exact I1|]. split.
  - assert (HS : forall w i, In w ws -> (exists e, In e d /\ index e = i /\ key e = uuid w) -> stored d w i).
    { intros w i Hw [e [E1 [E2 E3]]]. exists e. split; [exact E1|]. split; [exact E2|]. apply Hnc; auto. rewrite (I3 e E1) in E3. exact E3. }
    revert F HS. clear. intros F HS. induction F; constructor; [apply HS; [left; reflexivity|assumption]|]. apply IHF. intros w i Hw. apply HS. right. exact Hw.
  - intros a b wa wb ia ib Ha Ia Hb Ib. destruct (F' _ _ _ Ha Ia) as [e [E1 [E2 E3]]]. destruct (F' _ _ _ Hb Ib) as [f [G1 [G2 G3]]].
    split.
    + intros ->. assert (Hef : e = f). { apply (NoDup_map_inj index d); auto; [|congruence]. rewrite I1. apply seq_NoDup. }
      subst f. apply Hnc; [eapply nth_error_In; eauto|eapply nth_error_In; eauto|]. unfold WfModel.uuid in *. congruence.
    + intros Hr. assert (Hef : e = f). { apply (NoDup_map_inj key d); auto. rewrite E3, G3. unfold WfModel.uuid. rewrite Hr. reflexivity. }
      congruence.
Qed.
End S.

(** Waveforms that differ by less than half of 1e-12 share an entry, so "equal" cannot be strengthened to identical; and
    with a colliding hash different waveforms share an index: the code relies on the hash. *)
Theorem C28_collision_refuted : exists hash, snd (add_all hash [] [[1]; [0]]) = [0%nat; 0%nat].
Proof. exists (fun _ => 0%Z). reflexivity. Qed.

Example C28_example : let h := fun l => fold_right (fun x a => (x + 7 * a)%Z) 1%Z l in
  no_collision h [[0; 1]; [1; 0]; [0; 1]] /\ snd (add_all h [] [[0; 1]; [1; 0]; [0; 1]]) = [0; 1; 0]%nat.
Proof.
  cbv zeta. split; [|reflexivity]. intros v w Hv Hw. cbn [In] in *.
  repeat match goal with H : _ \/ _ |- _ => destruct H as [H|H] | H : False |- _ => destruct H end; subst; vm_compute; congruence.
Qed.

(** tables of complex waveforms: I and Q parts get consecutive indices, all indices 0..2n-1 once, all names different *)
Lemma gen_wf_index l : forall k, map (fun x => snd (snd x)) (gen_wf_dict k l) = seq (2 * k) (2 * List.length l).
Proof.
  induction l as [|[u [re im]] l IH]; intros k; [rewrite Nat.mul_0_r; reflexivity|]. cbn [gen_wf_dict map snd]. rewrite IH.
  cbn [List.length]. replace (2 * S (List.length l))%nat with (S (S (2 * List.length l))) by lia. cbn [seq].
  replace (2 * k + 1)%nat with (S (2 * k)) by lia. replace (2 * S k)%nat with (S (S (2 * k))) by lia. reflexivity.
Qed.

Lemma suffix_inj a b s : (a ++ s = b ++ s)%string -> a = b.
Proof.
  intros H. revert b H. induction a as [|c a IH]; intros b H; destruct b as [|c' b]; auto; cbn in H.
  - exfalso. apply (f_equal String.length) in H. cbn in H.
    assert (L : forall x y, String.length (x ++ y) = (String.length x + String.length y)%nat) by (induction x; cbn; intros; [reflexivity|rewrite IHx; reflexivity]).
    rewrite L in H. lia.
  - exfalso. apply (f_equal String.length) in H. cbn in H.
    assert (L : forall x y, String.length (x ++ y) = (String.length x + String.length y)%nat) by (induction x; cbn; intros; [reflexivity|rewrite IHx; reflexivity]).
    rewrite L in H. lia.
  - injection H as -> H. f_equal. auto.
Qed.

Lemma IQ_neq a b : (a ++ "_I" <> b ++ "_Q")%string.
Proof.
  revert b. induction a as [|c a IH]; intros b H; destruct b as [|c' b]; cbn in H; try discriminate.
  - injection H as _ H. destruct b as [|? [|? b]]; cbn in H; try discriminate; injection H; intros; destruct b; discriminate.
  - injection H as _ H. destruct a as [|? [|? a]]; cbn in H; try discriminate; injection H; intros; destruct a; discriminate.
  - injection H as _ H. exact (IH _ H).
Qed.

Lemma gen_names l : forall k n, In n (map fst (gen_wf_dict k l)) -> exists u, In u (map fst l) /\ (n = u ++ "_I" \/ n = u ++ "_Q")%string.
Proof.
  induction l as [|[u [re im]] l IH]; intros k n H; [destruct H|]. cbn [gen_wf_dict map fst In] in H. destruct H as [<-|[<-|H]].
  - exists u. cbn. auto.
  - exists u. cbn. auto.
  - destruct (IH _ _ H) as [u' [H1 H2]]. exists u'. cbn. auto.
Qed.

Theorem C28_complex_waveform_table : forall l, NoDup (map fst l) ->
  let d := gen_wf_dict 0 l in
  NoDup (map fst d) /\ map (fun x => snd (snd x)) d = seq 0 (2 * List.length l) /\
  (forall k u re im, nth_error l k = Some (u, (re, im)) ->
     In ((u ++ "_I")%string, (re, (2 * k)%nat)) d /\ In ((u ++ "_Q")%string, (im, (2 * k + 1)%nat)) d).
Proof.
  intros l Hn. cbv zeta. split; [|split; [apply gen_wf_index|]].
  - generalize 0%nat. induction l as [|[u [re im]] l IH]; intros k; [constructor|]. cbn [gen_wf_dict map fst]. cbn [map fst] in Hn. inversion Hn; subst.
    constructor; [|constructor; [|auto]].
    + intros [H|H]; [exact (IQ_neq u u (eq_sym H))|]. destruct (gen_names _ _ _ H) as [u' [H3 [H4|H4]]].
      * apply suffix_inj in H4. congruence.
      * exact (IQ_neq _ _ H4).
    + intros H. destruct (gen_names _ _ _ H) as [u' [H3 [H4|H4]]].
      * exact (IQ_neq _ _ (eq_sym H4)).
      * apply suffix_inj in H4. congruence.
  - assert (HG : forall l j k u re im, nth_error l k = Some (u, (re, im)) ->
       In ((u ++ "_I")%string, (re, (2 * (j + k))%nat)) (gen_wf_dict j l) /\ In ((u ++ "_Q")%string, (im, (2 * (j + k) + 1)%nat)) (gen_wf_dict j l)).
    { clear. induction l as [|[u0 [re0 im0]] l IH]; intros j k u re im H; [destruct k; discriminate|]. cbn [gen_wf_dict]. destruct k as [|k].
      - cbn in H. injection H as -> -> ->. rewrite Nat.add_0_r. split; [left; reflexivity|right; left; reflexivity].
      - cbn in H. destruct (IH (S j) k u re im H) as [A B]. replace (j + S k)%nat with (S j + k)%nat by lia. split; right; right; assumption. }
    intros k u re im H. exact (HG l 0%nat k u re im H).
Qed.

(** ** C36: resizing keeps the samples and pads with zeros to the next multiple of the granularity *)
Theorem C36_resize : forall w g, (0 < g)%Z -> exists n,
  resize_waveform w g = Ok (w ++ repeat 0 n) /\
  Z.divide g (Z.of_nat (List.length w + n)) /\ (0 < List.length w + n)%nat /\
  ((0 < List.length w)%nat -> (Z.of_nat n < g)%Z) /\
  get_waveform_size (Z.of_nat (List.length w)) g = Ok (Z.of_nat (List.length w + n)).
Proof.
  intros w g Hg. unfold resize_waveform, get_waveform_size. set (len := Z.of_nat (List.length w)).
  destruct (Z.eqb len 0) eqn:E0.
  - apply Z.eqb_eq in E0. assert (w = []) by (destruct w; [reflexivity|cbn in len; lia]). subst w. exists (Z.to_nat g).
    cbn [app List.length Nat.add]. rewrite Z2Nat.id by lia. split; [reflexivity|]. split; [apply Z.divide_refl|]. split; [lia|]. split; [lia|].
    rewrite E0, Z.mod_0_l by lia. cbn. rewrite Z.max_r by lia. reflexivity.
  - apply Z.eqb_neq in E0. destruct (Z.eqb (len mod g) 0) eqn:E1; cbn [negb bind].
    + apply Z.eqb_eq in E1. apply Z.mod_divide in E1; [|lia]. exists 0%nat. rewrite app_nil_r, Nat.add_0_r. fold len. split; [reflexivity|]. split; [exact E1|].
      split; [lia|]. split; [intros _; exact Hg|]. apply Z.divide_pos_le in E1; [|lia]. rewrite Z.max_l by lia. reflexivity.
    + destruct (closest_number_ceil len g) as [c|] eqn:Ec.
      * destruct (C36_closest_number_ceil _ _ _ Ec) as [D1 D2]. cbn [bind]. exists (Z.to_nat (c - len)).
        assert (HL : Z.of_nat (List.length w + Z.to_nat (c - len)) = c) by (unfold len in *; lia).
        split; [reflexivity|]. rewrite HL. split; [exact D1|]. split; [lia|]. split.
        -- intros _. apply Z.eqb_neq in E1. rewrite Z2Nat.id by lia. destruct (Z.eq_dec c (len + g)) as [->|]; [|lia].
           exfalso. apply E1. apply Z.mod_divide; [lia|]. destruct D1 as [q Hq]. exists (q - 1)%Z. lia.
        -- assert (g <= c)%Z by (apply Z.divide_pos_le in D1; lia). rewrite Z.max_l by lia. reflexivity.
      * unfold closest_number_ceil in Ec. destruct (0 <? len)%Z eqn:X; [|apply Z.ltb_ge in X; lia]. destruct (0 <? g)%Z eqn:Y; [discriminate|apply Z.ltb_ge in Y; lia].
Qed.

Example C36_example : resize_waveform [1; 2; 3; 4; 5] 4 = Ok [1; 2; 3; 4; 5; 0; 0; 0] /\ resize_waveform [] 4 = Ok [0; 0; 0; 0] /\ resize_waveform [1; 2] 2 = Ok [1; 2].
Proof. repeat split; reflexivity. Qed.

(** ** C37: a shifted waveform, started at the returned sequencer count, begins at the sample nearest to the requested start *)
Theorem C37_shift : forall w start res, (0 < res)%Z ->
  let '(count, w') := shift_waveform w start res in
  exists n, w' = repeat 0 n ++ w /\ (Z.of_nat n < res)%Z /\
    Qabs (inject_Z (count * res + Z.of_nat n) - start) <= 1 # 2.
Proof.
  intros w start res Hr. unfold shift_waveform. pose proof (py_round_spec start) as [R1 R2]. set (n := py_round start) in *.
  pose proof (Z.div_mod n res ltac:(lia)) as Hdm. pose proof (Z.mod_pos_bound n res Hr) as Hm.
  destruct (Z.eqb (n mod res) 0) eqn:E.
  - apply Z.eqb_eq in E. exists 0%nat. split; [reflexivity|]. split; [lia|]. replace (n / res * res + Z.of_nat 0)%Z with n by lia. apply Qabs_Qle_condition. split; lra.
  - exists (Z.to_nat (n mod res)). split; [reflexivity|]. rewrite Z2Nat.id by lia. split; [lia|]. replace (n / res * res + n mod res)%Z with n by lia. apply Qabs_Qle_condition. split; lra.
Qed.

Example C37_example : shift_waveform [1; 1] (19 + (1#3)) 8 = (2%Z, [0; 0; 0; 1; 1]).
Proof. reflexivity. Qed.
