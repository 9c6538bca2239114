(** C51: which programs [prepare] accepts. *)
From Verif Require Import Base PathModel JsonModel QbModel QbSpec QbProps QbSeq QbPrep.
From Coq Require Import Lia.
Local Open Scope string_scope.

(** The driver has every parameter and its validators accept every value *)
Definition Permissive (d : driver) : Prop := (forall l p, has d l p = true) /\ (forall l p v, accepts d l p v = true).
(** The trace acquisitions of the program: all on one sequencer, with an acquisition index; every sequencer of the mapping exists *)
Definition ScopeOk (k : kind) (data : channels_data) (hwm : hw_mapping) : Prop :=
  (forall n chans, In (n, chans) hwm -> exists i, n = seq_name i /\ (i < sequencers k)%nat) /\
  (forall n chans ch, In (n, chans) hwm -> In (ch, true) data -> ~ In (ch, None) chans) /\
  (forall n chans m chans' ch ch' a b, In (n, chans) hwm -> In (m, chans') hwm -> In (ch, true) data -> In (ch', true) data -> In (ch, a) chans -> In (ch', b) chans' -> n = m).
(** Programs that make sense for the module *)
Record Acceptable (k : kind) (data : channels_data) (p : program aset) : Prop := {
  a_names : forall n s, In (n, s) (p_seqs p) -> exists i, n = seq_name i /\ (i < sequencers k)%nat;
  a_nco : k = QRC -> forall n s, In (n, s) (p_seqs p) -> nco_en s = true;
  a_exps : k = QCM -> forall st o dc i cs, p_settings p = Some st -> nth_error (dists st) o = Some dc -> (o < outputs k)%nat -> (i < 4)%nat -> coeffs (nth i (exps dc) nofilt) = Some cs -> (2 <= List.length cs)%nat;
  a_scope : readout k -> forall hwm, p_mapping p = Some hwm -> ScopeOk k data hwm }.

Definition flagged (L : list nat) (c : comp) : Prop := forall i, In i L -> exists b, nco_flag i (nco_changed c) = Some b.
Definition Tot {A} (L : list nat) (m : M A) (L' : list nat) : Prop := forall c, flagged L c -> exists c' a, m c = (c', Ok a) /\ flagged L' c'.

Lemma tot_ret {A} L (a : A) : Tot L (ret a) L.
Proof. intros c h. exists c, a. split; [reflexivity|auto]. Qed.
Lemma tot_bnd {A B} L L1 L2 (m : M A) (f : A -> M B) : Tot L m L1 -> (forall a, Tot L1 (f a) L2) -> Tot L (bnd m f) L2.
Proof. intros h g c hc. destruct (h c hc) as (c1 & a & e & h1). destruct (g a c1 h1) as (c2 & b & e2 & h2). exists c2, b. split; [|auto]. unfold bnd. now rewrite e. Qed.
Lemma tot_then {A B} L L1 L2 (m : M A) (n : M B) : Tot L m L1 -> Tot L1 n L2 -> Tot L (m >> n) L2.
Proof. intros h g. unfold andthen. eapply tot_bnd; eauto. Qed.
Lemma tot_each {A} L (l : list A) (f : A -> M unit) : (forall x, In x l -> Tot L (f x) L) -> Tot L (for_each l f) L.
Proof. induction l as [|x l IH]; intros h; cbn [for_each]; [apply tot_ret|]. eapply tot_then; [apply h; cbn; auto|]. apply IH. intros y i. apply h. cbn. auto. Qed.
Lemma tot_gets {A} L (f : comp -> A) : Tot L (gets f) L.
Proof. intros c h. exists c, (f c). auto. Qed.
Lemma tot_when {A} L (o : option A) f : (forall a, o = Some a -> Tot L (f a) L) -> Tot L (when_some o f) L.
Proof. intros h. destruct o; cbn [when_some]; [now apply h|apply tot_ret]. Qed.
Lemma tot_mem L f : Tot L (set_mem f) L.
Proof. intros c h. exists {| mem := f (mem c); names := names c; nco_changed := nco_changed c; cals := cals c; mgr := mgr c |}, tt. split; [reflexivity|exact h]. Qed.
Lemma tot_mgr L o : Tot L (set_mgr o) L.
Proof. intros c h. eexists _, tt. split; [reflexivity|exact h]. Qed.
Lemma tot_cal L k f : Tot L (calibrate k f) L.
Proof. intros c h. eexists _, tt. split; [reflexivity|exact h]. Qed.
Lemma tot_names L l : Tot L (set_names l) L.
Proof. intros c h. eexists _, tt. split; [reflexivity|exact h]. Qed.
Lemma tot_nil {A} L (m : M A) L' : Tot L m L' -> Tot L m [].
Proof. intros h c hc. destruct (h c hc) as (c' & a & e & _). exists c', a. split; [auto|]. intros i []. Qed.
Lemma flag_put i j b l : nco_flag i (nco_put j b l) = if Nat.eqb j i then Some b else nco_flag i l.
Proof. unfold nco_flag, nco_put. cbn [List.find fst]. destruct (Nat.eqb_spec j i) as [->|n]; [reflexivity|]. f_equal.
  induction l as [|[a x] l IH]; cbn; [auto|]. destruct (Nat.eqb_spec a j) as [->|m]; cbn [negb].
  - destruct (Nat.eqb_spec j i); [congruence|auto].
  - cbn. destruct (Nat.eqb a i); auto. Qed.
Lemma tot_put L i b : Tot L (set_nco (nco_put i b)) (i :: L).
Proof. intros c h. eexists _, tt. split; [reflexivity|]. intros j hj. cbn [nco_changed]. rewrite flag_put. destruct (Nat.eqb_spec i j) as [->|n]; [eauto|]. destruct hj as [|hj]; [congruence|]. apply h, hj. Qed.
Lemma tot_base {S} (p : program S) L : Tot L (prepare_base p) [].
Proof. intros c h. eexists _, tt. split; [reflexivity|intros i []]. Qed.
Lemma tot_weak {A} L M' (m : M A) L' L'' : Tot L m L' -> (forall i, In i L -> In i M') -> (forall i, In i L'' -> In i L') -> Tot M' m L''.
Proof. intros h a b c hc. destruct (h c) as (c' & x & e & f); [intros i hi; apply hc, a, hi|]. exists c', x. split; [auto|]. intros i hi. apply f, b, hi. Qed.
Lemma tot_get L i : In i L -> Tot L (get_nco i) L.
Proof. intros hi c h. destruct (h i hi) as [b e]. exists c, b. split; [|auto]. unfold get_nco, bnd, gets. now rewrite e. Qed.
Lemma tot_any L l : (forall i, In i l -> In i L) -> Tot L (any_nco l) L.
Proof. induction l as [|i l IH]; intros h; cbn [any_nco]; [apply tot_ret|]. eapply tot_bnd; [apply tot_get; apply h; cbn; auto|]. intros [|]; [apply tot_ret|]. apply IH. intros j hj. apply h. cbn. auto. Qed.

Section D.
Variable d : driver.
Hypothesis pd : Permissive d.

Lemma tot_set L l p v : Tot L (set_parameter d l p v) L.
Proof. destruct pd as [h a]. unfold set_parameter. rewrite h. assert (R : Tot L (raw_set d l p v) L) by (unfold raw_set; rewrite a; apply tot_mem).
  destruct (force_set d); [auto|]. eapply tot_bnd; [apply tot_gets|]. intros [|]; [apply tot_ret|auto]. Qed.
Ltac tot := repeat first [apply tot_set | apply tot_mgr | apply tot_ret | eapply tot_then | apply tot_when; intros | apply tot_each; intros].
Lemma tot_cbase L i a b t : Tot L (config_base d i a b t) L.
Proof. unfold config_base. tot. destruct x. tot. Qed.
Lemma tot_analog L k i s : Tot L (config_analog d k i s) (i :: L).
Proof. destruct pd as [h _]. unfold config_analog. eapply tot_then; [|apply tot_cbase]. eapply tot_then; [|apply tot_each; intros [? ?] ?; apply tot_set]. do 4 (eapply tot_then; [|apply tot_set]).
  destruct (nco_en s); [|apply tot_put]. eapply tot_then; [|apply tot_set]. rewrite h. eapply tot_bnd; [apply tot_gets|]. intros. apply tot_put. Qed.
Lemma tot_readout L i s : Tot L (config_readout d i s) L.
Proof. unfold config_readout. tot. Qed.
Lemma tot_seq L k i s : k <> QTM -> (k = QRC -> nco_en s = true) -> Tot L (config_seq d k i s) (i :: L).
Proof. intros hk hn. destruct k; cbn [config_seq]; unfold mod_en, demod_en, marker_ovr; try congruence.
  5: rewrite (hn eq_refl); cbn [negb].
  all: repeat first [apply tot_analog | apply tot_readout | apply tot_set | eapply tot_then]. Qed.
Lemma tot_mixer L i s : In i L -> Tot L (config_mixer d i s) L.
Proof. intros hi. unfold config_mixer. eapply tot_bnd with (L1 := L).
  - destruct (auto_sb s); [apply tot_ret|now apply tot_get].
  - intros [|]; [apply tot_cal|tot]. Qed.
Lemma tot_coeff L cs n : (n < List.length cs)%nat -> Tot L (coeff cs n) L.
Proof. intros h. unfold coeff. destruct (nth_error cs n) eqn:E; [apply tot_ret|]. apply nth_error_None in E. lia. Qed.
Lemma enum_nth {A} (l : list A) n o x : In (o, x) (enum_from n l) -> (n <= o)%nat /\ nth_error l (o - n) = Some x.
Proof. revert n. induction l as [|y l IH]; intros n h; [destruct h|]. cbn in h. destruct h as [h|h].
  - injection h as <- <-. split; [lia|]. now rewrite Nat.sub_diag.
  - apply IH in h. destruct h as [a b]. split; [lia|]. replace (o - n)%nat with (S (o - S n))%nat by lia. exact b. Qed.
Lemma nth_firstn {A} (l : list A) n o x : nth_error (firstn n l) o = Some x -> (o < n)%nat /\ nth_error l o = Some x.
Proof. revert n o. induction l as [|y l IH]; intros n o h.
  - rewrite firstn_nil in h. destruct o; discriminate.
  - destruct n; [destruct o; discriminate|]. destruct o; cbn in h; [split; [lia|exact h]|]. apply IH in h. cbn. split; [lia|tauto]. Qed.
Lemma tot_dist_qcm L st : (forall o dc i cs, nth_error (dists st) o = Some dc -> (o < 4)%nat -> (i < 4)%nat -> coeffs (nth i (exps dc) nofilt) = Some cs -> (2 <= List.length cs)%nat) -> Tot L (config_dist_qcm d st) L.
Proof. intros hh. unfold config_dist_qcm. apply tot_each. intros [o dc] hin. apply enum_nth in hin. destruct hin as [_ hin]. rewrite Nat.sub_0_r in hin. apply nth_firstn in hin. destruct hin as [lt hin].
  eapply tot_then; [|apply tot_set]. eapply tot_then; [|apply tot_set]. eapply tot_then; [|apply tot_when; intros; apply tot_set]. apply tot_each. intros i hi. apply in_seq in hi.
  eapply tot_then; [|apply tot_set]. eapply tot_then; [|apply tot_set]. apply tot_when. intros cs hc. assert (n := hh o dc i cs hin lt ltac:(lia) hc).
  eapply tot_then; (eapply tot_bnd; [apply tot_coeff; lia|intros; apply tot_set]). Qed.
Lemma tot_dist_qrm L st : Tot L (config_dist_qrm d st) L.
Proof. unfold config_dist_qrm. apply tot_each. intros [o dc] _. eapply tot_then; [apply tot_each; intros|]; apply tot_set. Qed.
Lemma tot_global L k st : (k = QCM -> forall o dc i cs, nth_error (dists st) o = Some dc -> (o < 4)%nat -> (i < 4)%nat -> coeffs (nth i (exps dc) nofilt) = Some cs -> (2 <= List.length cs)%nat) -> Tot L (config_global d k st) L.
Proof. intros hh. destruct k; cbn [config_global]; unfold set_onum, set_oint, set_mod.
  1: specialize (hh eq_refl).
  all: repeat first [apply tot_dist_qcm; exact hh | apply tot_dist_qrm | apply tot_set | apply tot_ret | eapply tot_then | apply tot_when; intros | apply tot_each; intros]. Qed.
Lemma tot_lo1 L p o : Tot L (set_lo d p o) L.
Proof. destruct pd as [h _]. unfold set_lo. destruct o; [|apply tot_ret]. rewrite h. eapply tot_bnd; [apply tot_gets|]. intros. eapply tot_then; [apply tot_set|apply tot_ret]. Qed.
Lemma tot_lcal L n m a b : Tot L (lo_calibrate d n m a b) L.
Proof. unfold lo_calibrate. match goal with |- Tot _ (if ?b then _ else _) _ => destruct b end; [apply tot_cal|apply tot_ret]. Qed.
Lemma tot_config_lo L k st seqs : (forall n i, In i (connected k seqs n) -> In i L) -> Tot L (config_lo d k st seqs) L.
Proof. intros h. destruct k; cbn [config_lo]; unfold set_onum, set_mod; try apply tot_ret.
  - eapply tot_bnd; [apply tot_lo1|intros]. eapply tot_bnd; [apply tot_lo1|intros]. eapply tot_bnd; [apply tot_any, h|intros]. eapply tot_bnd; [apply tot_any, h|intros]. eapply tot_then; apply tot_lcal.
  - eapply tot_bnd; [apply tot_lo1|intros]. eapply tot_bnd; [apply tot_any, h|intros]. apply tot_lcal.
  - tot. Qed.

(** the sequencers of a program *)
Definition idx (l : list (string * aset)) (i : nat) : Prop := exists s, In (seq_name i, s) l.
Definition covers (l : list (string * aset)) (L : list nat) : Prop := forall i, idx l i -> In i L.
Definition good (k : kind) (l : list (string * aset)) : Prop := forall n s, In (n, s) l -> exists i, n = seq_name i /\ (i < sequencers k)%nat.
Lemma seq_idx k i : (i < sequencers k)%nat -> seq_index k (seq_name i) = Some i.
Proof. intros h. apply seq_index_some. split; [auto|]. destruct k; exact h. Qed.
Lemma tot_each_seq L k p (f : nat -> string -> aset -> M unit) : good k (p_seqs p) -> (forall i s, In (seq_name i, s) (p_seqs p) -> Tot L (f i (seq_name i) s) L) -> Tot L (each_seq k p f) L.
Proof. intros g h. unfold each_seq. apply tot_each. intros [n s] hin. destruct (g n s hin) as (i & -> & lt). unfold seq_of. rewrite seq_idx by auto. intros c hc. cbn. apply (h i s hin c hc). Qed.
Lemma tot_each_flag k (f : nat -> string -> aset -> M unit) l : good k l -> (forall L i s, In (seq_name i, s) l -> Tot L (f i (seq_name i) s) (i :: L)) ->
  forall L, exists L', Tot L (for_each l (fun '(n, s) => bnd (seq_of k n) (fun i => f i n s))) L' /\ covers l L' /\ (forall i, In i L -> In i L').
Proof. induction l as [|[n s] l IH]; intros g h L.
  - exists L. split; [apply tot_ret|]. split; [intros i (s & [])|auto].
  - destruct (g n s) as (i & -> & lt); [cbn; auto|]. destruct (IH ltac:(intros n' s' hi; apply (g n' s'); cbn; auto) ltac:(intros L' j s' hi; apply h; cbn; auto) (i :: L)) as (L' & t & cv & sub).
    exists L'. split; [|split].
    + cbn [for_each]. eapply tot_then; [|exact t]. unfold seq_of. rewrite seq_idx by auto. intros c hc. cbn. apply (h L i s); cbn; auto.
    + intros j (s' & [e|hj]); [|apply cv; exists s'; auto]. assert (e2 := f_equal fst e). cbn [fst] in e2. apply seq_name_inj in e2 as <-. apply sub. cbn. auto.
    + intros j hj. apply sub. cbn. auto. Qed.
Lemma tot_sync L k : Tot L (disable_sync d k) L.
Proof. unfold disable_sync. tot. Qed.

Lemma connected_idx k l n i : In i (connected k l n) -> idx l i.
Proof. unfold connected. intros h. apply in_flat_map in h. destruct h as ([m s] & hin & h). destruct (seq_index k m) as [j|] eqn:E; [|destruct h]. apply seq_index_some in E. destruct E as [-> _].
  destruct (String.eqb _ _); [|destruct h]. destruct h as [<-|[]]. exists s. auto. Qed.

(** the scope sequencer *)
Lemma scope_ok k data hwm : ScopeOk k data hwm -> exists o, scope_seq k data hwm = Ok o.
Proof. intros (n1 & n2 & n3). unfold scope_seq.
  set (Inv := fun o : option (nat * Z) => forall i z, o = Some (i, z) -> exists chans ch a, In (seq_name i, chans) hwm /\ In (ch, true) data /\ In (ch, a) chans).
  assert (G : forall l o, (forall x, In x l -> In x data) -> Inv o -> exists o', foldM (fun acc '(ch, is_trace) => if negb (is_trace : bool) then Ok acc else foldM (fun acc '(sname, chans) =>
      match seq_index k sname with
      | None => Err KeyError
      | Some i => foldM (fun (acc : option (nat * Z)) '(hch, idx) =>
          if String.eqb ch hch then
            match idx with
            | None => Err AssertionErr
            | Some n => match acc with Some (j, _) => if Nat.eqb i j then Ok (Some (i, n)) else Err ValueError | None => Ok (Some (i, n)) end
            end
          else Ok acc) chans acc
      end) hwm acc) l o = Ok o' /\ Inv o').
  2: { destruct (G data None ltac:(auto)) as (o & e & _); [intros i z e; discriminate|]. exists o. exact e. }
  induction l as [|[ch tr] l IH]; intros o sub io; [exists o; split; [reflexivity|auto]|]. cbn [foldM].
  assert (hd : In (ch, tr) data) by (apply sub; cbn; auto). assert (sub' : forall x, In x l -> In x data) by (intros x hx; apply sub; cbn; auto).
  destruct tr; cbn [negb]; [|cbn [bind]; apply IH; auto].
  match goal with |- exists o', bind ?X _ = _ /\ _ => assert (Y : exists o', X = Ok o' /\ Inv o') end.
  2: { destruct Y as (o' & -> & io'). cbn [bind]. apply IH; auto. }
  clear IH. assert (H : forall h, (forall x, In x h -> In x hwm) -> forall o, Inv o -> exists o', foldM (fun acc '(sname, chans) =>
      match seq_index k sname with
      | None => Err KeyError
      | Some i => foldM (fun (acc : option (nat * Z)) '(hch, idx) =>
          if String.eqb ch hch then
            match idx with
            | None => Err AssertionErr
            | Some n => match acc with Some (j, _) => if Nat.eqb i j then Ok (Some (i, n)) else Err ValueError | None => Ok (Some (i, n)) end
            end
          else Ok acc) chans acc
      end) h o = Ok o' /\ Inv o'); [|apply (H hwm); auto].
  clear o io. induction h as [|[sn chans] h IH]; intros subh o io; [exists o; split; [reflexivity|auto]|]. cbn [foldM].
  assert (hh : In (sn, chans) hwm) by (apply subh; cbn; auto). destruct (n1 _ _ hh) as (i & -> & lt). rewrite seq_idx by auto.
  match goal with |- exists o', bind ?X _ = _ /\ _ => assert (Y : exists o', X = Ok o' /\ Inv o') end.
  2: { destruct Y as (o' & -> & io'). cbn [bind]. apply IH; auto. intros x hx. apply subh. cbn. auto. }
  clear IH. assert (H : forall cs, (forall x, In x cs -> In x chans) -> forall o, Inv o -> exists o', foldM (fun (acc : option (nat * Z)) '(hch, idx) =>
          if String.eqb ch hch then
            match idx with
            | None => Err AssertionErr
            | Some n => match acc with Some (j, _) => if Nat.eqb i j then Ok (Some (i, n)) else Err ValueError | None => Ok (Some (i, n)) end
            end
          else Ok acc) cs o = Ok o' /\ Inv o'); [|apply (H chans); auto].
  clear o io. induction cs as [|[hch a] cs IH]; intros subc o io; [exists o; split; [reflexivity|auto]|]. cbn [foldM].
  assert (hc : In (hch, a) chans) by (apply subc; cbn; auto). assert (subc' : forall x, In x cs -> In x chans) by (intros x hx; apply subc; cbn; auto).
  destruct (String.eqb_spec ch hch) as [<-|ne]; [|cbn [bind]; apply IH; auto].
  destruct a as [z|]; [|exfalso; eapply n2; eauto].
  assert (iz : Inv (Some (i, z))). { intros j y e. injection e as <- <-. exists chans, ch, (Some z). auto. }
  destruct o as [[j y]|]; [|cbn [bind]; apply IH; auto].
  destruct (io j y eq_refl) as (chans' & ch' & a' & q1 & q2 & q3).
  assert (E : seq_name i = seq_name j) by (eapply (n3 _ _ _ _ ch ch'); eauto). apply seq_name_inj in E as <-. rewrite Nat.eqb_refl. cbn [bind]. apply IH; auto. Qed.
Lemma tot_lift {A} L (r : result A) : (exists a, r = Ok a) -> Tot L (lift r) L.
Proof. intros [a ->] c h. exists c, a. auto. Qed.
Lemma tot_select L k data p : (forall hwm, p_mapping p = Some hwm -> ScopeOk k data hwm) -> Tot L (select_scope d k data p) L.
Proof. intros h. unfold select_scope, set_mod. apply tot_when. intros hwm e. eapply tot_bnd; [apply tot_lift, scope_ok, h, e|]. intros sc. apply tot_when. intros [i z] _. apply tot_set. Qed.

Lemma tot_rf L k p : good k (p_seqs p) -> covers (p_seqs p) L -> Tot L (prepare_rf d k p) L.
Proof. intros g cv. unfold prepare_rf. eapply tot_then; [apply tot_each_seq; [auto|intros; apply tot_ret]|]. apply tot_when. intros st _. apply tot_config_lo. intros n i hi. eapply cv, connected_idx; eauto. Qed.

Lemma tot_qcm k data p : (k = QCM \/ k = QCM_RF) -> Acceptable k data p -> exists L, Tot [] (prepare_qcm d k p) L /\ covers (p_seqs p) L.
Proof. intros hk [a1 a2 a3 a4]. destruct (tot_each_flag k (fun i _ s => config_seq d k i s >> config_mixer d i s) (p_seqs p) a1) with (L := @nil nat) as (L & t & cv & _).
  { intros L i s hin. eapply tot_then; [apply tot_seq; destruct hk; congruence|]. apply tot_mixer. cbn. auto. }
  exists L. split; [|auto]. unfold prepare_qcm, each_seq. eapply tot_then; [|exact t]. eapply tot_then; [|apply tot_sync]. eapply tot_then; [apply tot_base|]. apply tot_when. intros st es. apply tot_global. intros ek o dc i cs h1 h2 h3 h4. subst k. eapply a3; eauto. Qed.
Lemma tot_ro k data p : readout k -> Acceptable k data p -> exists L, Tot [] (prepare_readout d k data p) L /\ covers (p_seqs p) L.
Proof. intros hk [a1 a2 a3 a4]. destruct (tot_each_flag k (fun i _ s => config_seq d k i s) (p_seqs p) a1) with (L := @nil nat) as (L & t & cv & _).
  { intros L i s hin. apply tot_seq; [destruct hk as [|[|]]; congruence|]. intros e. eapply a2; eauto. }
  exists L. split; [|auto]. unfold prepare_readout, each_seq, set_mod. eapply tot_then; [|apply tot_each; intros; eapply tot_then; apply tot_set].
  eapply tot_then; [|apply tot_when; intros; apply tot_global; destruct hk as [|[|]]; congruence].
  eapply tot_then. { eapply tot_then; [|exact t]. eapply tot_then; [apply tot_base|apply tot_sync]. }
  destruct (p_mapping p) as [hwm|] eqn:E; [|apply tot_mgr]. eapply tot_bnd; [apply tot_lift, scope_ok; auto|]. intros. apply tot_mgr. Qed.
Lemma tot_qrm k data p : (k = QRM \/ k = QRM_RF) -> Acceptable k data p -> exists L, Tot [] (prepare_qrm d k data p) L /\ covers (p_seqs p) L.
Proof. intros hk a. assert (r : readout k) by (unfold readout; tauto). destruct (tot_ro k data p r a) as (L & t & cv). exists L. split; [|auto]. unfold prepare_qrm.
  eapply tot_then; [|apply tot_select; intros; apply (a_scope _ _ _ a r); auto]. eapply tot_then; [exact t|]. apply tot_each_seq; [exact (a_names _ _ _ a)|]. intros i s hin. apply tot_mixer, cv. exists s. auto. Qed.
Lemma tot_prepare k data p : k <> QTM -> Acceptable k data p -> exists L, Tot [] (prepare d k data p) L.
Proof. intros hk a. assert (g : good k (p_seqs p)) by exact (a_names _ _ _ a). destruct k; cbn [prepare]; try congruence.
  - destruct (tot_qcm QCM data p) as (L & t & _); auto. exists L. auto.
  - destruct (tot_qrm QRM data p) as (L & t & _); auto. exists L. auto.
  - destruct (tot_qcm QCM_RF data p) as (L & t & cv); auto. exists L. eapply tot_then; [exact t|now apply tot_rf].
  - destruct (tot_qrm QRM_RF data p) as (L & t & cv); auto. exists L. eapply tot_then; [exact t|now apply tot_rf].
  - assert (r : readout QRC) by (unfold readout; tauto). destruct (tot_ro QRC data p r a) as (L & t & cv). exists L. eapply tot_then; [|apply tot_select; intros; apply (a_scope _ _ _ a r); auto]. eapply tot_then; [exact t|now apply tot_rf]. Qed.
End D.

(** A driver that has all parameters and accepts all values prepares every program that makes sense for the module, whatever state the component is in *)
Theorem C51_accepts : forall d k data p c, Permissive d -> k <> QTM -> Acceptable k data p -> exists c', prepare d k data p c = (c', Ok tt).
Proof. intros d k data p c pd hk a. destruct (tot_prepare d pd k data p hk a) as (L & t). destruct (t c) as (c' & [] & e & _); [intros i []|]. exists c'. exact e. Qed.

Lemma each_names k (p : program aset) f c c' : each_seq k p f c = (c', Ok tt) -> forall n s, In (n, s) (p_seqs p) -> exists i, n = seq_name i /\ (i < sequencers k)%nat.
Proof. unfold each_seq. revert c. induction (p_seqs p) as [|[m t] l IH]; intros c h n s hin; [destruct hin|]. cbn [for_each] in h. unfold andthen, bnd at 1 in h.
  destruct (bnd (seq_of k m) (fun i => f i m t) c) as [c1 [[]|e]] eqn:E; [|discriminate]. destruct hin as [e|hin]; [|eapply IH; eauto].
  injection e as -> ->. unfold bnd, seq_of in E. destruct (seq_index k n) as [i|] eqn:F; [|discriminate]. apply seq_index_some in F. destruct F as [-> lt]. exists i. split; [auto|]. destruct k; exact lt. Qed.
(** and one that was prepared names only sequencers the module has *)
Theorem C51_names : forall d k data p c c', k <> QTM -> prepare d k data p c = (c', Ok tt) -> forall n s, In (n, s) (p_seqs p) -> exists i, n = seq_name i /\ (i < sequencers k)%nat.
Proof. intros d k data p c c' hk h. assert (B : forall (m n : M unit) c c', (m >> n) c = (c', Ok tt) -> exists c1, m c = (c1, Ok tt) /\ n c1 = (c', Ok tt)).
  { intros m n a b e. unfold andthen, bnd in e. destruct (m a) as [a1 [[]|]]; [eauto|discriminate]. }
  assert (R : forall m c c', prepare_readout d m data p c = (c', Ok tt) -> exists f a b, each_seq m p f a = (b, Ok tt)).
  { intros m a b e. unfold prepare_readout in e. apply B in e. destruct e as (x & e & _). apply B in e. destruct e as (y & e & _). apply B in e. destruct e as (z & e & _). apply B in e. destruct e as (w & _ & e). eauto. }
  assert (Y : exists f a b, each_seq k p f a = (b, Ok tt)).
  { destruct k; cbn [prepare] in h; try congruence.
    - unfold prepare_qcm in h. apply B in h. destruct h as (x & _ & e). eauto.
    - unfold prepare_qrm in h. apply B in h. destruct h as (x & h & _). apply B in h. destruct h as (y & h & _). eauto.
    - apply B in h. destruct h as (x & h & _). unfold prepare_qcm in h. apply B in h. destruct h as (y & _ & e). eauto.
    - apply B in h. destruct h as (x & h & _). unfold prepare_qrm in h. apply B in h. destruct h as (z & h & _). apply B in h. destruct h as (y & h & _). eauto.
    - apply B in h. destruct h as (x & h & _). apply B in h. destruct h as (z & h & _). eauto. }
  destruct Y as (f & a & b & e). eapply each_names; eauto. Qed.
