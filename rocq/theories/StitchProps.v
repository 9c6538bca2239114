(** C31: stitched pulses have the requested waveform and end at zero offset. *)
From Verif Require Import Base UpdModel UpdProps StitchModel.
From Coq Require Import Permutation.
Open Scope Z_scope.

(** ** Specification: what the instrument outputs for a stitched pulse *)
Definition veq (a b : V) : Prop := (fst a == fst b)%Q /\ (snd a == snd b)%Q.
Definition vadd (a b : V) : V := (fst a + fst b, snd a + snd b)%Q.
(** the offset in force at time n: the value set by the latest instruction at or before n (instructions at the same time act in list order); 0 before any *)
Definition offset_at (l : list (Z * V)) (n : Z) : V := fold_left (fun v '(t, w) => if t <=? n then w else v) (sorted_by fst l) v0.
(** the sample a pulse adds at time n (SquarePulse, RampPulse) *)
Definition pulse_at (p : bpulse) (n : Z) : V :=
  if (b_t p <=? n) && (n <? b_t p + b_dur p) then
    match b_sh p with Square a => a | Ramp amp off => ((amp / inject_Z (b_dur p) * inject_Z (n - b_t p) + off)%Q, 0%Q) end
  else v0.
Fixpoint vsum (l : list V) : V := match l with [] => v0 | x :: r => vadd x (vsum r) end.
Definition signal (s : stitched) (n : Z) : V := vadd (offset_at (s_offs s) n) (vsum (map (fun p => pulse_at p n) (s_pulses s))).

(** a builder after any sequence of accepted calls, with the accepted offsets in call order at their absolute times (a call that raises leaves the builder unchanged) *)
Inductive reached : builder -> list offs -> Prop :=
  | r_new : reached new_builder []
  | r_pulse b h p app : reached b h -> 0 <= b_dur p -> reached (add_pulse b p app) h
  | r_offset b h v dur rel app m b' : reached b h -> 0 <= m -> add_voltage_offset b v dur rel app m = Ok b' ->
      reached b' (h ++ [{| o_v := v; o_t := if app then rel + operation_end b else rel; o_dur := dur |}]).
Definition overlap (a b : offs) : Prop := o_t b <= o_t a < o_end b \/ o_t a < o_t b < o_end a.
Definition covers (o : offs) (n : Z) : Prop := exists d, o_dur o = Some d /\ o_t o <= n < o_t o + d.
Definition holds_until_end (o : offs) (n : Z) : Prop := o_dur o = None /\ o_t o <= n.

(** ** The list of offsets *)
Definition okd (o : offs) : Prop := match o_dur o with Some d => 0 <= d | None => True end.
Lemma okd_end o : okd o -> o_t o <= o_end o. Proof. unfold okd, o_end. destruct (o_dur o); lia. Qed.
Fixpoint chain (l : list offs) : Prop := match l with [] => True | o :: r => okd o /\ Forall (fun x => o_end o <= o_t x) r /\ chain r end.
Lemma chain_srt l : chain l -> srt o_t l.
Proof.
  induction l as [|o l IH]; [trivial|]. intros (Ho & Hf & Hc). split; [|auto]. apply Forall_forall. intros x Hx. apply (proj1 (Forall_forall _ _) Hf) in Hx. pose proof (okd_end o Ho). lia.
Qed.
Lemma chain_app l1 l2 : chain (l1 ++ l2) <-> chain l1 /\ chain l2 /\ (forall x y, In x l1 -> In y l2 -> o_end x <= o_t y).
Proof.
  induction l1 as [|o l IH]; cbn [app chain]; [firstorder|]. rewrite IH, Forall_app. split.
  - intros (H1 & (H2 & H3) & H4 & H5 & H6). repeat split; auto. intros x y [<-|Hx] Hy; [apply (proj1 (Forall_forall _ _) H3 _ Hy)|auto].
  - intros ((H1 & H2 & H3) & H4 & H5). split; [exact H1|]. split; [split; [exact H2|]|].
    + apply Forall_forall. intros y Hy. apply H5; [left; reflexivity|exact Hy].
    + split; [exact H3|]. split; [exact H4|]. intros x y Hx Hy. apply H5; [right; exact Hx|exact Hy].
Qed.

Lemma bisect_split l t : srt o_t l -> Forall (fun o => o_t o <= t) (firstn (bisect_right l t) l) /\ Forall (fun o => t < o_t o) (skipn (bisect_right l t) l).
Proof.
  induction l as [|o l IH]; cbn [bisect_right]; [split; constructor|]. intros [Ha Hs]. destruct (t <? o_t o) eqn:E; cbn [firstn skipn].
  - apply Z.ltb_lt in E. split; [constructor|]. constructor; [exact E|]. eapply Forall_impl; [|exact Ha]. cbn. intros; lia.
  - apply Z.ltb_ge in E. destruct (IH Hs) as [H1 H2]. split; [constructor; assumption|exact H2].
Qed.
(** inserting after equal keys, at the end of the call order *)
Fixpoint ins_after (x : offs) (l : list offs) : list offs := match l with [] => [x] | y :: r => if o_t x <? o_t y then x :: l else y :: ins_after x r end.
Lemma insert_at_after x l : insert_at (bisect_right l (o_t x)) x l = ins_after x l.
Proof.
  induction l as [|y l IH]; cbn [bisect_right ins_after]; [reflexivity|]. destruct (o_t x <? o_t y); [reflexivity|]. unfold insert_at in *. cbn [firstn skipn app]. rewrite IH. reflexivity.
Qed.
Lemma ins_comm x y l : srt o_t l -> insert o_t y (ins_after x l) = ins_after x (insert o_t y l).
Proof.
  induction l as [|z l IH]; cbn [ins_after insert]; intros Hs.
  - destruct (Z.leb_spec (o_t y) (o_t x)), (Z.ltb_spec (o_t x) (o_t y)); try lia; reflexivity.
  - destruct Hs as [Ha Hs]. destruct (Z.ltb_spec (o_t x) (o_t z)), (Z.leb_spec (o_t y) (o_t z)); cbn [ins_after insert].
    + destruct (Z.leb_spec (o_t y) (o_t x)), (Z.ltb_spec (o_t x) (o_t y)); try lia; cbn [insert].
      * rewrite (proj2 (Z.ltb_lt _ _)) by assumption. reflexivity.
      * rewrite (proj2 (Z.leb_le _ _)) by assumption. reflexivity.
    + rewrite (proj2 (Z.leb_gt _ _)) by lia. cbn [insert]. rewrite (proj2 (Z.leb_gt _ _)) by lia. rewrite (proj2 (Z.ltb_lt _ _)) by lia. reflexivity.
    + rewrite (proj2 (Z.leb_le _ _)) by assumption. rewrite (proj2 (Z.ltb_ge _ _)) by lia. rewrite (proj2 (Z.ltb_ge _ _)) by lia. reflexivity.
    + rewrite (proj2 (Z.leb_gt _ _)) by lia. rewrite (proj2 (Z.ltb_ge _ _)) by lia. rewrite IH by exact Hs. reflexivity.
Qed.
Lemma sorted_snoc h x : sorted_by o_t (h ++ [x]) = ins_after x (sorted_by o_t h).
Proof.
  induction h as [|y h IH]; [reflexivity|]. cbn [app]. change (sorted_by o_t (y :: h ++ [x])) with (insert o_t y (sorted_by o_t (h ++ [x]))). rewrite IH. apply ins_comm, sorted_srt.
Qed.

Lemma insertion_spec l o : chain l -> okd o ->
  insertion_index l o = Ok (bisect_right l (o_t o)) /\ (forall b, In b l -> ~ overlap o b) \/ insertion_index l o = Err RuntimeError /\ exists b, In b l /\ overlap o b.
Proof.
  intros Hc Ho. pose proof (chain_srt l Hc) as Hs. destruct (bisect_split l (o_t o) Hs) as [H1 H2]. unfold insertion_index. destruct l as [|f l'] eqn:El.
  { left. split; [reflexivity|intros ? []]. }
  rewrite <- El in *. set (k := bisect_right l (o_t o)) in *. pose proof (firstn_skipn k l) as Hfs.
  assert (Hov : forall b, overlap o b <-> o_t b <= o_t o < o_end b \/ o_t o < o_t b < o_end o) by (intros; reflexivity).
  assert (Hcc : chain (firstn k l ++ skipn k l)) by (rewrite Hfs; exact Hc). apply chain_app in Hcc. destruct Hcc as (Hc1 & Hc2 & Hc12).
  assert (Hin : forall b, In b l <-> In b (firstn k l) \/ In b (skipn k l)) by (intros; rewrite <- in_app_iff, Hfs; reflexivity).
  (* the previous and the next offset *)
  assert (Hprev : (exists b, In b (firstn k l) /\ overlap o b) <-> match rev (firstn k l) with z :: _ => o_t o < o_end z | [] => False end).
  { destruct (rev (firstn k l)) as [|z q] eqn:Er.
    - apply (f_equal (@rev offs)) in Er. rewrite rev_involutive in Er. rewrite Er. split; [intros (b & [] & _)|intros []].
    - apply (f_equal (@rev offs)) in Er. rewrite rev_involutive in Er. cbn [rev] in Er. rewrite Er in *.
      assert (Hz : o_t z <= o_t o) by (apply (proj1 (Forall_forall _ _) H1 z), in_or_app; right; left; reflexivity).
      split.
      + intros (b & Hb & Hbo). apply Hov in Hbo. pose proof (proj1 (Forall_forall _ _) H1 b Hb) as Hbt. cbn beta in Hbt. destruct Hbo as [Hbo|Hbo]; [|lia].
        apply in_app_or in Hb. destruct Hb as [Hb|[<-|[]]]; [|lia]. apply chain_app in Hc1. destruct Hc1 as (_ & _ & Hc1). specialize (Hc1 b z Hb (or_introl eq_refl)). lia.
      + intros Hlt. exists z. split; [apply in_or_app; right; left; reflexivity|]. apply Hov. left. lia. }
  assert (Hnext : (exists b, In b (skipn k l) /\ overlap o b) <-> match skipn k l with z :: _ => o_t z < o_end o | [] => False end).
  { destruct (skipn k l) as [|z q] eqn:Er; [split; [intros (b & [] & _)|intros []]|]. inversion H2; subst. split.
    - intros (b & Hb & Hbo). apply Hov in Hbo. pose proof (proj1 (Forall_forall _ _) H2 b Hb) as Hbt. cbn beta in Hbt. destruct Hbo as [Hbo|Hbo]; [lia|].
      destruct Hb as [<-|Hb]; [lia|]. destruct Hc2 as (Hz & Hc2 & _). pose proof (proj1 (Forall_forall _ _) Hc2 b Hb) as Hzb. cbn beta in Hzb. pose proof (okd_end z Hz). lia.
    - intros Hlt. exists z. split; [left; reflexivity|]. apply Hov. right. lia. }
  assert (Hkl : (k <= List.length l)%nat) by (rewrite <- Hfs, app_length; rewrite firstn_length; pose proof (skipn_length k l); subst k; clear; induction l as [|a q IH]; cbn [bisect_right]; [lia|]; destruct (o_t o <? o_t a); cbn; lia).
  assert (Htest : match k with
        | O => o_t f <? o_end o
        | S prev =>
            if (k =? List.length l)%nat then match rev l with z :: _ => o_t o <? o_end z | [] => false end
            else match nth_error l k, nth_error l prev with
                 | Some n, Some p => (o_t n <? o_end o) || (o_t o <? o_end p)
                 | _, _ => false
                 end
        end = true <-> exists b, In b l /\ overlap o b).
  { transitivity ((exists b, In b (firstn k l) /\ overlap o b) \/ (exists b, In b (skipn k l) /\ overlap o b)).
    2:{ split; [intros [(b & Hb & Hbo)|(b & Hb & Hbo)]; exists b; (split; [apply Hin; auto|exact Hbo])|]. intros (b & Hb & Hbo). apply Hin in Hb. destruct Hb; [left|right]; exists b; auto. }
    rewrite Hprev, Hnext. destruct k as [|pv] eqn:Ek.
    - rewrite El. cbn [firstn rev skipn]. rewrite Z.ltb_lt. intuition.
    - destruct (Nat.eqb_spec (S pv) (List.length l)) as [Hl|Hl].
      + rewrite Hl. rewrite firstn_all, skipn_all. destruct (rev l) as [|z q]; [intuition congruence|]. rewrite Z.ltb_lt. intuition.
      + assert (Hp : exists p, nth_error l pv = Some p) by (destruct (nth_error l pv) eqn:E; [eauto|apply nth_error_None in E; lia]). destruct Hp as [p Hp].
        assert (Hn : exists z, nth_error l (S pv) = Some z) by (destruct (nth_error l (S pv)) eqn:E; [eauto|apply nth_error_None in E; lia]). destruct Hn as [z Hn].
        rewrite Hp, Hn. assert (Hr : rev (firstn (S pv) l) = p :: rev (firstn pv l)).
        { clear - Hp. revert pv Hp. induction l as [|a l IH]; intros [|pv] Hp; try discriminate; cbn in Hp; [injection Hp as ->; reflexivity|]. specialize (IH pv Hp).
          change (firstn (S (S pv)) (a :: l)) with (a :: firstn (S pv) l). cbn [rev]. rewrite IH. reflexivity. }
        assert (Hsk : exists q, skipn (S pv) l = z :: q).
        { clear - Hn. revert Hn. generalize (S pv). induction l as [|a l IH]; intros [|j] Hn; try discriminate; cbn in Hn; [injection Hn as ->; eexists; reflexivity|]. cbn [skipn]. apply IH, Hn. }
        destruct Hsk as [q Hsk]. rewrite Hr, Hsk. rewrite orb_true_iff, !Z.ltb_lt. tauto. }
  clearbody k.
  match goal with |- context [if ?t then Err RuntimeError else _] => destruct t eqn:Et end.
  - right. split; [reflexivity|]. apply Htest. reflexivity.
  - left. split; [reflexivity|]. intros b Hb Hbo. assert (Hx : exists b, In b l /\ overlap o b) by eauto. apply Htest in Hx. discriminate.
Qed.

Lemma add_offset_inv b v dur rel app m b' : add_voltage_offset b v dur rel app m = Ok b' ->
  let o := {| o_v := v; o_t := if app then rel + operation_end b else rel; o_dur := dur |} in
  (match dur with Some d => m <= d | None => True end) /\ exists i, insertion_index (offsets b) o = Ok i /\ b' = {| pulses := pulses b; offsets := insert_at i o (offsets b) |}.
Proof.
  unfold add_voltage_offset. destruct dur as [d|]; [destruct (d <? m) eqn:E; [discriminate|]; apply Z.ltb_ge in E|]; cbn zeta; cbv beta iota;
    (destruct (insertion_index _ _) as [i|e] eqn:Ei; cbn [bind]; [|discriminate]); intros H; injection H as <-; (split; [trivial|]); exists i; auto.
Qed.

Lemma chain_ins l o : chain l -> okd o -> (forall b, In b l -> ~ overlap o b) -> chain (insert_at (bisect_right l (o_t o)) o l).
Proof.
  intros Hc Ho Hn. destruct (bisect_split l (o_t o) (chain_srt l Hc)) as [H1 H2]. unfold insert_at. set (k := bisect_right l (o_t o)) in *.
  pose proof (firstn_skipn k l) as Hfs. assert (Hcc : chain (firstn k l ++ skipn k l)) by (rewrite Hfs; exact Hc). apply chain_app in Hcc. destruct Hcc as (Hc1 & Hc2 & Hc12).
  assert (Hin : forall b, In b (firstn k l) \/ In b (skipn k l) -> In b l) by (intros b Hb; rewrite <- Hfs; apply in_or_app; exact Hb).
  assert (Hnext : Forall (fun x => o_end o <= o_t x) (skipn k l)).
  { apply Forall_forall. intros x Hx. pose proof (proj1 (Forall_forall _ _) H2 x Hx) as Ht. cbn beta in Ht. assert (Hv := Hn x (Hin x (or_intror Hx))). unfold overlap in Hv. lia. }
  apply chain_app. split; [exact Hc1|]. split; [split; [exact Ho|]; split; [exact Hnext|exact Hc2]|].
  intros x y Hx [<-|Hy]; [|apply Hc12; assumption]. pose proof (proj1 (Forall_forall _ _) H1 x Hx) as Ht. cbn beta in Ht. assert (Hv := Hn x (Hin x (or_introl Hx))). unfold overlap in Hv. lia.
Qed.

Lemma reached_inv b h : reached b h -> chain (offsets b) /\ offsets b = sorted_by o_t h.
Proof.
  induction 1 as [|b h p app Hr IH Hd|b h v dur rel app m b' Hr IH Hm Ha]; [split; [exact I|reflexivity]|exact IH|].
  destruct IH as [Hc Hs]. apply add_offset_inv in Ha. cbn zeta in Ha. set (o := {| o_v := v; o_t := if app then rel + operation_end b else rel; o_dur := dur |}) in *.
  destruct Ha as (Hd & i & Hi & ->). cbn [offsets]. assert (Ho : okd o) by (unfold okd, o; cbn [o_dur]; destruct dur; [lia|exact I]).
  destruct (insertion_spec (offsets b) o Hc Ho) as [[H1 H2]|[H1 _]]; [|congruence]. rewrite H1 in Hi. injection Hi as <-. change (if app then rel + operation_end b else rel) with (o_t o). split; [apply chain_ins; assumption|].
  rewrite insert_at_after, sorted_snoc, <- Hs. reflexivity.
Qed.

(** ** C31, overlap: a call to add an offset raises RuntimeError exactly when the new offset overlaps in time with an offset added before, ValueError exactly when its duration is below the minimum, and otherwise is accepted *)
Theorem C31_overlap : forall (b : builder) (h : list offs) (v : V) (dur : option Z) (rel : Z) (app : bool) (m : Z), reached b h -> 0 <= m ->
  let o := {| o_v := v; o_t := if app then rel + operation_end b else rel; o_dur := dur |} in
  (exists d, dur = Some d /\ d < m) /\ add_voltage_offset b v dur rel app m = Err ValueError \/
  (forall d, dur = Some d -> m <= d) /\ (exists o', In o' h /\ overlap o o') /\ add_voltage_offset b v dur rel app m = Err RuntimeError \/
  (forall d, dur = Some d -> m <= d) /\ (forall o', In o' h -> ~ overlap o o') /\ exists b', add_voltage_offset b v dur rel app m = Ok b' /\ reached b' (h ++ [o]).
Proof.
  intros b h v dur rel app m Hr Hm o. destruct (reached_inv b h Hr) as [Hc Hs].
  assert (Hin : forall x, In x (offsets b) <-> In x h) by (intros; rewrite Hs; apply sorted_In).
  assert (Hd : (exists d, dur = Some d /\ d < m) \/ (forall d, dur = Some d -> m <= d)).
  { destruct dur as [d|]; [destruct (Z.lt_ge_cases d m); [left; eauto|right; intros ? [= <-]; assumption]|right; discriminate]. }
  destruct Hd as [Hd|Hd]; [left; split; [exact Hd|]; destruct Hd as (d & -> & Hd); unfold add_voltage_offset; rewrite (proj2 (Z.ltb_lt _ _) Hd); reflexivity|right].
  assert (Ho : okd o) by (unfold okd, o; cbn [o_dur]; destruct dur as [d|]; [specialize (Hd d eq_refl); lia|exact I]).
  assert (Ht : add_voltage_offset b v dur rel app m = do i <- insertion_index (offsets b) o; Ok {| pulses := pulses b; offsets := insert_at i o (offsets b) |}).
  { unfold add_voltage_offset. destruct dur as [d|]; [rewrite (proj2 (Z.ltb_ge _ _) (Hd d eq_refl))|]; reflexivity. }
  destruct (insertion_spec (offsets b) o Hc Ho) as [[H1 H2]|[H1 H2]]; [right|left].
  - split; [exact Hd|]. split; [intros o' Ho'; apply H2, Hin, Ho'|]. rewrite H1 in Ht. cbn [bind] in Ht. eexists. split; [exact Ht|]. eapply r_offset; eauto.
  - split; [exact Hd|]. split; [destruct H2 as (o' & Ho' & Hv); exists o'; split; [apply Hin, Ho'|exact Hv]|]. rewrite Ht, H1. reflexivity.
Qed.

(** ** The end of the operation *)
Lemma max_list_spec l : (forall x, In x l -> x <= max_list l) /\ (l = [] /\ max_list l = 0 \/ In (max_list l) l).
Proof.
  destruct l as [|a l]; cbn [max_list]; [split; [intros ? []|left; auto]|].
  assert (H : forall l a, (forall x, In x (a :: l) -> x <= fold_left Z.max l a) /\ In (fold_left Z.max l a) (a :: l)).
  { clear. induction l as [|y l IH]; intros a; cbn [fold_left]; [split; [intros x [<-|[]]; lia|left; reflexivity]|]. destruct (IH (Z.max a y)) as [H1 H2]. split.
    - intros x [<-|[<-|Hx]]; [pose proof (H1 _ (or_introl eq_refl)); lia|pose proof (H1 _ (or_introl eq_refl)); lia|apply H1; right; exact Hx].
    - destruct H2 as [H2|H2]; [|right; right; exact H2]. rewrite <- H2. destruct (Z.max_spec a y) as [[_ ->]|[_ ->]]; [right; left|left]; reflexivity. }
  destruct (H l a) as [H1 H2]. split; [exact H1|right; exact H2].
Qed.
Lemma chain_last l : chain l -> (forall o, In o l -> o_end o <= last_end l) /\ (l = [] /\ last_end l = 0 \/ exists o, In o l /\ last_end l = o_end o).
Proof.
  intros Hc. unfold last_end. destruct (rev l) as [|z q] eqn:Er; apply (f_equal (@rev offs)) in Er; rewrite rev_involutive in Er; subst l; cbn [rev] in *.
  - split; [intros ? []|left; auto].
  - split; [|right; exists z; split; [apply in_or_app; right; left; reflexivity|reflexivity]]. intros o Ho. apply in_app_or in Ho. destruct Ho as [Ho|[<-|[]]]; [|lia].
    apply chain_app in Hc. destruct Hc as (_ & (Hz & _) & Hc). specialize (Hc o z Ho (or_introl eq_refl)). pose proof (okd_end z Hz). lia.
Qed.
(** the end of the operation is the largest end of its parts (0 for an absent kind of part) *)
Theorem C31_operation_end : forall b h, reached b h ->
  (forall p, In p (pulses b) -> b_t p + b_dur p <= operation_end b) /\ (forall o, In o h -> o_end o <= operation_end b) /\
  ((exists p, In p (pulses b) /\ operation_end b = b_t p + b_dur p) \/ (exists o, In o h /\ operation_end b = o_end o) \/ (pulses b = [] \/ h = []) /\ operation_end b = 0).
Proof.
  intros b h Hr. destruct (reached_inv b h Hr) as [Hc Hs].
  assert (Hin : forall x, In x (offsets b) <-> In x h) by (intros; rewrite Hs; apply sorted_In).
  destruct (max_list_spec (map (fun p => b_t p + b_dur p) (pulses b))) as [H1 H2]. destruct (chain_last _ Hc) as [H3 H4]. unfold operation_end. split; [|split].
  - intros p Hp. apply (in_map (fun p => b_t p + b_dur p)) in Hp. specialize (H1 _ Hp). cbn beta in *. lia.
  - intros o Ho. apply Hin in Ho. specialize (H3 _ Ho). lia.
  - destruct (Z.max_spec (max_list (map (fun p => b_t p + b_dur p) (pulses b))) (last_end (offsets b))) as [[_ E]|[_ E]]; rewrite E.
    + destruct H4 as [[H4 H5]|(o & Ho & H5)]; [right; right|right; left].
      * split; [right|exact H5]. destruct h as [|x h]; [reflexivity|]. exfalso. specialize (proj2 (Hin x) (or_introl eq_refl)). rewrite H4. intros [].
      * exists o. split; [apply Hin, Ho|exact H5].
    + destruct H2 as [[H2 H5]|H2]; [right; right; split; [left|exact H5]|left].
      * destruct (pulses b); [reflexivity|discriminate].
      * apply in_map_iff in H2. destruct H2 as (p & H2 & Hp). exists p. auto.
Qed.

(** ** The built offset instructions *)
Definition val (n : Z) (cur : V) (ops : list (Z * V)) : V := fold_left (fun v '(t, w) => if t <=? n then w else v) ops cur.
Lemma val_later n cur ops : Forall (fun x => n < fst x) ops -> val n cur ops = cur.
Proof. unfold val. induction ops as [|[t w] r IH]; cbn [fold_left]; [reflexivity|]. intros H. inversion H as [|? ? Ht Hr]; subst. cbn [fst] in Ht. rewrite (proj2 (Z.leb_gt _ _)) by exact Ht. apply IH, Hr. Qed.
Lemma val_app n cur a b : val n cur (a ++ b) = val n (val n cur a) b. Proof. apply fold_left_app. Qed.
Lemma val_cons n cur t w r : val n cur ((t, w) :: r) = val n (if t <=? n then w else cur) r. Proof. reflexivity. Qed.

Lemma bl_none op_end bg o r : o_dur o = None -> build_loop op_end bg (o :: r) = ((o_t o, o_v o) :: fst (build_loop op_end (o_v o) r), snd (build_loop op_end (o_v o) r)).
Proof. intros H. cbn [build_loop]. rewrite H. destruct (build_loop op_end (o_v o) r). reflexivity. Qed.
Lemma bl_some op_end bg o r d : o_dur o = Some d -> build_loop op_end bg (o :: r) =
  let bg' := if o_t o + d =? op_end then v0 else bg in
  ((o_t o, o_v o) :: match r with n :: _ => if o_t n =? o_t o + d then [] else [(o_t o + d, bg')] | [] => [(o_t o + d, bg')] end ++ fst (build_loop op_end bg' r), snd (build_loop op_end bg' r)).
Proof. intros H. cbn [build_loop]. rewrite H. destruct (build_loop op_end _ r). reflexivity. Qed.

Lemma bl_times op_end : forall l bg u, chain l -> Forall (fun o => u <= o_t o) l -> Forall (fun x => u <= fst x) (fst (build_loop op_end bg l)) /\ srt fst (fst (build_loop op_end bg l)).
Proof.
  induction l as [|o l IH]; intros bg u Hc Hu; [split; constructor|]. inversion Hu as [|? ? Hu1 Hu2]; subst. destruct Hc as (Ho & Hf & Hc). destruct (o_dur o) as [d|] eqn:Ed.
  - rewrite (bl_some op_end bg o l d Ed). cbn zeta. set (bg' := if o_t o + d =? op_end then v0 else bg). cbn [fst].
    assert (Ee : o_end o = o_t o + d) by (unfold o_end; rewrite Ed; reflexivity). assert (Hd : 0 <= d) by (unfold okd in Ho; rewrite Ed in Ho; exact Ho). rewrite Ee in Hf.
    destruct (IH bg' (o_t o + d) Hc Hf) as [H1 H2].
    set (rs := match l with n :: _ => if o_t n =? o_t o + d then [] else [(o_t o + d, bg')] | [] => [(o_t o + d, bg')] end).
    assert (Hrs : rs = [] \/ rs = [(o_t o + d, bg')]) by (unfold rs; destruct l as [|q l']; [right; reflexivity|]; destruct (o_t q =? _); [left|right]; reflexivity).
    assert (Hall : Forall (fun x => o_t o + d <= fst x) (rs ++ fst (build_loop op_end bg' l))).
    { apply Forall_app. split; [|exact H1]. destruct Hrs as [-> | ->]; repeat constructor. cbn [fst]. lia. }
    split.
    + constructor; [exact Hu1|]. eapply Forall_impl; [|exact Hall]. cbn beta. intros; lia.
    + split; [eapply Forall_impl; [|exact Hall]; cbn [fst]; intros; lia|]. destruct Hrs as [-> | ->]; cbn [app]; [exact H2|]. split; [exact H1|exact H2].
  - rewrite (bl_none op_end bg o l Ed). cbn [fst]. assert (Ee : o_end o = o_t o) by (unfold o_end; rewrite Ed; lia). rewrite Ee in Hf.
    destruct (IH (o_v o) (o_t o) Hc Hf) as [H1 H2]. split; [constructor; [exact Hu1|]; eapply Forall_impl; [|exact H1]; cbn beta; intros; lia|]. split; [exact H1|exact H2].
Qed.
Lemma bl_upper op_end : forall l bg, chain l -> Forall (fun o => o_end o <= op_end) l -> Forall (fun x => fst x <= op_end) (fst (build_loop op_end bg l)).
Proof.
  induction l as [|o l IH]; intros bg Hc Hu; [constructor|]. inversion Hu as [|? ? Hu1 Hu2]; subst. destruct Hc as (Ho & Hf & Hc). pose proof (okd_end o Ho). destruct (o_dur o) as [d|] eqn:Ed.
  - rewrite (bl_some op_end bg o l d Ed). cbn zeta. set (bg' := if o_t o + d =? op_end then v0 else bg). cbn [fst].
    assert (Ee : o_end o = o_t o + d) by (unfold o_end; rewrite Ed; reflexivity).
    constructor; [cbn [fst]; lia|]. apply Forall_app. split; [|apply IH; assumption]. destruct l as [|q l']; [constructor; [cbn [fst]; lia|constructor]|]. destruct (o_t q =? _); [constructor|constructor; [cbn [fst]; lia|constructor]].
  - rewrite (bl_none op_end bg o l Ed). cbn [fst]. constructor; [cbn [fst]; lia|apply IH; assumption].
Qed.

(** the offset before the end of the operation *)
Fixpoint off_spec (n : Z) (bg : V) (l : list offs) : V :=
  match l with
  | [] => bg
  | o :: r => if n <? o_t o then bg else match o_dur o with None => off_spec n (o_v o) r | Some d => if n <? o_t o + d then o_v o else off_spec n bg r end
  end.
Lemma bl_head op_end bg o l : exists r, fst (build_loop op_end bg (o :: l)) = (o_t o, o_v o) :: r.
Proof. destruct (o_dur o) as [d|] eqn:Ed; [rewrite (bl_some _ _ _ _ _ Ed)|rewrite (bl_none _ _ _ _ Ed)]; eexists; reflexivity. Qed.
Lemma off_spec_before n bg o r : n < o_t o -> off_spec n bg (o :: r) = bg.
Proof. intros H. cbn [off_spec]. rewrite (proj2 (Z.ltb_lt _ _) H). reflexivity. Qed.
Lemma bl_val op_end n : n < op_end -> forall l bg, chain l -> val n bg (fst (build_loop op_end bg l)) = off_spec n bg l.
Proof.
  intros Hn. induction l as [|o l IH]; intros bg Hc; [reflexivity|]. destruct (Z.ltb_spec n (o_t o)) as [Hlt|Hge].
  { rewrite off_spec_before by exact Hlt. apply val_later.
    destruct (bl_times op_end (o :: l) bg (o_t o) Hc) as [H1 _]; [constructor; [lia|]; destruct Hc as (Ho & Hf & _); eapply Forall_impl; [|exact Hf]; cbn beta; intros; pose proof (okd_end o Ho); lia|].
    eapply Forall_impl; [|exact H1]. cbn beta. intros; lia. }
  destruct Hc as (Ho & Hf & Hc). cbn [off_spec]. rewrite (proj2 (Z.ltb_ge _ _) Hge). destruct (o_dur o) as [d|] eqn:Ed.
  - rewrite (bl_some op_end bg o l d Ed). cbn zeta. set (bg' := if o_t o + d =? op_end then v0 else bg). cbn [fst]. rewrite val_cons, (proj2 (Z.leb_le _ _) Hge).
    assert (Ee : o_end o = o_t o + d) by (unfold o_end; rewrite Ed; reflexivity). rewrite Ee in Hf.
    set (rs := match l with n :: _ => if o_t n =? o_t o + d then [] else [(o_t o + d, bg')] | [] => [(o_t o + d, bg')] end).
    assert (Hrs : rs = [] /\ (exists q l', l = q :: l' /\ o_t q = o_t o + d) \/ rs = [(o_t o + d, bg')]).
    { unfold rs; destruct l as [|q l']; [right; reflexivity|]; destruct (o_t q =? _) eqn:E; [|right; reflexivity]. apply Z.eqb_eq in E. left. split; [reflexivity|eauto]. }
    destruct (Z.ltb_spec n (o_t o + d)) as [Hlt|Hge2].
    + apply val_later. apply Forall_app. split; [destruct Hrs as [[-> _]| ->]; repeat constructor; cbn [fst]; exact Hlt|].
      destruct (bl_times op_end l bg' (o_t o + d) Hc Hf) as [H1 _]. eapply Forall_impl; [|exact H1]. cbn beta. intros; lia.
    + assert (Ebg : bg' = bg) by (unfold bg'; destruct (_ =? _) eqn:E; [apply Z.eqb_eq in E; lia|reflexivity]). rewrite Ebg in *. rewrite <- IH by exact Hc.
      destruct Hrs as [[-> (q & l' & -> & Hq)]| ->]; cbn [app].
      * destruct (bl_head op_end bg q l') as [r Hr]. rewrite Hr, !val_cons. rewrite (proj2 (Z.leb_le _ _)) by lia. reflexivity.
      * rewrite val_cons, (proj2 (Z.leb_le _ _)) by lia. reflexivity.
  - rewrite (bl_none op_end bg o l Ed). cbn [fst]. rewrite val_cons, (proj2 (Z.leb_le _ _) Hge). apply IH, Hc.
Qed.

(** after the last of the instructions the offset is the background, which is zero or reset *)
Lemma bl_end op_end n : forall l bg, chain l -> Forall (fun o => o_end o <= n) l -> val n bg (fst (build_loop op_end bg l)) = snd (build_loop op_end bg l).
Proof.
  induction l as [|o l IH]; intros bg Hc Hu; [reflexivity|]. inversion Hu as [|? ? Hu1 Hu2]; subst. destruct Hc as (Ho & Hf & Hc). pose proof (okd_end o Ho) as Hle. destruct (o_dur o) as [d|] eqn:Ed.
  - rewrite (bl_some op_end bg o l d Ed). cbn zeta. set (bg' := if o_t o + d =? op_end then v0 else bg). cbn [fst snd].
    assert (Ee : o_end o = o_t o + d) by (unfold o_end; rewrite Ed; reflexivity). rewrite Ee in *. rewrite <- (IH bg' Hc Hu2). rewrite val_cons.
    destruct l as [|q l']; [cbn [app]; rewrite val_cons, (proj2 (Z.leb_le (o_t o + d) n)) by lia; reflexivity|]. destruct (_ =? o_t o + d) eqn:E.
    + apply Z.eqb_eq in E. destruct (bl_head op_end bg' q l') as [r Hr]. cbn [app]. rewrite Hr, !val_cons. rewrite (proj2 (Z.leb_le (o_t q) n)) by lia. reflexivity.
    + cbn [app]. rewrite val_cons, (proj2 (Z.leb_le (o_t o + d) n)) by lia. reflexivity.
  - rewrite (bl_none op_end bg o l Ed). cbn [fst snd]. rewrite val_cons, (proj2 (Z.leb_le _ _)) by lia. apply IH; assumption.
Qed.
Lemma isclose_0 a : isclose a 0 = true <-> (a == 0)%Q.
Proof.
  unfold isclose. rewrite Qle_bool_iff. assert (Hz : (a - 0 == a)%Q) by ring. rewrite Hz. change (Qabs 0) with 0%Q. pose proof (Qabs_nonneg a) as Hp.
  rewrite Q.max_l by exact Hp. split.
  - intros H. assert (Qabs a == 0)%Q by lra. destruct (Qlt_le_dec a 0) as [Hn|Hn]; [rewrite Qabs_neg in H0 by lra; lra|rewrite Qabs_pos in H0 by exact Hn; exact H0].
  - intros ->. cbn. lra.
Qed.

Lemma offset_at_build b h t0 n : reached b h -> offset_at (s_offs (build b t0)) (t0 + n) = val n v0 (build_offsets b).
Proof.
  intros Hr. destruct (reached_inv b h Hr) as [Hc _]. unfold offset_at, build. cbn [s_offs].
  assert (Hsrt : srt fst (build_offsets b)).
  { unfold build_offsets. destruct (chain_last _ Hc) as [Hl _]. assert (Hu : Forall (fun o => o_end o <= operation_end b) (offsets b)).
    { apply Forall_forall. intros o Ho. specialize (Hl o Ho). unfold operation_end. lia. }
    pose proof (bl_upper (operation_end b) _ v0 Hc Hu) as Hup. set (L := offsets b) in *.
    assert (Hs : srt fst (fst (build_loop (operation_end b) v0 L))).
    { destruct L as [|o r]; [exact I|]. apply (bl_times (operation_end b) (o :: r) v0 (o_t o) Hc). constructor; [lia|]. destruct Hc as (Ho & Hf & _). eapply Forall_impl; [|exact Hf]. cbn beta. intros; pose proof (okd_end o Ho); lia. }
    destruct (build_loop (operation_end b) v0 L) as [ops bg]. cbn [fst] in *. destruct (_ && _); [rewrite app_nil_r; exact Hs|].
    clear - Hs Hup. induction ops as [|x r IH]; cbn [app srt]; [repeat constructor|]. destruct Hs as [H1 H2]. inversion Hup; subst. split; [|apply IH; assumption].
    apply Forall_app. split; [exact H1|]. repeat constructor. cbn [fst]. assumption. }
  assert (Hm : srt fst (map (fun '(t, v) => (t + t0, v)) (build_offsets b))).
  { clear - Hsrt. induction (build_offsets b) as [|[t v] r IH]; [exact I|]. destruct Hsrt as [H1 H2]. split; [|apply IH, H2].
    apply Forall_forall. intros y Hy. apply in_map_iff in Hy. destruct Hy as ([t' v'] & <- & Hy). apply (proj1 (Forall_forall _ _) H1) in Hy. cbn [fst] in *. lia. }
  rewrite (sorted_id _ _ Hm). unfold val. clear. generalize v0. induction (build_offsets b) as [|[t v] r IH]; intros c; [reflexivity|]. cbn [map fold_left].
  rewrite IH. destruct (Z.leb_spec (t + t0) (t0 + n)), (Z.leb_spec t n); try lia; reflexivity.
Qed.

Lemma off_spec_cover n l : forall bg o, chain l -> In o l -> covers o n -> off_spec n bg l = o_v o.
Proof.
  induction l as [|x l IH]; intros bg o Hc Hin Hcov; [destruct Hin|]. destruct Hc as (Hx & Hf & Hc). destruct Hcov as (d & Hd & Hn). cbn [off_spec]. destruct Hin as [->|Hin].
  - rewrite (proj2 (Z.ltb_ge _ _)) by lia. rewrite Hd. rewrite (proj2 (Z.ltb_lt _ _)) by lia. reflexivity.
  - pose proof (proj1 (Forall_forall _ _) Hf o Hin) as Hox. cbn beta in Hox. pose proof (okd_end x Hx). rewrite (proj2 (Z.ltb_ge _ _)) by lia. unfold o_end in *. destruct (o_dur x) as [dx|].
    + rewrite (proj2 (Z.ltb_ge _ _)) by lia. apply IH; [exact Hc|exact Hin|exists d; auto].
    + apply IH; [exact Hc|exact Hin|exists d; auto].
Qed.
Lemma off_spec_none n l : forall bg, chain l -> (forall o, In o l -> ~ covers o n) ->
  off_spec n bg l = last (map o_v (filter (fun o => match o_dur o with None => o_t o <=? n | Some _ => false end) l)) bg.
Proof.
  assert (Hno : forall l, Forall (fun o => n < o_t o) l -> filter (fun o => match o_dur o with None => o_t o <=? n | Some _ => false end) l = []).
  { clear. induction 1 as [|o l Ho Hf IH]; [reflexivity|]. cbn [filter]. destruct (o_dur o); [exact IH|]. rewrite (proj2 (Z.leb_gt _ _) Ho). exact IH. }
  induction l as [|x l IH]; intros bg Hc Hno'; [reflexivity|]. pose proof (chain_srt _ Hc) as Hs. destruct Hc as (Hx & Hf & Hc). cbn [off_spec]. destruct (Z.ltb_spec n (o_t x)) as [Hlt|Hge].
  - rewrite Hno; [reflexivity|]. constructor; [exact Hlt|]. destruct Hs as [Hs _]. eapply Forall_impl; [|exact Hs]. cbn beta. intros; lia.
  - cbn [filter]. destruct (o_dur x) as [d|] eqn:Ed.
    + assert (Hnc := Hno' x (or_introl eq_refl)). rewrite (proj2 (Z.ltb_ge _ _)); [apply IH; [exact Hc|intros; apply Hno'; right; assumption]|].
      destruct (Z.lt_ge_cases n (o_t x + d)) as [H|H]; [exfalso; apply Hnc; exists d; auto|exact H].
    + rewrite (proj2 (Z.leb_le _ _) Hge). rewrite IH; [|exact Hc|intros; apply Hno'; right; assumption]. cbn [map]. destruct (map o_v _) as [|v r]; [reflexivity|].
      cbn [last]. clear. revert v. induction r as [|w r IH]; intros v; [reflexivity|]. cbn [last] in *. apply IH.
Qed.

(** the last of the stable sort *)
Lemma sorted_by_last (l1 l2 : list offs) e : (forall x, In x l1 -> o_t x <= o_t e) -> (forall x, In x l2 -> o_t x < o_t e) -> exists l, sorted_by o_t (l1 ++ e :: l2) = l ++ [e].
Proof.
  intros H1 H2. induction l1 as [|x l1 IH]; cbn [app].
  - exists (sorted_by o_t l2). change (sorted_by o_t (e :: l2)) with (insert o_t e (sorted_by o_t l2)). assert (H : forall x, In x (sorted_by o_t l2) -> o_t x < o_t e) by (intros x Hx; apply H2; apply sorted_In in Hx; exact Hx).
    induction (sorted_by o_t l2) as [|y r IH]; [reflexivity|]. cbn [insert app]. rewrite (proj2 (Z.leb_gt _ _)) by (apply H; left; reflexivity). rewrite IH; [reflexivity|]. intros; apply H; right; assumption.
  - destruct IH as [l Hl]; [intros; apply H1; right; assumption|]. change (sorted_by o_t (x :: l1 ++ e :: l2)) with (insert o_t x (sorted_by o_t (l1 ++ e :: l2))). rewrite Hl.
    assert (Hx : o_t x <= o_t e) by (apply H1; left; reflexivity). clear - Hx. induction l as [|y r IH]; cbn [insert app].
    + rewrite (proj2 (Z.leb_le _ _) Hx). exists [x]. reflexivity.
    + destruct (o_t x <=? o_t y); [exists (x :: y :: r); reflexivity|]. destruct IH as [r' Hr']. rewrite Hr'. exists (y :: r'). reflexivity.
Qed.

(** ** C31, builder: for every history of builder calls, the offset at every time. From the end of the operation on it is zero; before the end it is the value of the offset with a duration that covers
    that time, otherwise that of the offset without a duration set latest (of several at the same time, the one added last), otherwise zero. *)
Theorem C31_builder : forall b h t0 n, reached b h ->
  let value := offset_at (s_offs (build b t0)) (t0 + n) in
  (operation_end b <= n -> veq value v0) /\
  (n < operation_end b -> forall o, In o h -> covers o n -> value = o_v o) /\
  (n < operation_end b -> (forall o, In o h -> ~ covers o n) -> forall h1 o h2, h = h1 ++ o :: h2 -> holds_until_end o n ->
     (forall o', In o' h1 -> holds_until_end o' n -> o_t o' <= o_t o) -> (forall o', In o' h2 -> holds_until_end o' n -> o_t o' < o_t o) -> value = o_v o) /\
  (n < operation_end b -> (forall o, In o h -> ~ covers o n) -> (forall o, In o h -> ~ holds_until_end o n) -> value = v0).
Proof.
  intros b h t0 n Hr value. unfold value. rewrite (offset_at_build b h t0 n Hr). destruct (reached_inv b h Hr) as [Hc Hs].
  destruct (chain_last _ Hc) as [Hl _]. assert (Hu : Forall (fun o => o_end o <= operation_end b) (offsets b)) by (apply Forall_forall; intros o Ho; specialize (Hl o Ho); unfold operation_end; lia).
  assert (Hin : forall x, In x (offsets b) <-> In x h) by (intros; rewrite Hs; apply sorted_In).
  assert (Hbefore : n < operation_end b -> val n v0 (build_offsets b) = off_spec n v0 (offsets b)).
  { intros Hn. rewrite <- (bl_val (operation_end b) n Hn (offsets b) v0 Hc). unfold build_offsets. destruct (build_loop _ _ _) as [ops bg]. cbn [fst]. destruct (_ && _); [rewrite app_nil_r; reflexivity|].
    rewrite val_app, val_cons. rewrite (proj2 (Z.leb_gt _ _)) by exact Hn. reflexivity. }
  assert (Hnone : n < operation_end b -> (forall o, In o h -> ~ covers o n) -> val n v0 (build_offsets b) =
     last (map o_v (sorted_by o_t (filter (fun o => match o_dur o with None => o_t o <=? n | Some _ => false end) h))) v0).
  { intros Hn Hnc. rewrite (Hbefore Hn), off_spec_none by (first [exact Hc|intros o Ho; apply Hnc, Hin, Ho]). rewrite sorted_filter, <- Hs. reflexivity. }
  split; [|split; [|split]].
  - intros Hn. unfold build_offsets. assert (Hu' : Forall (fun o => o_end o <= n) (offsets b)) by (eapply Forall_impl; [|exact Hu]; cbn beta; intros; lia).
    pose proof (bl_end (operation_end b) n (offsets b) v0 Hc Hu') as He. destruct (build_loop _ _ _) as [ops bg]. cbn [fst snd] in He. destruct (isclose (fst bg) 0 && isclose (snd bg) 0) eqn:E.
    + rewrite app_nil_r, He. apply andb_true_iff in E. rewrite !isclose_0 in E. exact E.
    + rewrite val_app, val_cons, (proj2 (Z.leb_le _ _) Hn). split; reflexivity.
  - intros Hn o Ho Hcov. rewrite (Hbefore Hn). apply off_spec_cover; [exact Hc|apply Hin, Ho|exact Hcov].
  - intros Hn Hnc h1 o h2 -> [Ho1 Ho2] H1 H2. rewrite (Hnone Hn Hnc). set (f := fun o => match o_dur o with None => o_t o <=? n | Some _ => false end) in *.
    assert (Hf : forall x, f x = true <-> holds_until_end x n) by (intros x; unfold f, holds_until_end; destruct (o_dur x); [split; [discriminate|intros [? _]; discriminate]|rewrite Z.leb_le; tauto]).
    rewrite filter_app. cbn [filter]. rewrite (proj2 (Hf o)) by (split; assumption). destruct (sorted_by_last (filter f h1) (filter f h2) o) as [l Hsl].
    + intros x Hx. apply filter_In in Hx. destruct Hx as [Hx Hxf]. apply H1; [exact Hx|apply Hf, Hxf].
    + intros x Hx. apply filter_In in Hx. destruct Hx as [Hx Hxf]. apply H2; [exact Hx|apply Hf, Hxf].
    + rewrite Hsl, map_app. cbn [map]. rewrite last_last. reflexivity.
  - intros Hn Hnc Hnh. rewrite (Hnone Hn Hnc). set (f := fun o => match o_dur o with None => o_t o <=? n | Some _ => false end).
    assert (E : filter f h = []); [|rewrite E; reflexivity]. clear - Hnh. induction h as [|x h IH]; [reflexivity|]. cbn [filter]. destruct (f x) eqn:E; [|apply IH; intros; apply Hnh; right; assumption].
    exfalso. apply (Hnh x (or_introl eq_refl)). unfold f in E. unfold holds_until_end. destruct (o_dur x); [discriminate|]. split; [reflexivity|apply Z.leb_le, E].
Qed.
