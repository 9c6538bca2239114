(** C29: the RF switch is on during every microwave pulse. *)
From Verif Require Import Base QSort RfModel.
Open Scope Q_scope.

(** ** Specification: what is executed, with loops unrolled and conditions met. *)
Fixpoint plays (o : op) (t : Q) : list (Q * pinfo) :=
  match o with
  | OPulses l => map (fun p => (t + p_t0 p, p)) l
  | OSched l => flat_map (fun '(u, x) => plays x (t + u)) l
  | OLoop n period b => (fix go (n : nat) (t : Q) := match n with O => [] | S m => plays b t ++ go m (t + period) end) n t
  | OCond b => plays b t
  end.
(** A microwave pulse with a waveform plays on port-clock [pc] during [s, e]. *)
Definition pulse_during (root : list (Q * op)) (pc : string * string) (s e : Q) : Prop :=
  exists p, In (s, p) (plays (OSched root) 0) /\ pc = (p_port p, p_clock p) /\ is_mw (p_port p) = true /\ p_marker p = false /\ p_wf p = true
            /\ 0 < p_dur p /\ e = s + p_dur p.
(** [ev] is a voltage offset of [pc], set to non-zero or to zero. *)
Definition sets_offset (pc : string * string) (on : bool) (ev : Q * pinfo) : Prop :=
  let p := snd ev in pc = (p_port p, p_clock p) /\ is_mw (p_port p) = true /\ p_marker p = false /\ p_wf p = false /\ p_dur p == 0
  /\ (if on then ~ (p_offI p == 0 /\ p_offQ p == 0) else p_offI p == 0 /\ p_offQ p == 0).
(** The last voltage offset of [pc] executed at or before [x] is non-zero (at equal times the later one in the schedule counts). *)
Definition offset_on (root : list (Q * op)) (pc : string * string) (x : Q) : Prop :=
  exists l1 ev l2, plays (OSched root) 0 = l1 ++ ev :: l2 /\ sets_offset pc true ev /\ fst ev <= x
    /\ (forall e b, In e l1 -> sets_offset pc b e -> fst e <= x -> fst e <= fst ev)
    /\ (forall e b, In e l2 -> sets_offset pc b e -> fst e <= x -> fst e < fst ev).
Definition zero_offset_after (root : list (Q * op)) (pc : string * string) (x : Q) : Prop :=
  exists ev, In ev (plays (OSched root) 0) /\ sets_offset pc false ev /\ x < fst ev.
(** The RF switch of [pc] is on during [a, b]. *)
Definition switch_on (root : list (Q * op)) (pc : string * string) (a b : Q) : Prop :=
  exists s p, In (s, p) (plays (OSched root) 0) /\ p_marker p = true /\ pc = (p_port p, p_clock p) /\ s <= a /\ b <= s + p_dur p.

(** No control flow that the pass overlooks: loops run once and control-flow bodies are schedules. *)
Definition is_sched (o : op) : Prop := match o with OSched _ => True | _ => False end.
Fixpoint plain (o : op) : Prop :=
  match o with
  | OPulses _ => True
  | OSched l => fold_right (fun '(_, x) P => plain x /\ P) True l
  | OLoop n _ b => n = 1%nat /\ is_sched b /\ plain b
  | OCond b => is_sched b /\ plain b
  end.

(** ** Proofs *)
Lemma op_ind2 (P : op -> Prop) : (forall l, P (OPulses l)) -> (forall l, Forall (fun '(_, x) => P x) l -> P (OSched l)) ->
  (forall n q b, P b -> P (OLoop n q b)) -> (forall b, P b -> P (OCond b)) -> forall o, P o.
Proof.
  intros H1 H2 H3 H4. fix IH 1. intros [l|l|n q b|b]; [apply H1| |apply H3, IH|apply H4, IH].
  apply H2. induction l as [|[t x] l IHl]; constructor; [apply IH|exact IHl].
Qed.

Definition info_at (e : Q * pinfo) : list mwp * list vo :=
  let p := snd e in
  if negb (is_mw (p_port p)) then ([], []) else if p_marker p then ([], [])
  else if negb (p_wf p) then
      if Qeq_bool (p_dur p) 0 then ([], [{| v_time := fst e; v_pc := (p_port p, p_clock p); v_on := negb (Qeq_bool (p_offI p) 0 && Qeq_bool (p_offQ p) 0) |}])
      else ([], [])
    else if Qlt_bool 0 (p_dur p) then ([{| m_time := fst e; m_dur := p_dur p; m_pc := (p_port p, p_clock p) |}], [])
    else ([], []).
Lemma flat_map_map {A B C} (f : B -> list C) (g : A -> B) l : flat_map f (map g l) = flat_map (fun x => f (g x)) l.
Proof. induction l; cbn; [reflexivity|]. rewrite IHl. reflexivity. Qed.
Lemma flat_map_flat {A B C} (f : B -> list C) (g : A -> list B) l : flat_map f (flat_map g l) = flat_map (fun x => flat_map f (g x)) l.
Proof. induction l; cbn; [reflexivity|]. rewrite flat_map_app, IHl. reflexivity. Qed.

Lemma collect_plays : forall o t, plain o -> collect o t = join (map info_at (plays o t)).
Proof.
  induction o as [l|l IH|n q b IH|b IH] using op_ind2; intros t Hp.
  - cbn [collect plays]. rewrite map_map. reflexivity.
  - cbn [collect plays]. unfold join. f_equal; rewrite !flat_map_map, flat_map_flat; cbn [plain] in Hp;
      (induction l as [|[u x] l IHl]; [reflexivity|]; cbn [flat_map]; inversion IH as [|? ? Hx Hl]; subst; destruct Hp as [Hp1 Hp2]; f_equal; [|apply IHl; assumption];
       rewrite (Hx (t + u) Hp1); unfold join; cbn [fst snd]; rewrite flat_map_map; reflexivity).
  - destruct Hp as [-> [Hs Hp]]. destruct b as [|l| |]; try contradiction. cbn [plays]. rewrite app_nil_r. apply (IH t Hp).
  - destruct Hp as [Hs Hp]. destruct b as [|l| |]; try contradiction. apply (IH t Hp).
Qed.

Lemma pc_eqb_iff a b : pc_eqb a b = true <-> a = b.
Proof. unfold pc_eqb. rewrite andb_true_iff, !String.eqb_eq. destruct a, b; cbn. split; [intros [-> ->]; reflexivity|intros H; inversion H; auto]. Qed.
Lemma distinct_In l k : In k (distinct l) <-> In k l.
Proof.
  induction l as [|x l IH]; [reflexivity|]. cbn. rewrite filter_In, IH. split; [tauto|]. intros [->|H]; [auto|].
  destruct (pc_eqb x k) eqn:E; [apply pc_eqb_iff in E; auto|auto].
Qed.
Lemma distinct_NoDup l : NoDup (distinct l).
Proof.
  induction l as [|x l IH]; [constructor|]. cbn. constructor; [|apply NoDup_filter, IH].
  intros H. apply filter_In in H. destruct H as [_ H]. destruct (pc_eqb x x) eqn:E; [discriminate|]. assert (pc_eqb x x = true) by (apply pc_eqb_iff; reflexivity). congruence.
Qed.
Lemma group_In {A} (pc : A -> string * string) l k g : In (k, g) (group pc l) <-> In k (map pc l) /\ g = filter (fun x => pc_eqb k (pc x)) l.
Proof.
  unfold group. rewrite in_map_iff. split.
  - intros [k' [H Hi]]. inversion H; subst. rewrite distinct_In in Hi. auto.
  - intros [H ->]. exists k. rewrite distinct_In. auto.
Qed.

(** windows *)
Definition covers (ws : list (Q * Q)) (a b : Q) : Prop := exists w, In w ws /\ fst w <= a /\ b <= snd w.
Lemma merge_covers_cur ramp : forall l cs ce, covers (merge ramp cs ce l) cs ce.
Proof.
  induction l as [|p l IH]; intros cs ce; cbn [merge]; [exists (cs, ce); cbn; repeat split; auto; lra|].
  destruct (Qle_bool _ _).
  - destruct (IH cs (Qmax ce (m_end p))) as [w [H1 [H2 H3]]]. exists w. split; [exact H1|]. split; [exact H2|]. eapply Qle_trans; [apply Q.le_max_l|exact H3].
  - exists (cs, ce). cbn. repeat split; auto; lra.
Qed.
Lemma merge_covers ramp : forall l cs ce p, srtq m_time l -> Forall (fun p => cs <= m_time p) l -> In p l -> covers (merge ramp cs ce l) (m_time p) (m_end p).
Proof.
  induction l as [|q l IH]; intros cs ce p Hs Hc Hi; [destruct Hi|]. cbn [merge srtq] in *. destruct Hs as [Hs1 Hs2]. inversion Hc as [|? ? Hc1 Hc2]; subst.
  destruct (Qle_bool _ _).
  - destruct Hi as [->|Hi]; [|apply IH; assumption]. destruct (merge_covers_cur ramp l cs (Qmax ce (m_end p))) as [w [H1 [H2 H3]]].
    exists w. split; [exact H1|]. split; [lra|]. eapply Qle_trans; [apply Q.le_max_r|exact H3].
  - destruct Hi as [->|Hi].
    + destruct (merge_covers_cur ramp l (m_time p) (m_end p)) as [w [H1 H2]]. exists w. split; [right; exact H1|exact H2].
    + destruct (IH (m_time q) (m_end q) p Hs2 Hs1 Hi) as [w [H1 H2]]. exists w. split; [right; exact H1|exact H2].
Qed.
Lemma windows_cover ramp l p : srtq m_time l -> In p l -> covers (windows ramp l) (m_time p) (m_end p).
Proof.
  destruct l as [|q l]; [intros _ []|]. intros [H1 H2] [->|Hi]; cbn [windows]; [apply merge_covers_cur|apply merge_covers; assumption].
Qed.
Lemma merge_first ramp : forall l cs ce, exists e ws, merge ramp cs ce l = (cs, e) :: ws.
Proof. induction l as [|p l IH]; intros cs ce; cbn [merge]; [eauto|]. destruct (Qle_bool _ _); [apply IH|eauto]. Qed.
Definition apart (ramp : Q) (w1 w2 : Q * Q) : Prop := snd w1 + 2 * ramp + atol < fst w2.
Lemma merge_bounds ramp : forall l cs ce w, srtq m_time l -> Forall (fun p => cs <= m_time p) l -> In w (merge ramp cs ce l) -> cs <= fst w.
Proof.
  induction l as [|p l IH]; intros cs ce w Hs Hc Hi; cbn [merge srtq] in *.
  - destruct Hi as [<-|[]]. cbn. lra.
  - destruct Hs as [Hs1 Hs2]. inversion Hc as [|? ? Hc1 Hc2]; subst. destruct (Qle_bool _ _); [eapply IH; eassumption|].
    destruct Hi as [<-|Hi]; [cbn; lra|]. specialize (IH (m_time p) (m_end p) w Hs2 Hs1 Hi). lra.
Qed.
Lemma merge_apart ramp : forall l cs ce, srtq m_time l -> Forall (fun p => cs <= m_time p) l -> ForallOrdPairs (apart ramp) (merge ramp cs ce l).
Proof.
  induction l as [|p l IH]; intros cs ce Hs Hc; cbn [merge srtq] in *; [repeat constructor|]. destruct Hs as [Hs1 Hs2]. inversion Hc as [|? ? Hc1 Hc2]; subst.
  destruct (Qle_bool _ _) eqn:E; [apply IH; assumption|]. constructor; [|apply IH; assumption].
  apply Forall_forall. intros w Hw. pose proof (merge_bounds ramp l (m_time p) (m_end p) w Hs2 Hs1 Hw) as H. unfold apart. cbn [snd].
  assert (~ m_time p - ce <= 2 * ramp + atol) by (rewrite <- Qle_bool_iff; congruence). lra.
Qed.
Lemma windows_apart ramp l : srtq m_time l -> ForallOrdPairs (apart ramp) (windows ramp l).
Proof. destruct l as [|q l]; [constructor|]. intros [H1 H2]. apply merge_apart; assumption. Qed.
Lemma Qmax_one a b : Qmax a b = a \/ Qmax a b = b.
Proof. unfold Qmax, GenericMinMax.gmax. destruct (a ?= b); auto. Qed.
Lemma merge_exact ramp : forall l cs ce w, In w (merge ramp cs ce l) ->
  (fst w = cs \/ exists p, In p l /\ fst w = m_time p) /\ (snd w = ce \/ exists p, In p l /\ snd w = m_end p).
Proof.
  induction l as [|p l IH]; intros cs ce w Hw; cbn [merge] in Hw.
  - destruct Hw as [<-|[]]. auto.
  - destruct (Qle_bool _ _).
    + destruct (IH _ _ _ Hw) as [K1 K2]. split.
      * destruct K1 as [K1|[q [K1 K1']]]; [left; exact K1|right; exists q; split; [right; exact K1|exact K1']].
      * destruct K2 as [K2|[q [K2 K2']]]; [|right; exists q; split; [right; exact K2|exact K2']]. destruct (Qmax_one ce (m_end p)) as [M|M]; rewrite M in K2; [left; exact K2|].
        right. exists p. split; [left; reflexivity|exact K2].
    + destruct Hw as [<-|Hw]; [auto|]. destruct (IH _ _ _ Hw) as [K1 K2]. split; right.
      * destruct K1 as [K1|[q [K1 K1']]]; [exists p; split; [left; reflexivity|exact K1]|exists q; split; [right; exact K1|exact K1']].
      * destruct K2 as [K2|[q [K2 K2']]]; [exists p; split; [left; reflexivity|exact K2]|exists q; split; [right; exact K2|exact K2']].
Qed.
Lemma windows_exact ramp l w : In w (windows ramp l) -> (exists p, In p l /\ fst w = m_time p) /\ (exists p, In p l /\ snd w = m_end p).
Proof.
  destruct l as [|q l]; [intros []|]. intros H. apply merge_exact in H.
  destruct H as [K1 K2]. split.
  - destruct K1 as [K1|[p [K1 K1']]]; [exists q; split; [left; reflexivity|exact K1]|exists p; split; [right; exact K1|exact K1']].
  - destruct K2 as [K2|[p [K2 K2']]]; [exists q; split; [left; reflexivity|exact K2]|exists p; split; [right; exact K2|exact K2']].
Qed.

(** offset windows *)
Lemma scan_open pc l1 : forall w z l2, v_on z = false -> Forall (fun e => v_on e = true) l1 -> exists p, In p (scan pc (Some w) (l1 ++ z :: l2)) /\ m_time p = w /\ m_end p == v_time z /\ m_pc p = pc.
Proof.
  induction l1 as [|e l1 IH]; intros w z l2 Hz Hf; cbn [app scan].
  - rewrite Hz. eexists. split; [left; reflexivity|]. unfold m_end. cbn. repeat split. lra.
  - inversion Hf as [|? ? He Hf']; subst. rewrite He. apply IH; assumption.
Qed.
Lemma scan_cover pc : forall l1 w e l2 x, srtq v_time (l1 ++ e :: l2) -> (match w with Some u => Forall (fun y => u <= v_time y) (l1 ++ e :: l2) | None => True end) ->
  v_on e = true -> v_time e <= x -> (forall y, In y l2 -> x < v_time y) -> (exists z, In z l2 /\ v_on z = false) ->
  exists p, In p (scan pc w (l1 ++ e :: l2)) /\ m_time p <= x /\ x <= m_end p /\ m_pc p = pc.
Proof.
  induction l1 as [|y l1 IH]; intros w e l2 x Hs Hw He Hx Hl Hz.
  - cbn [app] in *. assert (exists m z l3, l2 = m ++ z :: l3 /\ Forall (fun e => v_on e = true) m /\ v_on z = false) as [m [z [l3 [-> [Hm Hz']]]]].
    { clear -Hz. induction l2 as [|y l2 IH]; destruct Hz as [z [Hi Hz]]; [destruct Hi|]. destruct (v_on y) eqn:E.
      - destruct IH as [m [z' [l3 [-> [Hm Hz']]]]]; [destruct Hi as [->|Hi]; [congruence|eauto]|]. exists (y :: m), z', l3. repeat split; auto.
      - exists [], y, l2. auto. }
    assert (x < v_time z) as Hxz by (apply Hl, in_elt). cbn [scan]. rewrite He. destruct w as [u|].
    + inversion Hw as [|? ? Hu _]; subst. destruct (scan_open pc m u z l3 Hz' Hm) as [p [H1 [H2 [H3 H4]]]]. exists p. split; [exact H1|]. split; [rewrite H2; lra|]. split; [rewrite H3; lra|exact H4].
    + destruct (scan_open pc m (v_time e) z l3 Hz' Hm) as [p [H1 [H2 [H3 H4]]]]. exists p. split; [exact H1|]. split; [rewrite H2; lra|]. split; [rewrite H3; lra|exact H4].
  - cbn [app scan srtq] in *. destruct Hs as [Hs1 Hs2]. destruct w as [u|]; destruct (v_on y) eqn:E.
    + apply (IH (Some u)); auto. inversion Hw; assumption.
    + destruct (IH None e l2 x) as [p [H1 H2]]; auto. exists p. split; [right; exact H1|exact H2].
    + apply (IH (Some (v_time y))); auto.
    + apply (IH None); auto.
Qed.
Lemma scan_exact pc : forall l w p, In p (scan pc w l) ->
  m_pc p = pc /\ (w = Some (m_time p) \/ exists e, In e l /\ v_on e = true /\ m_time p = v_time e) /\ (exists e, In e l /\ v_on e = false /\ m_end p == v_time e).
Proof.
  induction l as [|y l IH]; intros w p Hi; cbn [scan] in Hi; [destruct Hi|].
  assert (forall w', In p (scan pc w' l) -> m_pc p = pc /\ (w' = Some (m_time p) \/ exists e, In e (y :: l) /\ v_on e = true /\ m_time p = v_time e) /\ (exists e, In e (y :: l) /\ v_on e = false /\ m_end p == v_time e)) as K.
  { intros w' H. destruct (IH w' p H) as [H1 [H2 [z [H3 H4]]]]. split; [exact H1|]. split; [|exists z; split; [right; exact H3|exact H4]].
    destruct H2 as [H2|[e [H2 H2']]]; [left; exact H2|right; exists e; split; [right; exact H2|exact H2']]. }
  destruct w as [u|]; destruct (v_on y) eqn:E.
  - apply K, Hi.
  - destruct Hi as [<-|Hi].
    + cbn. split; [reflexivity|]. split; [left; reflexivity|]. exists y. split; [left; reflexivity|]. split; [exact E|]. unfold m_end; cbn; lra.
    + destruct (K None Hi) as [H1 [[H2|H2] H3]]; [discriminate|]. split; [exact H1|]. split; [right; exact H2|exact H3].
  - destruct (K _ Hi) as [H1 [[H2|H2] H3]]; (split; [exact H1|]); (split; [right|exact H3]); [|exact H2]. inversion H2; subst. exists y. split; [left; reflexivity|]. auto.
  - destruct (K _ Hi) as [H1 [[H2|H2] H3]]; [discriminate|]. split; [exact H1|]. split; [right; exact H2|exact H3].
Qed.

Lemma vo_pulses_cover evs l1 e l2 pc x : evs = l1 ++ e :: l2 -> v_pc e = pc -> v_on e = true -> v_time e <= x ->
  (forall y, In y l1 -> v_pc y = pc -> v_time y <= x -> v_time y <= v_time e) -> (forall y, In y l2 -> v_pc y = pc -> v_time y <= x -> v_time y < v_time e) ->
  (exists z, In z evs /\ v_pc z = pc /\ v_on z = false /\ x < v_time z) ->
  exists p, In p (vo_pulses evs) /\ m_pc p = pc /\ m_time p <= x /\ x <= m_end p.
Proof.
  intros -> Hpc Hon Hx H1 H2 [z [Hz [Hzp [Hzo Hzt]]]]. set (evs := l1 ++ e :: l2) in *. set (f := fun y => pc_eqb pc (v_pc y)). set (g := fun y => Qle_bool (v_time y) x).
  assert (Hsplit : forall l, srtq v_time l -> l = filter g l ++ filter (fun y => negb (g y)) l).
  { induction l as [|y l IH]; [reflexivity|]. intros [S1 S2]. cbn [filter]. destruct (g y) eqn:E; cbn [negb app]; [f_equal; apply IH, S2|].
    assert (filter g l = []) as ->. { clear IH S2. induction l as [|w l IH]; [reflexivity|]. inversion S1 as [|? ? Sw S1']; subst. cbn [filter]. destruct (g w) eqn:Ew; [|apply IH, S1'].
      unfold g in E, Ew. apply Qle_bool_iff in Ew. assert (Qle_bool (v_time y) x = true) by (apply Qle_bool_iff; lra). congruence. }
    cbn [app]. f_equal. assert (forall w, In w l -> g w = false) as G. { intros w Hw. rewrite Forall_forall in S1. specialize (S1 w Hw). cbn in S1. unfold g in *. destruct (Qle_bool (v_time w) x) eqn:Ew; [|reflexivity]. apply Qle_bool_iff in Ew. assert (Qle_bool (v_time y) x = true) by (apply Qle_bool_iff; lra). congruence. }
    clear -G. induction l as [|w l IH]; [reflexivity|]. cbn [filter]. rewrite (G w (or_introl eq_refl)). cbn [negb]. f_equal. apply IH. intros; apply G; right; assumption. }
  set (s := sortq v_time (filter f evs)).
  assert (He : exists l, filter g s = l ++ [e]).
  { unfold s. rewrite <- sortq_filter. assert (filter g (filter f evs) = filter g (filter f l1) ++ e :: filter g (filter f l2)) as ->.
    { unfold evs. rewrite !filter_app. cbn [filter]. assert (f e = true) as -> by (apply pc_eqb_iff; congruence). cbn [filter]. assert (g e = true) as -> by (apply Qle_bool_iff; exact Hx). reflexivity. }
    apply sortq_last; intros y Hy; rewrite !filter_In in Hy; destruct Hy as [[Hy Hf] Hg]; apply pc_eqb_iff in Hf; apply Qle_bool_iff in Hg; [apply H1|apply H2]; auto. }
  destruct He as [l He]. pose proof (sortq_srt v_time (filter f evs)) as Hs. fold s in Hs. pose proof (Hsplit s Hs) as Hs'. rewrite He, <- app_assoc in Hs'. cbn [app] in Hs'.
  destruct (scan_cover pc l None e (filter (fun y => negb (g y)) s) x) as [p [Hp1 [Hp2 [Hp3 Hp4]]]]; try assumption; try exact I.
  - rewrite <- Hs'. exact Hs.
  - intros y Hy. apply filter_In in Hy. destruct Hy as [_ Hy]. unfold g in Hy. destruct (Qlt_le_dec x (v_time y)) as [L|L]; [exact L|]. apply Qle_bool_iff in L. rewrite L in Hy. discriminate.
  - exists z. split; [|exact Hzo]. apply filter_In. split; [apply sortq_In, filter_In; split; [exact Hz|apply pc_eqb_iff; congruence]|]. unfold g. destruct (Qle_bool (v_time z) x) eqn:E; [|reflexivity]. apply Qle_bool_iff in E. lra.
  - rewrite <- Hs' in Hp1. exists p. split; [|auto]. unfold vo_pulses. apply in_flat_map. exists (pc, filter f evs). split; [|exact Hp1].
    apply group_In. split; [|reflexivity]. apply in_map_iff. exists e. split; [exact Hpc|apply in_elt].
Qed.
Lemma vo_pulses_exact evs p : In p (vo_pulses evs) ->
  (exists e, In e evs /\ v_pc e = m_pc p /\ v_on e = true /\ m_time p = v_time e) /\ (exists e, In e evs /\ v_pc e = m_pc p /\ v_on e = false /\ m_end p == v_time e).
Proof.
  unfold vo_pulses. rewrite in_flat_map. intros [[pc es] [H1 H2]]. apply group_In in H1. destruct H1 as [_ ->]. apply scan_exact in H2. destruct H2 as [<- [[H2|H2] H3]]; [discriminate|].
  destruct H2 as [e [He [He1 He2]]], H3 as [z [Hz [Hz1 Hz2]]]. rewrite sortq_In, filter_In in He, Hz. destruct He as [He He3], Hz as [Hz Hz3]. apply pc_eqb_iff in He3, Hz3.
  split; [exists e|exists z]; repeat split; auto.
Qed.

(** collected pulses and events = executed ones *)
Lemma join_fst {X A B} (f : X -> list A * list B) l : fst (join (map f l)) = flat_map (fun x => fst (f x)) l. Proof. unfold join. cbn. apply flat_map_map. Qed.
Lemma join_snd {X A B} (f : X -> list A * list B) l : snd (join (map f l)) = flat_map (fun x => snd (f x)) l. Proof. unfold join. cbn. apply flat_map_map. Qed.

Definition ev_of (e : Q * pinfo) : option vo :=
  let p := snd e in
  if negb (is_mw (p_port p)) then None else if p_marker p then None else if p_wf p then None else
  if Qeq_bool (p_dur p) 0 then Some {| v_time := fst e; v_pc := (p_port p, p_clock p); v_on := negb (Qeq_bool (p_offI p) 0 && Qeq_bool (p_offQ p) 0) |} else None.
Lemma info_snd e : snd (info_at e) = match ev_of e with Some v => [v] | None => [] end.
Proof. unfold info_at, ev_of. destruct (negb (is_mw (p_port (snd e)))), (p_marker (snd e)), (p_wf (snd e)); cbn; try reflexivity; [destruct (Qlt_bool _ _); reflexivity|destruct (Qeq_bool _ _); reflexivity]. Qed.
Lemma ev_of_spec e v : ev_of e = Some v <-> v_time v = fst e /\ sets_offset (v_pc v) (v_on v) e.
Proof.
  unfold ev_of, sets_offset. destruct e as [t p]. cbn [fst snd]. split.
  - destruct (is_mw (p_port p)) eqn:E1; cbn [negb]; [|discriminate]. destruct (p_marker p) eqn:E2; [discriminate|]. destruct (p_wf p) eqn:E3; [discriminate|]. destruct (Qeq_bool (p_dur p) 0) eqn:E4; [|discriminate].
    intros H. inversion H; subst; clear H. cbn. repeat split; auto. { apply Qeq_bool_iff, E4. }
    destruct (Qeq_bool (p_offI p) 0) eqn:E5, (Qeq_bool (p_offQ p) 0) eqn:E6; cbn; try (split; apply Qeq_bool_iff; assumption); intros [A B]; apply Qeq_bool_iff in A, B; congruence.
  - destruct v as [vt vpc von]. cbn. intros [-> [-> [-> [-> [-> [H H']]]]]]. cbn [negb]. apply Qeq_bool_iff in H. rewrite H. f_equal. f_equal.
    destruct von.
    + destruct (Qeq_bool (p_offI p) 0) eqn:E5, (Qeq_bool (p_offQ p) 0) eqn:E6; try reflexivity. exfalso. apply H'. split; apply Qeq_bool_iff; assumption.
    + destruct H' as [A B]. apply Qeq_bool_iff in A, B. rewrite A, B. reflexivity.
Qed.
Lemma sets_offset_ev pc b e : sets_offset pc b e -> ev_of e = Some {| v_time := fst e; v_pc := pc; v_on := b |}.
Proof. intros H. apply ev_of_spec. cbn. auto. Qed.
Definition evs_of (l : list (Q * pinfo)) : list vo := flat_map (fun e => match ev_of e with Some v => [v] | None => [] end) l.
Lemma evs_of_In l v : In v (evs_of l) <-> exists e, In e l /\ ev_of e = Some v.
Proof.
  unfold evs_of. rewrite in_flat_map. split; intros [e [H1 H2]]; exists e; (split; [exact H1|]); [destruct (ev_of e); [destruct H2 as [->|[]]; reflexivity|destruct H2]|rewrite H2; left; reflexivity].
Qed.

Definition mw_of (l : list (Q * pinfo)) : list mwp := flat_map (fun e => fst (info_at e)) l.
Lemma mw_of_In l m : In m (mw_of l) <-> exists p, In (m_time m, p) l /\ m_pc m = (p_port p, p_clock p) /\ is_mw (p_port p) = true /\ p_marker p = false /\ p_wf p = true /\ 0 < p_dur p /\ m_dur m = p_dur p.
Proof.
  unfold mw_of. rewrite in_flat_map. split.
  - intros [[t p] [H1 H2]]. unfold info_at in H2. cbn [fst snd] in H2. destruct (is_mw (p_port p)) eqn:E1; [|destruct H2]. destruct (p_marker p) eqn:E2; [destruct H2|]. destruct (p_wf p) eqn:E3; cbn [negb fst] in H2.
    + destruct (Qlt_bool 0 (p_dur p)) eqn:E4; [|destruct H2]. destruct H2 as [<-|[]]. exists p. cbn. repeat split; auto. unfold Qlt_bool in E4. apply negb_true_iff in E4. destruct (Qlt_le_dec 0 (p_dur p)) as [L|L]; [exact L|]. apply Qle_bool_iff in L. congruence.
    + destruct (Qeq_bool _ _); destruct H2.
  - intros [p [H1 [H2 [H3 [H4 [H5 [H6 H7]]]]]]]. exists (m_time m, p). split; [exact H1|]. unfold info_at. cbn [fst snd]. rewrite H3, H4, H5. cbn [negb fst].
    assert (Qlt_bool 0 (p_dur p) = true) as ->. { unfold Qlt_bool. apply negb_true_iff. destruct (Qle_bool (p_dur p) 0) eqn:E; [|reflexivity]. apply Qle_bool_iff in E. lra. }
    left. destruct m; cbn in *. congruence.
Qed.

Lemma dress_collect ramp root : plain (OSched root) -> dress ramp root =
  root ++ flat_map (fun '(pc, ps) => map (rf_toggle ramp pc) (windows ramp (sortq m_time ps))) (group m_pc (mw_of (plays (OSched root) 0) ++ vo_pulses (evs_of (plays (OSched root) 0)))).
Proof.
  intros H. unfold dress. rewrite (collect_plays _ 0 H). destruct (join (map info_at (plays (OSched root) 0))) as [a b] eqn:E.
  assert (a = mw_of (plays (OSched root) 0)) as ->. { transitivity (fst (join (map info_at (plays (OSched root) 0)))); [rewrite E; reflexivity|apply join_fst]. }
  assert (b = evs_of (plays (OSched root) 0)) as ->. { transitivity (snd (join (map info_at (plays (OSched root) 0)))); [rewrite E; reflexivity|]. rewrite join_snd. unfold evs_of. apply flat_map_ext. intros e. apply info_snd. }
  reflexivity.
Qed.

Lemma activity_covered ramp root p : plain (OSched root) -> In p (mw_of (plays (OSched root) 0) ++ vo_pulses (evs_of (plays (OSched root) 0))) ->
  switch_on (dress ramp root) (m_pc p) (Qmax 0 (m_time p - ramp)) (m_end p + ramp).
Proof.
  intros Hp Hi. set (all := mw_of (plays (OSched root) 0) ++ vo_pulses (evs_of (plays (OSched root) 0))) in *.
  set (ps := filter (fun x => pc_eqb (m_pc p) (m_pc x)) all).
  assert (In p (sortq m_time ps)) as Hi'. { apply sortq_In, filter_In. split; [exact Hi|apply pc_eqb_iff; reflexivity]. }
  destruct (windows_cover ramp _ p (sortq_srt m_time ps) Hi') as [w [Hw1 [Hw2 Hw3]]].
  exists (0 + Qmax 0 (fst w - ramp) + 0), (toggle (m_pc p) ((snd w + ramp) - Qmax 0 (fst w - ramp))). split; [|repeat split].
  - rewrite (dress_collect ramp root Hp). cbn [plays]. apply in_flat_map. exists (rf_toggle ramp (m_pc p) w). split.
    + apply in_or_app. right. apply in_flat_map. exists (m_pc p, ps). split; [|apply in_map, Hw1]. apply group_In. split; [|reflexivity]. apply in_map, Hi.
    + unfold rf_toggle. cbn. left. reflexivity.
  - cbn. destruct (m_pc p); reflexivity.
  - assert (Qmax 0 (fst w - ramp) <= Qmax 0 (m_time p - ramp)) by (apply Q.max_le_compat_l; lra). lra.
  - cbn [toggle p_dur]. lra.
Qed.

(** ** C29 *)

(** The appended schedulables are the toggles; everything else of the schedule is untouched. *)
Definition toggles_of (pc : string * string) (added : list (Q * op)) : list (Q * Q) :=
  flat_map (fun '(t, o) => match o with OPulses [p] => if p_marker p && pc_eqb pc (p_port p, p_clock p) then [(t + p_t0 p, t + p_t0 p + p_dur p)] else [] | _ => [] end) added.

Lemma C29_switch_on_partial0 : forall ramp root, plain (OSched root) ->
  (forall pc s e, pulse_during root pc s e -> switch_on (auto_rf_switch true ramp root) pc (Qmax 0 (s - ramp)) (e + ramp)) /\
  (forall pc x, offset_on root pc x -> zero_offset_after root pc x -> switch_on (auto_rf_switch true ramp root) pc (Qmax 0 (x - ramp)) (x + ramp)).
Proof.
  intros ramp root Hp. cbn [auto_rf_switch]. split.
  - intros pc s e [p [H1 [-> [H2 [H3 [H4 [H5 ->]]]]]]].
    apply (activity_covered ramp root {| m_time := s; m_dur := p_dur p; m_pc := (p_port p, p_clock p) |} Hp). apply in_or_app. left. apply mw_of_In. exists p. cbn. auto 8.
  - intros pc x [l1 [ev [l2 [E [Hev [Hx [H1 H2]]]]]]] [z [Hz1 [Hz2 Hz3]]].
    destruct (vo_pulses_cover (evs_of (plays (OSched root) 0)) (evs_of l1) {| v_time := fst ev; v_pc := pc; v_on := true |} (evs_of l2) pc x) as [p [P1 [P2 [P3 P4]]]]; try assumption; try reflexivity.
    + rewrite E. unfold evs_of. rewrite flat_map_app. cbn [flat_map]. rewrite (sets_offset_ev _ _ _ Hev). reflexivity.
    + cbn. intros y Hy Hpc Ht. apply evs_of_In in Hy. destruct Hy as [e [He He']]. apply ev_of_spec in He'. destruct He' as [He1 He2]. rewrite Hpc in He2. rewrite He1 in Ht |- *. eapply H1; eassumption.
    + cbn. intros y Hy Hpc Ht. apply evs_of_In in Hy. destruct Hy as [e [He He']]. apply ev_of_spec in He'. destruct He' as [He1 He2]. rewrite Hpc in He2. rewrite He1 in Ht |- *. eapply H2; eassumption.
    + exists {| v_time := fst z; v_pc := pc; v_on := false |}. cbn. repeat split; [|exact Hz3]. apply evs_of_In. exists z. split; [exact Hz1|apply sets_offset_ev, Hz2].
    + destruct (activity_covered ramp root p Hp) as [s [q [Q1 [Q2 [Q3 [Q4 Q5]]]]]]; [apply in_or_app; right; exact P1|].
      exists s, q. rewrite P2 in Q3. repeat split; try assumption; [|lra].
      eapply Qle_trans; [exact Q4|]. apply Q.max_le_compat_l. lra.
Qed.

Lemma toggles_app pc a b : toggles_of pc (a ++ b) = toggles_of pc a ++ toggles_of pc b. Proof. apply flat_map_app. Qed.
Lemma toggles_map pc pc' ramp ws : toggles_of pc (map (rf_toggle ramp pc') ws) =
  if pc_eqb pc pc' then map (fun w => (Qmax 0 (fst w - ramp) + 0, Qmax 0 (fst w - ramp) + 0 + ((snd w + ramp) - Qmax 0 (fst w - ramp)))) ws else [].
Proof.
  induction ws as [|w ws IH]; [cbn; destruct (pc_eqb _ _); reflexivity|]. cbn [map]. unfold toggles_of in *. cbn [flat_map rf_toggle]. rewrite IH. cbn. replace (fst pc', snd pc') with pc' by (destruct pc'; reflexivity). destruct (pc_eqb pc pc'); reflexivity.
Qed.
Lemma toggles_groups {G} pc ramp (f : G -> list (Q * Q)) : forall gs : list ((string * string) * G), NoDup (map fst gs) ->
  toggles_of pc (flat_map (fun '(k, ps) => map (rf_toggle ramp k) (f ps)) gs) = [] \/
  exists ps, In (pc, ps) gs /\ toggles_of pc (flat_map (fun '(k, ps) => map (rf_toggle ramp k) (f ps)) gs) = toggles_of pc (map (rf_toggle ramp pc) (f ps)).
Proof.
  induction gs as [|[k g] gs IH]; intros Hn; [left; reflexivity|]. cbn [flat_map]. rewrite toggles_app. cbn [map fst] in Hn. inversion Hn as [|? ? Hk Hn']; subst.
  destruct (pc_eqb pc k) eqn:E.
  - apply pc_eqb_iff in E. subst k. right. exists g. split; [left; reflexivity|]. destruct (IH Hn') as [->|[ps [Hi _]]]; [apply app_nil_r|]. exfalso. apply Hk. apply in_map_iff. exists (pc, ps). auto.
  - rewrite (toggles_map pc k), E. cbn [app]. destruct (IH Hn') as [->|[ps [Hi H]]]; [left; reflexivity|right; exists ps; split; [right; exact Hi|exact H]].
Qed.

(** Windows: on which activity they begin and end *)
Definition activity_start (root : list (Q * op)) (pc : string * string) (t : Q) : Prop :=
  (exists e, pulse_during root pc t e) \/ (exists ev, In ev (plays (OSched root) 0) /\ sets_offset pc true ev /\ t == fst ev).
Definition activity_end (root : list (Q * op)) (pc : string * string) (t : Q) : Prop :=
  (exists s, pulse_during root pc s t) \/ (exists ev, In ev (plays (OSched root) 0) /\ sets_offset pc false ev /\ t == fst ev).

Lemma C29_windows0 : forall ramp root, plain (OSched root) -> 0 <= ramp ->
  exists added, auto_rf_switch true ramp root = root ++ added /\
  forall pc, ForallOrdPairs (fun w1 w2 => snd w1 < fst w2) (toggles_of pc added) /\
             forall w, In w (toggles_of pc added) -> 0 <= fst w /\ (exists t, activity_start root pc t /\ fst w == Qmax 0 (t - ramp)) /\ (exists t, activity_end root pc t /\ snd w == t + ramp).
Proof.
  intros ramp root Hp Hr. cbn [auto_rf_switch]. rewrite (dress_collect ramp root Hp). eexists. split; [reflexivity|]. intros pc.
  set (all := mw_of (plays (OSched root) 0) ++ vo_pulses (evs_of (plays (OSched root) 0))).
  destruct (toggles_groups pc ramp (fun ps => windows ramp (sortq m_time ps)) (group m_pc all)) as [->|[ps [Hps ->]]].
  - unfold group. rewrite map_map. cbn. rewrite map_id. apply distinct_NoDup.
  - split; [constructor|intros w []].
  - rewrite toggles_map. assert (pc_eqb pc pc = true) as -> by (apply pc_eqb_iff; reflexivity). apply group_In in Hps. destruct Hps as [_ Hps]. split.
    + pose proof (windows_apart ramp _ (sortq_srt m_time ps)) as Ha. induction Ha as [|w ws Hw Ha IH]; [constructor|]. cbn [map]. constructor; [|exact IH].
      apply Forall_forall. intros y Hy. apply in_map_iff in Hy. destruct Hy as [v [<- Hv]]. cbn [fst snd]. rewrite Forall_forall in Hw. specialize (Hw v Hv). unfold apart, atol in Hw.
      pose proof (Q.le_max_r 0 (fst v - ramp)). lra.
    + intros y Hy. apply in_map_iff in Hy. destruct Hy as [w [<- Hw]]. cbn [fst snd]. apply windows_exact in Hw. destruct Hw as [[p1 [Hi1 E1]] [p2 [Hi2 E2]]].
      rewrite sortq_In, Hps, filter_In in Hi1, Hi2. destruct Hi1 as [Hi1 K1], Hi2 as [Hi2 K2]. apply pc_eqb_iff in K1, K2.
      split; [pose proof (Q.le_max_l 0 (fst w - ramp)); lra|]. split.
      * exists (m_time p1). split; [|rewrite E1; lra]. apply in_app_or in Hi1. destruct Hi1 as [Hi1|Hi1].
        -- left. apply mw_of_In in Hi1. destruct Hi1 as [p [H1 [H2 [H3 [H4 [H5 [H6 H7]]]]]]]. exists (m_time p1 + p_dur p). exists p. rewrite K1. auto 8.
        -- right. apply vo_pulses_exact in Hi1. destruct Hi1 as [[e [He [Hpc [Hon Ht]]]] _]. apply evs_of_In in He. destruct He as [ev [Hev Hev']]. apply ev_of_spec in Hev'. destruct Hev' as [G1 G2].
           exists ev. rewrite Hpc, Hon, <- K1 in G2. split; [exact Hev|]. split; [exact G2|]. rewrite Ht, G1. reflexivity.
      * exists (m_end p2). split; [|rewrite E2; lra]. apply in_app_or in Hi2. destruct Hi2 as [Hi2|Hi2].
        -- left. apply mw_of_In in Hi2. destruct Hi2 as [p [H1 [H2 [H3 [H4 [H5 [H6 H7]]]]]]]. exists (m_time p2). exists p. rewrite K2. unfold m_end. rewrite H7. auto 8.
        -- right. apply vo_pulses_exact in Hi2. destruct Hi2 as [_ [e [He [Hpc [Hon Ht]]]]]. apply evs_of_In in He. destruct He as [ev [Hev Hev']]. apply ev_of_spec in Hev'. destruct Hev' as [G1 G2].
           exists ev. rewrite Hpc, Hon, <- K2 in G2. split; [exact Hev|]. split; [exact G2|]. rewrite Ht, G1. reflexivity.
Qed.

(** Partial: the full statement has no hypothesis [plain] (loops that run more than once, control-flow bodies that are bare operations) and no
    [zero_offset_after] (offsets never set back to zero); it is false there, see the refutations below. *)
Theorem C29_switch_on_partial : forall ramp root, plain (OSched root) ->
  (forall pc s e, pulse_during root pc s e -> switch_on (auto_rf_switch true ramp root) pc (Qmax 0 (s - ramp)) (e + ramp)) /\
  (forall pc x, offset_on root pc x -> zero_offset_after root pc x -> switch_on (auto_rf_switch true ramp root) pc (Qmax 0 (x - ramp)) (x + ramp)).
Proof. exact C29_switch_on_partial0. Qed.
Print Assumptions C29_switch_on_partial.

Theorem C29_windows_disjoint_and_tight_partial : forall ramp root, plain (OSched root) -> 0 <= ramp ->
  exists added, auto_rf_switch true ramp root = root ++ added /\
  forall pc, ForallOrdPairs (fun w1 w2 => snd w1 < fst w2) (toggles_of pc added) /\
             forall w, In w (toggles_of pc added) -> 0 <= fst w /\ (exists t, activity_start root pc t /\ fst w == Qmax 0 (t - ramp)) /\ (exists t, activity_end root pc t /\ snd w == t + ramp).
Proof. exact C29_windows0. Qed.
Print Assumptions C29_windows_disjoint_and_tight_partial.

(** Non-vacuity: two pulses 30 ns apart in a nested schedule, with a 20 ns ramp, times in ns *)
Definition mwpulse (d : Q) : pinfo := {| p_port := "q0:mw"; p_clock := "q0.01"; p_t0 := 0; p_dur := d; p_wf := true; p_marker := false; p_offI := 0; p_offQ := 0 |}.
Definition vooff (i : Q) : pinfo := {| p_port := "q0:mw"; p_clock := "q0.01"; p_t0 := 0; p_dur := 0; p_wf := false; p_marker := false; p_offI := i; p_offQ := 0 |}.
Example C29_example : let root := [(100, OPulses [mwpulse 20]); (150, OSched [(0, OPulses [mwpulse 20])]); (500, OCond (OSched [(0, OPulses [vooff 1]); (40, OPulses [vooff 0])]))] in
  plain (OSched root) /\ toggles_of ("q0:mw", "q0.01")%string (skipn 3 (auto_rf_switch true 20 root)) = [(80, 190); (480, 560)] /\
  pulse_during root ("q0:mw", "q0.01")%string 150 170 /\ offset_on root ("q0:mw", "q0.01")%string 520.
Proof.
  cbn zeta. split; [cbn; tauto|]. split; [vm_compute; reflexivity|]. split.
  - exists (mwpulse 20). split; [cbn; auto|]. repeat split.
  - exists [(100, mwpulse 20); (150, mwpulse 20)], (500, vooff 1), [(540, vooff 0)]. split; [reflexivity|]. split; [repeat split; cbn; intros [A _]; discriminate A|]. split; [cbn; discriminate|]. split.
    + intros e b [<-|[<-|[]]] H _; cbn; discriminate.
    + intros e b [<-|[]] H L. cbn in L. exfalso. apply L. reflexivity.
Qed.

Definition never_on (root : list (Q * op)) (pc : string * string) (x : Q) : Prop := forall a b, a <= x -> x <= b -> ~ switch_on root pc a b.

(** A loop: the switch is off during the second iteration. *)
Theorem C29_second_loop_iteration_refuted : exists root s e x, pulse_during root ("q0:mw", "q0.01")%string s e /\ s <= x <= e /\ never_on (auto_rf_switch true 20 root) ("q0:mw", "q0.01")%string x.
Proof.
  exists [(0, OLoop 2 200 (OSched [(100, OPulses [mwpulse 20])]))], 300, 320, 310. split; [exists (mwpulse 20); split; [cbn; auto|repeat split]|]. split; [split; discriminate|].
  intros a b Ha Hb [s [p [H1 [H2 [H3 [H4 H5]]]]]]. cbn in H1. destruct H1 as [H1|[H1|[H1|[]]]]; inversion H1; subst; try discriminate. unfold m_end in H5. cbn in H4, H5. lra.
Qed.
Print Assumptions C29_second_loop_iteration_refuted.

(** A control-flow operation whose body is a single operation: no toggle at all. *)
Theorem C29_bare_body_refuted : exists root s e, pulse_during root ("q0:mw", "q0.01")%string s e /\ forall x, never_on (auto_rf_switch true 20 root) ("q0:mw", "q0.01")%string x.
Proof.
  exists [(0, OLoop 1 20 (OPulses [mwpulse 20]))], 0, 20. split; [exists (mwpulse 20); split; [cbn; auto|repeat split]|].
  intros x a b _ _ [s [p [H1 [H2 _]]]]. cbn in H1. destruct H1 as [H1|[]]. inversion H1; subst. discriminate.
Qed.
Print Assumptions C29_bare_body_refuted.

(** An offset that is not set back to zero: no toggle. *)
Theorem C29_open_offset_refuted : exists root x, offset_on root ("q0:mw", "q0.01")%string x /\ never_on (auto_rf_switch true 20 root) ("q0:mw", "q0.01")%string x.
Proof.
  exists [(0, OPulses [vooff 1])], 10. split.
  - exists [], (0, vooff 1), []. split; [reflexivity|]. split; [repeat split; cbn; intros [A _]; discriminate A|]. split; [discriminate|]. split; intros e b [].
  - intros a b _ _ [s [p [H1 [H2 _]]]]. cbn in H1. destruct H1 as [H1|[]]. inversion H1; subst. discriminate.
Qed.
Print Assumptions C29_open_offset_refuted.
