(** C12, C13, continued: the theorems. *)
From Verif Require Import Base QSort TimingModel TimingSpec TimingProps TableModel TableProps PulseCompModel PulseCompProps PulseCompProps2.
From Coq Require Import List Relations.
Open Scope string_scope.
Open Scope list_scope.
Open Scope Q_scope.

(** a compensation pulse within its limits: port, maximum [M], sum [s] to cancel *)
Definition in_limits (grid M s : Q) (q : params) : Prop :=
  Qabs (p_amp q) <= M /\ (exists k, (1 <= k)%Z /\ p_duration q = inject_Z k * grid /\ inject_Z (k - 1) * grid * M < Qabs s) /\ p_amp q * p_duration q == - s.
Lemma pulses_spec max grid : 0 < grid -> Forall (fun x => 0 < snd x) max -> forall m l, NoDup (map fst m) -> mapM (pulse_for max grid) m = Ok l ->
  NoDup (map fst (List.concat l)) /\
  (forall p q, In (p, q) (List.concat l) -> exists s M, lookup m p = Some (s, start q) /\ lookup max p = Some M /\ 0 < M /\ ~ s == 0 /\ in_limits grid M s q) /\
  (forall p s e, lookup m p = Some (s, e) -> lookup max p <> None -> s == 0 \/ exists q, In (p, q) (List.concat l)) /\
  (forall p q, In (p, q) (List.concat l) -> lookup m p <> None).
Proof.
  intros Hg HM. induction m as [|[p [s e]] m IH]; intros l N E; cbn [mapM] in E.
  - injection E as <-. cbn. repeat split; [constructor|intros ? ? []|discriminate|intros ? ? []].
  - destruct (pulse_for max grid (p, (s, e))) as [l1|] eqn:E1; [|discriminate]. cbn [bind] in E. destruct (mapM (pulse_for max grid) m) as [l2|] eqn:E2; [|discriminate]. cbn [bind] in E. injection E as <-. cbn [map fst] in N. inversion N as [|? ? Hp N']; subst. destruct (IH l2 N' eq_refl) as (I1 & I2 & I3 & I4).
    assert (Hnot : forall q, ~ In (p, q) (List.concat l2)). { intros q Hq. destruct (lookup m p) as [v|] eqn:El; [apply lookup_in in El; apply Hp; apply in_map_iff; exists (p, v); auto|]. eapply I4; eassumption. }
    assert (Hk : forall p' q, In (p', q) (List.concat l2) -> String.eqb p p' = false). { intros p' q Hi. apply String.eqb_neq. intros ->. eapply Hnot. exact Hi. }
    apply pulse_for_spec in E1; [|assumption|assumption]. cbn [List.concat]. destruct E1 as [[-> Hz]|(M & q & k & -> & HMl & Hs & HMp & Hst & Hk1 & Hd & Ha & Hmin & Hb)].
    + cbn [app]. split; [exact I1|]. split; [|split].
      * intros p' q' Hi. destruct (I2 p' q' Hi) as (s' & M & Hl & Hr). exists s', M. cbn [lookup]. rewrite (Hk _ _ Hi). auto.
      * intros p' s' e' Hl Hm. cbn [lookup] in Hl. destruct (String.eqb_spec p p') as [<-|_]; [injection Hl as <- <-; destruct Hz as [Hz|Hz]; [left; exact Hz|congruence]|eapply I3; eassumption].
      * intros p' q' Hi. cbn [lookup]. rewrite (Hk _ _ Hi). eapply I4. exact Hi.
    + cbn [app]. split; [|split; [|split]].
      * cbn [map fst]. constructor; [|exact I1]. intros Hi. apply in_map_iff in Hi. destruct Hi as [[p' q'] [Hp' Hi]]. cbn in Hp'. subst p'. eapply Hnot. exact Hi.
      * intros p' q' [[= <- <-]|Hi]; [|destruct (I2 p' q' Hi) as (s' & M' & Hl & Hr); exists s', M'; cbn [lookup]; rewrite (Hk _ _ Hi); auto]. exists s, M. cbn [lookup]. rewrite String.eqb_refl, Hst. repeat split; auto. exists k. auto.
      * intros p' s' e' Hl Hm. cbn [lookup] in Hl. destruct (String.eqb_spec p p') as [<-|_]; [right; exists q; left; reflexivity|]. destruct (I3 p' s' e' Hl Hm) as [Hz|[q' Hq]]; [left; exact Hz|right; exists q'; right; exact Hq].
      * intros p' q' [[= <- <-]|Hi]; cbn [lookup]; [rewrite String.eqb_refl; discriminate|]. rewrite (Hk _ _ Hi). eapply I4. exact Hi.
Qed.
Lemma pulse_key_inj p q : pulse_key p = pulse_key q -> p = q.
Proof. unfold pulse_key. intros H. injection H. auto. Qed.
Lemma pulse_keys l : NoDup (map fst l) -> NoDup (body_key :: map (fun i : item => fst (fst (fst i))) (map pulse_item l)).
Proof.
  intros N. constructor.
  - rewrite map_map. intros H. apply in_map_iff in H. destruct H as ([p q] & H & _). cbn in H. discriminate.
  - rewrite map_map. cbn. induction l as [|[p q] l IH]; [constructor|]. cbn [map fst] in *. inversion N; subst. constructor; [|auto]. intros H. apply in_map_iff in H. destruct H as ([p' q'] & H & Hi). cbn in H. apply pulse_key_inj in H. subst p'. apply H1. apply in_map_iff. exists (p, q'). auto.
Qed.
Lemma determine_pulses o max grid pulses : 0 < grid -> Forall (fun x => 0 < snd x) max -> determine_compensation_pulse o max grid = Ok pulses ->
  exists timed m, match o with PSched _ _ _ _ => timing ASAP o = Ok timed | _ => timed = o end /\ sum_end (table timed) 0 (map fst max) false = Ok m /\
    NoDup (map fst pulses) /\
    (forall p q, In (p, q) pulses -> exists s M, lookup m p = Some (s, start q) /\ lookup max p = Some M /\ 0 < M /\ ~ s == 0 /\ in_limits grid M s q) /\
    (forall p s e, lookup m p = Some (s, e) -> lookup max p <> None -> s == 0 \/ exists q, In (p, q) pulses).
Proof.
  intros Hg HM E. unfold determine_compensation_pulse in E. match type of E with bind ?x _ = _ => destruct x as [timed|] eqn:Et; [|discriminate] end. cbn [bind] in E. destruct (sum_end (table timed) 0 (map fst max) false) as [m|] eqn:Es; [|discriminate]. cbn [bind] in E. destruct (mapM _ m) as [l|] eqn:El; [|discriminate]. cbn [bind] in E. injection E as <-.
  destruct (pulses_spec max grid Hg HM m l (sum_end_nodup _ _ _ _ _ Es) El) as (P1 & P2 & P3 & _). exists timed, m. repeat apply conj; auto. destruct o; congruence.
Qed.
Lemma square_written p q : 0 <= p_duration q -> written (square_pulse p q).
Proof. intros H. unfold square_pulse. cbn. repeat split; repeat constructor; cbn; try lra; discriminate. Qed.
Lemma limits_duration grid M s q : 0 < grid -> in_limits grid M s q -> 0 < p_duration q.
Proof. intros Hg (_ & (k & Hk & -> & _) & _). assert (1 <= inject_Z k) by (change 1 with (inject_Z 1); rewrite <- Zle_Qle; exact Hk). nra. Qed.
Lemma process_items_spec : forall l l', process_items l = Ok l' -> Forall2 (fun i i' : item => fst i = fst i' /\ process (snd i) = Ok (snd i')) l l'.
Proof.
  induction l as [|[[[k t] a] x] l IH]; intros l' E; cbn [process_items] in E; [injection E as <-; constructor|]. destruct (process x) as [x'|] eqn:Ex; [|discriminate]. cbn [bind] in E. destruct (process_items l) as [r'|]; [|discriminate]. cbn [bind] in E. injection E as <-. constructor; [auto|apply IH; reflexivity].
Qed.
Lemma process_written : forall o o', written o -> process o = Ok o' -> written o'.
Proof.
  induction o as [ps qs d|n b IH|u b IH|d dl0 n items IH|b m g IH] using sop_nested; intros o' W E.
  - injection E as <-. exact W.
  - cbn [process] in E. destruct (process b) as [b'|]; [|discriminate]. injection E as <-. destruct W as [W Hn]. split; [apply IH; auto|exact Hn].
  - cbn [process] in E. destruct (process b) as [b'|]; [|discriminate]. injection E as <-. destruct W as [W Hn]. split; [apply IH; auto|exact Hn].
  - rewrite process_sched in E. destruct (process_items items) as [items'|] eqn:Ei; [|discriminate]. injection E as <-. apply written_items in W. destruct W as (Hd & Hn & N & W). apply process_items_spec in Ei. apply written_items. split; [exact Hd|]. split; [exact Hn|]. assert (Ef : map fst items = map fst items'). { clear - Ei. induction Ei as [|? ? ? ? [? _] ? IHe]; [reflexivity|]. cbn. congruence. }
    split. { replace (map (fun i : item => fst (fst (fst i))) items') with (map (fun i : item => fst (fst (fst i))) items); [exact N|]. rewrite <- !(map_map fst (fun i => fst (fst i))). rewrite Ef. reflexivity. }
    apply Forall_forall. intros i' Hi'. destruct (Forall2_in_r _ _ _ _ Ei Hi') as (i & Hi & E1 & E2). rewrite <- E1. split; [apply (proj1 (Forall_forall _ _) W _ Hi)|]. eapply (proj1 (Forall_forall _ _) IH _ Hi); [apply (proj1 (Forall_forall _ _) W _ Hi)|exact E2].
  - cbn [process] in E. destruct (process b) as [b'|] eqn:Eb; [|discriminate]. cbn [bind] in E. destruct (determine_compensation_pulse b' m g) as [pulses|] eqn:Ep; [|discriminate]. injection E as <-. destruct W as (W & _ & Hg & Nm & HM). destruct (determine_pulses _ _ _ _ Hg HM Ep) as (timed & m0 & _ & _ & N & P & _).
    apply written_items. split; [reflexivity|]. split; [lia|]. split; [apply pulse_keys, N|]. constructor; [split; [reflexivity|apply IH; auto]|]. apply Forall_forall. intros i Hi. apply in_map_iff in Hi. destruct Hi as ([p q] & <- & Hi). split; [reflexivity|]. cbn [snd pulse_item fst]. apply square_written. destruct (P p q Hi) as (s & M & _ & _ & _ & _ & HL). apply Qlt_le_weak. eapply limits_duration; eassumption.
Qed.

(** the passes keep the delay an operation asks for *)
Lemma compile_delay st b b' : compile st b = Ok b' -> delay_of b' = delay_of b.
Proof.
  unfold compile. destruct (process b) as [b1|] eqn:E; [|discriminate]. cbn [bind]. intros Et. transitivity (delay_of b1).
  - destruct b1 as [ps qs dl|n c|u c|d dl n items|c m g]; try (cbn [timing] in Et; injection Et as <-; reflexivity); try (cbn [timing] in Et; destruct (timing st c); [|discriminate]; injection Et as <-; reflexivity).
    rewrite timing_sched in Et. destruct (timing_items st items); [|discriminate]. cbn [bind] in Et. destruct (mapM _ _); [|discriminate]. cbn [bind] in Et. destruct (determine_level _ _ _); [|discriminate]. injection Et as <-. reflexivity.
  - destruct b as [ps qs dl|n c|u c|d dl n items|c m g]; try (cbn [process] in E; injection E as <-; reflexivity); try (cbn [process] in E; destruct (process c); [|discriminate]; injection E as <-; reflexivity).
    + rewrite process_sched in E. destruct (process_items items); [|discriminate]. injection E as <-. reflexivity.
    + cbn [process] in E. destruct (process c); [|discriminate]. cbn [bind] in E. destruct (determine_compensation_pulse _ _ _); [|discriminate]. injection E as <-. reflexivity.
Qed.

(** ** The compensated schedule *)
Definition is_pulse_at (x : string * params) (i : item) (s : Q) : Prop := exists k t, i = (k, t, Some s, square_pulse (fst x) (snd x)).
Definition delay0 (o : sop) : Q := match delay_of o with Some d => d | None => 0 end.
Lemma starts_nth (out l : list sch) k s s' t : map s_name out = map s_name l -> NoDup (map s_name l) -> nth_error l k = Some s -> Starts out (s_name s) t -> nth_error out k = Some s' -> s_abs s' = Some t.
Proof.
  intros En N Hk (s2 & Hin & Hn & Ht) Hk'. assert (E : s2 = s'); [|congruence]. rewrite <- En in N. assert (Hn' : s_name s' = s_name s). { assert (E : nth_error (map s_name out) k = nth_error (map s_name l) k) by (rewrite En; reflexivity). rewrite !nth_error_map, Hk, Hk' in E. cbn in E. congruence. }
  apply nth_error_In in Hk'. clear - Hin Hk' N Hn Hn'. induction out as [|x l0 IH]; [destruct Hin|]. cbn in N. inversion N as [|? ? Hx N']; subst. destruct Hin as [->|Hin], Hk' as [->|Hk']; auto; exfalso; apply Hx; apply in_map_iff; [exists s'|exists s2]; split; auto; congruence.
Qed.
Lemma compensated : forall b max grid out, written (PComp b max grid) -> compile ASAP (PComp b max grid) = Ok out ->
  exists d k tcs a b' pulses items m, out = PSched (Some d) None 1 ((k, tcs, Some a, b') :: items) /\ compile ASAP b = Ok b' /\ regular (table b') /\
    sum_end (table b') 0 (map fst max) false = Ok m /\
    NoDup (map fst pulses) /\
    (forall p q, In (p, q) pulses -> exists s M, lookup m p = Some (s, start q) /\ lookup max p = Some M /\ 0 < M /\ ~ s == 0 /\ in_limits grid M s q) /\
    (forall p s e, lookup m p = Some (s, e) -> lookup max p <> None -> s == 0 \/ exists q, In (p, q) pulses) /\
    Forall2 (fun x i => exists s, is_pulse_at x i s /\ s == a + start (snd x) + delay0 b') pulses items.
Proof.
  intros b max grid out (W & _ & Hg & Nm & HM) E. unfold compile in E. cbn [process] in E. destruct (process b) as [b1|] eqn:Eb; [|discriminate]. cbn [bind] in E. destruct (determine_compensation_pulse b1 max grid) as [pulses|] eqn:Ep; [|discriminate]. cbn [bind] in E. pose proof (process_written _ _ W Eb) as W1.
  destruct (determine_pulses _ _ _ _ Hg HM Ep) as (timed & m & Ht & Es & N & P & P').
  rewrite timing_sched in E. cbn [timing_items body_item] in E. match type of E with bind (bind ?x _) _ = _ => destruct x as [b'|] eqn:Eb'; [|discriminate] end. cbn [bind] in E.
  assert (Et : timing_items ASAP (map pulse_item pulses) = Ok (map pulse_item pulses)). { clear. induction pulses as [|[p q] l IH]; [reflexivity|]. cbn [map timing_items pulse_item]. cbn [square_pulse valid bind]. rewrite IH. reflexivity. }
  rewrite Et in E. cbn [bind] in E.
  assert (Ebt : timing ASAP b1 = Ok b'). { destruct b1 as [ps qs dl|n' c'|u' c'|[dd|] dl' n' items'|c' m' g']; try exact Eb'; [destruct (valid _); [|discriminate]; injection Eb' as <-; reflexivity|apply written_items in W1; destruct W1 as [[=] _]|discriminate]. }
  assert (Ed : timed = b'). { destruct b1; try congruence; subst timed; symmetry; eapply untimed_sum; try eassumption. }
  subst timed.
  destruct (mapM item_sch _) as [ss|] eqn:Em; [|discriminate]. cbn [bind] in E. destruct (determine_level ASAP 1 ss) as [[ol d]|] eqn:El; [|discriminate]. cbn [bind fst snd] in E. injection E as <-.
  pose proof (item_sch_spec _ _ Em) as Hs. inversion Hs as [|? s0 ? ss' H0 Hss]; subst. cbn [fst snd] in H0. destruct H0 as (N0 & T0 & A0 & D0 & _).
  assert (Enames : map s_name ss' = map (fun i : item => fst (fst (fst i))) (map pulse_item pulses)). { clear - Hss. induction Hss as [|? ? ? ? [? _] ? IH]; [reflexivity|]. cbn [map]. rewrite IH. f_equal. assumption. }
  assert (Kok : keys_ok (s0 :: ss')). { unfold keys_ok. cbn [map]. rewrite Enames, N0. apply pulse_keys, N. }
  assert (Fr : fresh (s0 :: ss')). { intros s [<-|Hi]; [exact A0|]. destruct (Forall2_in_r _ _ _ _ Hss Hi) as (i & Hi' & _ & _ & Ha & _). apply in_map_iff in Hi'. destruct Hi' as (x & <- & _). exact Ha. }
  destruct (C01_timing_constraints_tight _ _ _ _ _ Kok Fr El) as [En Hst]. cbn [map] in En. destruct ol as [|o0 ol]; [discriminate|]. cbn [map] in En. injection En as En0 En.
  destruct (Hst 0%nat s0 eq_refl) as (a & Sa & _). assert (Ea : s_abs o0 = Some a) by (eapply (starts_nth (o0 :: ol) (s0 :: ss') 0); [cbn; congruence|exact Kok|reflexivity|exact Sa|reflexivity]).
  exists d, body_key, (s_tcs o0), a, b', pulses, (write_all (map pulse_item pulses) ol), m.
  split; [cbn [write_all write_times]; rewrite Ea; reflexivity|]. split; [unfold compile; rewrite Eb; exact Ebt|]. split; [apply (timing_regular ASAP b1 b' W1 Ebt)|]. split; [exact Es|]. split; [exact N|]. split; [exact P|]. split; [exact P'|].
  (* the start times of the pulses *)
  assert (G : forall k x s o1, nth_error pulses k = Some x -> nth_error ss' k = Some s -> nth_error ol k = Some o1 -> exists t, s_abs o1 = Some t /\ t == a + start (snd x) + delay0 b').
  { intros k x s o1 Hx Hk Ho. destruct (Hst (S k) s Hk) as (t & St & Ht'). exists t. split; [eapply (starts_nth (o0 :: ol) (s0 :: ss') (S k)); [cbn; congruence|exact Kok|exact Hk|exact St|exact Ho]|].
    destruct Ht' as [_ (j & c & q & Hc & Hi & Hq)]; [cbn; lia|].
    assert (Hi2 : exists i, nth_error (map pulse_item pulses) k = Some i /\ s_tcs s = snd (fst (fst i)) /\ i = pulse_item x). { exists (pulse_item x). rewrite nth_error_map, Hx. repeat split. clear - Hss Hx Hk. revert k Hx Hk. revert ss' Hss. induction pulses as [|y l IH]; intros ss' Hss k Hx Hk; [destruct k; discriminate|]. inversion Hss as [|? s1 ? ss1 Hy Hr]; subst. destruct k; cbn in Hx, Hk; [injection Hx as <-; injection Hk as <-; apply Hy|eapply IH; eassumption]. }
    destruct Hi2 as (i & _ & Etc & ->). rewrite Etc in Hc. cbn [pulse_item fst snd] in Hc. destruct j as [|j]; [|destruct j; discriminate]. cbn in Hc. injection Hc as <-.
    inversion Hi as [s' r sr tr off offn Hk2 Hr Hsr Hnr Hst2 Ho1 Ho2 Eq]. clear Hi. cbn in Hr. injection Hr as Er. rewrite <- Er in Hnr, Hst2. cbn in Ho1, Ho2. injection Ho1 as <-. injection Ho2 as <-. rewrite <- Eq in Hq. cbn [tc_rel] in Hq.
    assert (Esr : sr = s0). { destruct Hsr as [<-|Hsr]; [reflexivity|]. exfalso. unfold keys_ok in Kok. cbn [map] in Kok. inversion Kok as [|? ? Hn _]; subst. apply Hn. rewrite N0, <- Hnr. apply in_map, Hsr. }
    subst sr. assert (Etr : tr = a). { assert (Hx0 : s_abs o0 = Some tr); [|congruence]. eapply (starts_nth (o0 :: ol) (s0 :: ss') 0); [cbn; congruence|exact Kok|reflexivity|rewrite N0; exact Hst2|reflexivity]. } subst tr.
    assert (Edl : delay_or_0 s0 = delay0 b') by (unfold delay_or_0, delay0; rewrite D0; reflexivity). rewrite Edl in Hq. lra. }
  assert (Ll : List.length ss' = List.length pulses). { apply (f_equal (@List.length _)) in Enames. rewrite !map_length in Enames. exact Enames. }
  assert (Lo : List.length ol = List.length ss'). { apply (f_equal (@List.length _)) in En. rewrite !map_length in En. exact En. }
  clear - G Ll Lo. revert ss' ol Ll Lo G. induction pulses as [|x l IH]; intros [|s ss'] [|o1 ol] Ll Lo G; try discriminate; [constructor|]. cbn [map write_all]. constructor.
  - destruct (G 0%nat x s o1 eq_refl eq_refl eq_refl) as (t & Ht & Hq). exists t. split; [|exact Hq]. exists (pulse_key (fst x)), (s_tcs o1). cbn [pulse_item write_times]. rewrite Ht. reflexivity.
  - apply (IH ss' ol); [cbn in Ll; lia|cbn in Lo; lia|]. intros k y s' o' H1 H2 H3. apply (G (S k) y s' o'); assumption.
Qed.
(** rows of a schedule of compensation pulses *)
Lemma pulse_rows t p : forall pulses items, Forall2 (fun x i => exists s, is_pulse_at x i s) pulses items ->
  exists rows, generate_items t (map (fun '(_, _, a, x) => (a, 0%Z, table x)) items) = Ok rows /\
    flux p rows == fold_right (fun x acc => (if String.eqb (fst x) p then p_amp (snd x) * p_duration (snd x) else 0) + acc) 0 pulses.
Proof.
  induction 1 as [|x i l l' (s & k & tc & ->) Hl IH]; [exists []; split; [reflexivity|cbn; lra]|]. destruct IH as (rows & E & F). cbn [map generate_items table square_pulse generate]. rewrite E. cbn [bind]. eexists. split; [reflexivity|]. rewrite flux_app. cbn [fold_right]. rewrite <- F. unfold leaf_rows. cbn [combine seq List.length map app flux]. unfold on_portb, row_area. cbn [r_is_acq r_what r_duration port clock wave negb andb]. rewrite String.eqb_refl, andb_true_r. cbn; destruct (String.eqb (fst x) p); lra.
Qed.
Lemma sum_pulses p : forall pulses : list (string * params), NoDup (map fst pulses) ->
  (forall q, In (p, q) pulses -> fold_right (fun x acc => (if String.eqb (fst x) p then p_amp (snd x) * p_duration (snd x) else 0) + acc) 0 pulses == p_amp q * p_duration q) /\
  ((forall q, ~ In (p, q) pulses) -> fold_right (fun x acc => (if String.eqb (fst x) p then p_amp (snd x) * p_duration (snd x) else 0) + acc) 0 pulses == 0).
Proof.
  induction pulses as [|[p' q'] l IH]; intros N; [split; [intros q []|intros _; cbn; lra]|]. cbn [map fst] in N. inversion N as [|? ? Hn N']; subst. destruct (IH N') as [I1 I2]. cbn [fold_right fst snd]. destruct (String.eqb_spec p' p) as [->|Hne].
  - assert (Hno : forall q, ~ In (p, q) l) by (intros q Hq; apply Hn; apply in_map_iff; exists (p, q); auto). split; [intros q [[= <-]|Hq]; [rewrite (I2 Hno); lra|exfalso; eapply Hno; exact Hq]|]. intros H. exfalso. apply (H q'). left. reflexivity.
  - split; [intros q [[= -> ->]|Hq]; [congruence|rewrite (I1 q Hq); lra]|]. intros H. rewrite I2; [lra|]. intros q Hq. apply (H q). right. exact Hq.
Qed.

(** ** C12 *)
(** Compiling a PulseCompensation gives a schedule of the compiled body followed by square pulses on the baseband clock, at most one per port and only for listed ports, each with |amplitude| at most the maximum of its port and with the shortest multiple of the time grid as duration for which this is possible. *)
Theorem C12_pulse_limits : forall b max grid out, written (PComp b max grid) -> compile ASAP (PComp b max grid) = Ok out ->
  exists d k tcs a b' pulses items, out = PSched (Some d) None 1 ((k, tcs, Some a, b') :: items) /\ compile ASAP b = Ok b' /\ NoDup (map fst pulses) /\
    Forall2 (fun x i => exists k' tcs' s, i = (k', tcs', Some s, PLeaf [{| t0 := 0; dur := p_duration (snd x); what := {| port := Some (fst x); clock := "cl0.baseband"; wave := Square (p_amp (snd x)); tag := 0 |}; is_acq := false |}] [] None)) pulses items /\
    forall p q, In (p, q) pulses -> exists M n, In (p, M) max /\ Qabs (p_amp q) <= M /\ (1 <= n)%Z /\ p_duration q = inject_Z n * grid /\ M * (inject_Z (n - 1) * grid) < Qabs (p_amp q) * p_duration q.
Proof.
  intros b max grid out W E. destruct (compensated _ _ _ _ W E) as (d & k & tcs & a & b' & pulses & items & m & -> & Eb & _ & _ & N & P & _ & F). exists d, k, tcs, a, b', pulses, items. repeat apply conj; try assumption; try reflexivity.
  - clear - F. induction F as [|x i l l' (s & (k' & t' & ->) & _) F IH]; constructor; [|exact IH]. exists k', t', s. reflexivity.
  - intros p q Hi. destruct (P p q Hi) as (s & M & _ & HM & HMp & Hs & (Ha & (n & Hn & Hd & Hmin) & Hb)). exists M, n. split; [apply lookup_in, HM|]. split; [exact Ha|]. split; [exact Hn|]. split; [exact Hd|].
    assert (Hdp : 0 < p_duration q) by (destruct W as (_ & _ & Hg & _); rewrite Hd; assert (1 <= inject_Z n) by (change 1 with (inject_Z 1); rewrite <- Zle_Qle; exact Hn); nra).
    assert (Eq : Qabs (p_amp q) * p_duration q == Qabs s). { rewrite <- (Qabs_pos (p_duration q)) by lra. rewrite <- Qabs_Qmult, Hb. apply Qabs_opp. } rewrite Eq. lra.
Qed.
(** On every listed port the sum of amplitude times duration over all executed baseband pulses is zero, wherever the compiled schedule is played. *)
Theorem C12_balanced_partial : forall b max grid out t id rows p M, written (PComp b max grid) -> compile ASAP (PComp b max grid) = Ok out ->
  generate (table out) t id = Ok rows -> In (p, M) max -> flux p rows == 0.
Proof.
  intros b max grid out t id rows p M W E Eg Hp. destruct (compensated _ _ _ _ W E) as (d & k & tcs & a & b' & pulses & items & m & -> & Eb & R & Es & N & P & P' & F).
  cbn [table] in Eg. rewrite generate_sub in Eg. cbn [map generate_items] in Eg. destruct (generate (table b') (t + a) (Some 0%Z)) as [rb|] eqn:Erb; [|discriminate]. cbn [bind] in Eg.
  assert (F' : Forall2 (fun x i => exists s, is_pulse_at x i s) pulses items). { clear - F. induction F as [|x i l l' (s & H & _) F IH]; constructor; [exists s; exact H|exact IH]. }
  destruct (pulse_rows t p _ _ F') as (ri & Eri & Fri). rewrite Eri in Eg. cbn [bind] in Eg. injection Eg as <-. rewrite flux_app, Fri.
  assert (Hin : In p (map fst max)) by (apply in_map_iff; exists (p, M); auto). assert (HL : lookup max p = Some M) by (apply lookup_nodup; [apply W|exact Hp]).
  destruct (sum_end_means _ _ _ _ _ _ _ _ R Es Erb) as (_ & _ & D). specialize (D p Hin). destruct (sum_pulses p pulses N) as [S1 S2]. destruct (lookup m p) as [[s e]|] eqn:Em.
  - destruct D as (Fl & _). rewrite Fl. destruct (P' p s e Em) as [Hz|[q Hq]]; [congruence| |].
    + rewrite S2; [lra|]. intros q Hq. destruct (P p q Hq) as (s' & M' & Hl & _ & _ & Hs & _). rewrite Em in Hl. injection Hl as <- _. auto.
    + rewrite (S1 q Hq). destruct (P p q Hq) as (s' & M' & Hl & _ & _ & _ & (_ & _ & Hb)). rewrite Em in Hl. injection Hl as <- _. lra.
  - rewrite (flux_none p rb D), S2; [lra|]. intros q Hq. destruct (P p q Hq) as (s' & M' & Hl & _). congruence.
Qed.
(** ** C13 *)
(** Each compensation pulse starts when or after the last executed baseband pulse of the body on its port ends; exactly then unless the body is an operation that asks for a delay after it. *)
Theorem C13_after_last_pulse_partial : forall b max grid out, written (PComp b max grid) -> compile ASAP (PComp b max grid) = Ok out ->
  exists d k tcs a b' items, out = PSched (Some d) None 1 ((k, tcs, Some a, b') :: items) /\ compile ASAP b = Ok b' /\
  forall i, In i items -> exists k' tcs' s p q, i = (k', tcs', Some s, square_pulse p q) /\
    forall t id rows, generate (table b') (t + a) id = Ok rows ->
      (forall r, In r rows -> on_port p r -> abs_time r + r_duration r <= t + s) /\
      (exists r, In r rows /\ on_port p r /\ t + s == abs_time r + r_duration r + delay0 b').
Proof.
  intros b max grid out W E. destruct (compensated _ _ _ _ W E) as (d & k & tcs & a & b' & pulses & items & m & -> & Eb & R & Es & N & P & P' & F). exists d, k, tcs, a, b', items. split; [reflexivity|]. split; [exact Eb|]. intros i Hi.
  destruct (Forall2_in_r _ _ _ _ F Hi) as ([p q] & Hx & s & (k' & tc' & ->) & Hs). exists k', tc', s, p, q. split; [reflexivity|]. cbn [fst snd] in Hs. intros t id rows Eg. destruct (P p q Hx) as (sm & M & Hl & HM & _).
  destruct (sum_end_means _ _ _ _ _ _ _ _ R Es Eg) as (_ & _ & D). specialize (D p). rewrite Hl in D. destruct D as (_ & U & r & Hr & Ho & A); [apply in_map_iff; exists (p, M); split; [reflexivity|apply lookup_in, HM]|].
  assert (Hd0 : 0 <= delay0 b'). { unfold delay0. rewrite (compile_delay _ _ _ Eb). destruct W as (_ & Wd & _). destruct (delay_of b) as [x|]; [apply Wd; reflexivity|lra]. }
  split; [intros r' Hr' Ho'; specialize (U r' Hr' Ho'); lra|]. exists r. split; [exact Hr|]. split; [exact Ho|]. rewrite A. lra.
Qed.
