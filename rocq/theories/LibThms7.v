(** C44: dark ESR with a frequency sweep. *)
From Verif Require Import Base TimingModel TimingSpec LibModel LibSpec LibProps LibEngine LibProps2 LibThms4 LibThms5.
From Verif Require ClockProps.
Open Scope Q_scope.
Open Scope string_scope.
Open Scope list_scope.

Lemma str_cancel_l a b c : (a ++ b)%string = (a ++ c)%string -> b = c.
Proof. induction a; cbn; intros h; [exact h|]. injection h as h. auto. Qed.
Definition l_set (fmt : Q -> string) (clk : string) (f : Q) : string := ("set_freq (" ++ clk ++ " " ++ fmt f ++ " Hz)")%string.
Definition l_spec (fmt : Q -> string) (f : Q) : string := ("Spectroscopy (" ++ fmt f ++ " Hz)")%string.
Lemma l_set_inj fmt clk f g : l_set fmt clk f = l_set fmt clk g -> fmt f = fmt g.
Proof. unfold l_set. intros h. do 3 apply str_cancel_l in h. now apply str_cancel in h. Qed.
Lemma l_spec_inj fmt f g : l_spec fmt f = l_spec fmt g -> fmt f = fmt g.
Proof. unfold l_spec. intros h. apply str_cancel_l in h. now apply str_cancel in h. Qed.

Section NV.
Context (u : nat -> string) (fmt : Q -> string) (q clk : string).
Definition nv_head : list entry := [ ("Charge reset pre 0", mk_tc None None 0, ChargeReset q); ("CRCount pre 0", mk_tc None None 0, CRCount q) ]%string.
Definition b_nv (base i : nat) (f : Q) : list entry :=
  [ (l_set fmt clk f, mk_tc None None 0, SetFreq clk f); ("Reset " ++ dec i, mk_tc None None 0, ResetGate [q]); (l_spec fmt f, mk_tc None None 0, Spectroscopy q);
    ("Measure " ++ dec i, mk_tc None None 0, MeasureGate [q] None None); ("CRCount post " ++ dec i, mk_tc None None 0, CRCount q) ]%string.
Definition nv_body (s : lsched) (idx : nat) (spec_freq : Q) : result lsched :=
    do x <- add u s (Some (l_set fmt clk spec_freq)) (SetFreq clk spec_freq) None None 0;
    do x <- add u (fst x) (Some ("Reset " ++ dec idx)%string) (ResetGate [q]) None None 0;
    do x <- add u (fst x) (Some (l_spec fmt spec_freq)) (Spectroscopy q) None None 0;
    do x <- add u (fst x) (Some ("Measure " ++ dec idx)%string) (MeasureGate [q] None None) None None 0;
    do x <- add u (fst x) (Some ("CRCount post " ++ dec idx)%string) (CRCount q) None None 0;
    Ok (fst x).
Definition s_head (reps : Z) : lsched := ext (new reps) nv_head.
Lemma nv_unfold freqs reps : nv_dark_esr_sched_nco u fmt q clk freqs reps = for_enum freqs (s_head reps) nv_body.
Proof. reflexivity. Qed.

Lemma dec_inj p i j : (p ++ dec i)%string = (p ++ dec j)%string -> i = j.
Proof. intros h. apply str_cancel_l in h. apply (label_last "" "" i j). now rewrite h. Qed.
Lemma nv_names freqs : NoDup (map fmt freqs) -> forall base i n, In n (names (blocks b_nv base i freqs)) ->
  (exists f, In f freqs /\ (n = l_set fmt clk f \/ n = l_spec fmt f)) \/ exists j, (i <= j)%nat /\ (n = "Reset " ++ dec j \/ n = "Measure " ++ dec j \/ n = "CRCount post " ++ dec j)%string.
Proof. induction freqs as [|f freqs IH]; intros hn base i n; cbn [blocks]; [easy|]. inversion hn; subst. unfold names. rewrite map_app, in_app_iff. intros [h|h].
  - unfold b_nv in h. cbn [map e_name fst In] in h. destruct h as [<-|[<-|[<-|[<-|[<-|[]]]]]]; [left; exists f; cbn; auto|right; exists i; auto|left; exists f; cbn; auto|right; exists i; auto|right; exists i; auto].
  - apply IH in h; auto. destruct h as [(f' & hf & h)|(j & hj & h)]; [left; exists f'; cbn; auto|right; exists j; split; [lia|auto]]. Qed.
Lemma nv_nodup freqs : NoDup (map fmt freqs) -> forall base i, NoDup (names (blocks b_nv base i freqs)).
Proof. induction freqs as [|f freqs IH]; intros hn base i; cbn [blocks]; [constructor|]. inversion hn as [|x l hx hl]; subst. unfold names. rewrite map_app. apply nodup_app_intro.
  - unfold b_nv. cbn [map e_name fst]. repeat constructor; cbn [In]; intros h; repeat (destruct h as [h|h]; [discriminate h|]); exact h.
  - apply IH; auto.
  - intros n h g. apply nv_names in g; auto. unfold b_nv in h. cbn [map e_name fst In] in h.
    assert (hf : forall f', In f' freqs -> fmt f <> fmt f') by (intros f' hf' e; apply hx; rewrite e; now apply in_map).
    destruct g as [(f' & hf' & [g|g])|(j & hj & [g|[g|g]])]; subst n; destruct h as [h|[h|[h|[h|[h|[]]]]]]; try discriminate h;
      [apply l_set_inj in h; now apply (hf f') | apply l_spec_inj in h; now apply (hf f') | apply (dec_inj "Reset ") in h; lia | apply (dec_inj "Measure ") in h; lia | apply (dec_inj "CRCount post ") in h; lia]. Qed.
Lemma nv_all_nodup freqs : NoDup (map fmt freqs) -> NoDup (names (nv_head ++ blocks b_nv 2 0 freqs)).
Proof. intros h. unfold names. rewrite map_app. apply nodup_app_intro.
  - cbn. repeat constructor; cbn; intuition discriminate.
  - now apply nv_nodup.
  - intros n h1 h2. apply nv_names in h2; auto. cbn in h1. destruct h2 as [(f' & hf' & [g|g])|(j & hj & [g|[g|g]])]; subst n; destruct h1 as [h1|[h1|[]]]; discriminate h1. Qed.

Lemma add_inv s l o ref pt rel x : add u s (Some l) o ref pt rel = Ok x -> ~ In l (names (l_entries s)) /\ names (l_entries (fst x)) = names (l_entries s) ++ [l].
Proof. unfold add. destruct (known l (map e_name (l_entries s))) eqn:E; [discriminate|]. intros h. injection h as <-. cbn [fst l_entries]. split.
  - intros h. apply known_true in h. unfold names in h. congruence.
  - unfold names. now rewrite map_app. Qed.
Lemma add_err s l o ref pt rel e : add u s (Some l) o ref pt rel = Err e -> e = ValueError.
Proof. unfold add. destruct (known _ _); congruence. Qed.
Lemma nv_body_inv s i f s' : nv_body s i f = Ok s' -> ~ In (l_set fmt clk f) (names (l_entries s)) /\ In (l_set fmt clk f) (names (l_entries s')) /\ (forall n, In n (names (l_entries s)) -> In n (names (l_entries s'))).
Proof. unfold nv_body. intros h. repeat match type of h with bind ?m _ = _ => let x := fresh "x" in let E := fresh "E" in destruct m as [x|] eqn:E; [cbn [bind] in h; apply add_inv in E; destruct E as (? & ?)|discriminate] end.
  injection h as <-. split; auto. repeat match goal with H : names _ = _ |- _ => rewrite H; clear H end. split; [|intros n hn]; rewrite !in_app_iff; cbn [In]; auto 10. Qed.
Lemma nv_body_err s i f e : nv_body s i f = Err e -> e = ValueError.
Proof. unfold nv_body. intros h. repeat match type of h with bind ?m _ = _ => let x := fresh "x" in let E := fresh "E" in destruct m as [x|] eqn:E; [cbn [bind] in h|injection h as <-; now apply add_err in E] end. discriminate. Qed.
Lemma nv_ok_nodup freqs : forall s i s', foldM (fun s ix => nv_body s (fst ix) (snd ix)) (combine (seq i (List.length freqs)) freqs) s = Ok s' ->
  NoDup (map fmt freqs) /\ forall f, In f freqs -> ~ In (l_set fmt clk f) (names (l_entries s)).
Proof. induction freqs as [|f freqs IH]; intros s i s' h; [split; [constructor|easy]|]. cbn [List.length seq combine foldM fst snd] in h.
  destruct (nv_body s i f) as [s1|] eqn:E; [|discriminate]. cbn [bind] in h. apply nv_body_inv in E as (h1 & h2 & h3). apply IH in h as (h4 & h5). split.
  - cbn. constructor; auto. rewrite in_map_iff. intros (g & e & hg). apply (h5 g hg). unfold l_set in *. now rewrite e.
  - intros g [<-|hg]; auto. intros hin. apply (h5 g hg). auto. Qed.
Lemma nv_err freqs : forall s i e, foldM (fun s ix => nv_body s (fst ix) (snd ix)) (combine (seq i (List.length freqs)) freqs) s = Err e -> e = ValueError.
Proof. induction freqs as [|f freqs IH]; intros s i e h; [discriminate|]. cbn [List.length seq combine foldM fst snd] in h. destruct (nv_body s i f) as [s1|] eqn:E; cbn [bind] in h; [eauto|]. apply nv_body_err in E. congruence. Qed.
End NV.

(** Dark ESR with a frequency sweep: after the initial charge reset and counting, for every frequency the clock is set to it, then reset,
    spectroscopy, measurement and counting follow each other; two frequencies that print alike are rejected *)
Theorem C44_nv_dark_esr_nco : forall u fmt gdur gdelay q clk freqs reps,
  Uuids u -> OnlyMeasureDelays gdelay -> NoDup (map fmt freqs) ->
  exists s tl t0 t1, nv_dark_esr_sched_nco u fmt q clk freqs reps = Ok s /\ l_reps s = reps /\ Timeline gdur gdelay s tl /\ List.length tl = (2 + 5 * List.length freqs)%nat /\
    Segment tl 0 [ ("Charge reset pre 0", ChargeReset q, t0); ("CRCount pre 0", CRCount q, t1) ]%string /\ t1 == t0 + gdur (ChargeReset q) /\
    forall i f, nth_error freqs i = Some f ->
    exists n1 n2 n3 n4 n5 t_set t_reset t_spec t_meas t_count,
      Segment tl (2 + 5 * i) [ (n1, SetFreq clk f, t_set); (n2, ResetGate [q], t_reset); (n3, Spectroscopy q, t_spec); (n4, MeasureGate [q] None None, t_meas); (n5, CRCount q, t_count) ] /\
      AfterPrevious gdur gdelay tl (2 + 5 * i) /\ t_reset == t_set /\ t_spec == t_reset + gdur (ResetGate [q]) /\ t_meas == t_spec + gdur (Spectroscopy q) /\
      t_count == t_meas + gdur (MeasureGate [q] None None) + delay gdelay (MeasureGate [q] None None).
Proof. intros u fmt gdur gdelay q clk freqs reps hu hd hn. rewrite nv_unfold. set (b := b_nv fmt q clk).
  pose proof (nv_all_nodup fmt q clk freqs hn) as hnd.
  pose proof (for_enum_blocks b (nv_body u fmt q clk) freqs (s_head q reps)) as G. change (List.length (l_entries (s_head q reps))) with 2%nat in G. change (l_entries (s_head q reps)) with (nv_head q) in G.
  specialize (G ltac:(intros s i x hin h; unfold b, b_nv, nv_body in *; build_block h) hnd).
  set (s := ext (s_head q reps) (blocks b 2 0 freqs)) in *. assert (he : l_entries s = nv_head q ++ blocks b 2 0 freqs) by reflexivity.
  destruct (run_entries gdur gdelay s) as (T & h2 & h3).
  - discriminate.
  - rewrite he. exact hnd.
  - rewrite he. apply backall_app. split; [unfold nv_head; cbn [BackAll app]; unfold Back1; repeat split; discriminate|]. apply backall_blocks. intros base i x. unfold b, b_nv. back_label.
  - rewrite he. intros e h. apply in_app_or in h as [h|h]; [cbn in h; intuition (subst; reflexivity)|].
    assert (K : forall l a c e, In e (blocks b a c l) -> leaf (e_op e) = true); [|now apply (K _ _ _ _ h)]. clear. induction l as [|x l IH]; intros a c e h; cbn [blocks] in h; [easy|]. apply in_app_or in h as [h|h]; [cbn in h; intuition (subst; reflexivity)|eauto].
  - rewrite he in h2, h3. set (es := nv_head q ++ blocks b 2 0 freqs) in *.
    assert (hbl : forall l base i, List.length (blocks b base i l) = (5 * List.length l)%nat) by (intros; now apply blocks_len).
    exists s, (tl_of es T), (T 0%nat), (T 1%nat). split; [exact G|]. split; [reflexivity|]. split; [exact h2|]. split; [rewrite tl_len; unfold es; rewrite app_length, hbl; cbn; lia|].
    split. { eexists [], _. split; reflexivity. }
    split. { rewrite (rel_prev _ _ es T 0 _ _ h3 eq_refl eq_refl eq_refl). rel_ok hd. }
    intros i f hi. pose proof (block_at' b (nv_head q) freqs i f T hi) as K. cbn zeta in K. rewrite hbl, firstn_length in K.
    assert (hil : (i < List.length freqs)%nat) by (apply nth_error_Some; congruence). rewrite Nat.min_l in K by lia. change (List.length (nv_head q)) with 2%nat in K. fold es in K. destruct K as (hs & g).
    set (n := (2 + 5 * i)%nat) in *. do 5 eexists. exists (T n), (T (S n)), (T (S (S n))), (T (S (S (S n)))), (T (S (S (S (S n))))). split; [exact hs|].
    pose proof (g 0%nat _ eq_refl) as g0. pose proof (g 1%nat _ eq_refl) as g1. pose proof (g 2%nat _ eq_refl) as g2. pose proof (g 3%nat _ eq_refl) as g3. pose proof (g 4%nat _ eq_refl) as g4. clearbody n.
    rewrite Nat.add_0_r in g0. replace (n + 1)%nat with (S n) in g1 by lia. replace (n + 2)%nat with (S (S n)) in g2 by lia. replace (n + 3)%nat with (S (S (S n))) in g3 by lia. replace (n + 4)%nat with (S (S (S (S n)))) in g4 by lia.
    split; [exact (after_previous' _ _ _ _ _ _ _ hd h3 g0)|].
    split; [rewrite (rel_prev _ _ _ _ _ _ _ h3 g1 g0 eq_refl); rel_ok hd|]. split; [rewrite (rel_prev _ _ _ _ _ _ _ h3 g2 g1 eq_refl); rel_ok hd|].
    split; [rewrite (rel_prev _ _ _ _ _ _ _ h3 g3 g2 eq_refl); rel_ok hd|]. rewrite (rel_prev _ _ _ _ _ _ _ h3 g4 g3 eq_refl). rel_ok hd. unfold delay. destruct (gdelay _); ring. Qed.

(** ... even if the user repeats a frequency on purpose: the labels clash *)
Theorem C44_nv_dark_esr_nco_repeated : forall u fmt q clk freqs reps, ~ NoDup (map fmt freqs) -> nv_dark_esr_sched_nco u fmt q clk freqs reps = Err ValueError.
Proof. intros u fmt q clk freqs reps h. rewrite nv_unfold. unfold for_enum. destruct (foldM _ _ _) as [s|e] eqn:E.
  - apply nv_ok_nodup in E as (g & _). contradiction.
  - apply nv_err in E. now subst. Qed.
