(** C41: clocks of schedules. *)
From Verif Require Import Base TimingModel TableModel CircModel CircSpec CircProps CircProps3 ClockSpec.
From Coq Require Import List Arith Lia.
Open Scope string_scope.
Open Scope list_scope.
Open Scope Q_scope.

(** ** The frequencies in the schedule *)
Definition def_step (all : dict freq) (x : string * freq) : result (dict freq) :=
  match get all (fst x) with Some f' => if freq_neq (snd x) f' then Err ValueError else Ok (put all (fst x) (snd x)) | None => Ok (put all (fst x) (snd x)) end.
Lemma foldM_app {A B} (f : B -> A -> result B) l l' b : foldM f (l ++ l') b = do b' <- foldM f l b; foldM f l' b'.
Proof. revert b. induction l as [|x l IH]; intros b; [reflexivity|]. cbn [app foldM]. destruct (f b x); [apply IH|reflexivity]. Qed.
Definition extract_ops := fix go (l : list (string * gop)) (all : dict freq) : result (dict freq) := match l with [] => Ok all | (_, x) :: r => do all <- extract x all; go r all end.
Lemma extract_sched own d res n ops ss all : extract (GSched own d res n ops ss) all = do all <- extract_ops ops all; foldM extract_res res all.
Proof. reflexivity. Qed.
Lemma extract_own res all : foldM extract_res res all = foldM def_step (own_freqs res) all.
Proof.
  revert all. induction res as [|[c [f|]] res IH]; intros all; [reflexivity| |apply IH]. change (own_freqs ((c, Some f) :: res)) with ((c, f) :: own_freqs res). cbn [foldM]. change (extract_res all (c, Some f)) with (def_step all (c, f)). destruct (def_step all (c, f)); [apply IH|reflexivity].
Qed.
Lemma extract_defs : forall o all, extract o all = foldM def_step (definitions o) all.
Proof.
  induction o as [id l|c d|n b IH|u b IH|e m g r b IH|own d r n ops ss IH] using gop_ind'; intros all; try reflexivity; try apply IH.
  rewrite extract_sched. cbn [definitions]. rewrite foldM_app. enough (H : extract_ops ops all = foldM def_step (flat_map (fun x => definitions (snd x)) ops) all) by (rewrite H; destruct (foldM def_step _ all); [apply extract_own|reflexivity]).
  revert all. induction IH as [|[k x] ops Hx _ IHo]; intros all; [reflexivity|]. cbn [extract_ops flat_map snd]. rewrite foldM_app, <- Hx. cbn [snd]. destruct (extract x all); [apply IHo|reflexivity].
Qed.
Lemma freq_neq_false f f' : freq_neq f f' = false <-> exists q q', f = Some q /\ f' = Some q' /\ q == q'.
Proof.
  unfold freq_neq. destruct f as [q|], f' as [q'|]; split; try discriminate; try (intros (? & ? & ? & ? & ?); discriminate).
  - intros H. apply negb_false_iff in H. apply Qeq_bool_iff in H. eauto 6.
  - intros (? & ? & [= <-] & [= <-] & H). apply negb_false_iff, Qeq_bool_iff, H.
Qed.
(** folding over a list of definitions, when those before it are [pre] *)
Lemma defs_fold : forall l pre all, agreeing pre -> (forall c f, get all c = Some f -> In (c, f) pre) -> (forall c f, In (c, f) pre -> exists f', get all c = Some f') ->
  (agreeing (pre ++ l) -> exists all', foldM def_step l all = Ok all') /\
  (forall all', foldM def_step l all = Ok all' -> agreeing (pre ++ l) /\ (forall c f, get all' c = Some f -> In (c, f) (pre ++ l)) /\ (forall c f, In (c, f) (pre ++ l) -> exists f', get all' c = Some f')) /\
  (~ agreeing (pre ++ l) -> foldM def_step l all = Err ValueError).
Proof.
  induction l as [|[c f] l IH]; intros pre all Ha Hs Hd.
  - rewrite app_nil_r. cbn [foldM]. split; [eauto|]. split; [intros all' [= <-]; auto|intros H; contradiction].
  - assert (Step : (forall f', get all c = Some f' -> exists q q', f = Some q /\ f' = Some q' /\ q == q') <-> agreeing (pre ++ [(c, f)])).
    { split.
      - intros H i j c0 f0 f1 Hij Hi Hj. assert (j < List.length (pre ++ [(c, f)]))%nat by (apply nth_error_Some; congruence). rewrite app_length in H0. cbn in H0.
        destruct (Nat.eq_dec j (List.length pre)) as [->|Hne].
        + rewrite nth_error_app2, Nat.sub_diag in Hj by lia. injection Hj as <- <-. rewrite nth_error_app1 in Hi by lia. destruct (Hd c f0 (nth_error_In _ _ Hi)) as (f' & Hf'). destruct (H f' Hf') as (q & q' & -> & -> & Hq).
          apply Hs, In_nth_error in Hf'. destruct Hf' as (k & Hk). destruct (Nat.lt_trichotomy i k) as [L|[->|L]]; [destruct (Ha _ _ _ _ _ L Hi Hk) as (x & y & -> & [= <-] & E)|rewrite Hi in Hk; injection Hk as ->; exists q', q; repeat split; symmetry; exact Hq|destruct (Ha _ _ _ _ _ L Hk Hi) as (x & y & [= <-] & -> & E)].
          * exists x, q. repeat split. rewrite E. symmetry. exact Hq.
          * exists y, q. repeat split. rewrite <- E. symmetry. exact Hq.
        + rewrite nth_error_app1 in Hi, Hj by lia. exact (Ha _ _ _ _ _ Hij Hi Hj).
      - intros H f' Hf'. apply Hs, In_nth_error in Hf'. destruct Hf' as (k & Hk). assert (k < List.length pre)%nat by (apply nth_error_Some; congruence).
        destruct (H k (List.length pre) c f' f) as (q & q' & -> & -> & E); [lia|rewrite nth_error_app1 by lia; exact Hk|rewrite nth_error_app2, Nat.sub_diag by lia; reflexivity|]. exists q', q. repeat split. symmetry. exact E. }
    assert (Pre : agreeing (pre ++ (c, f) :: l) -> agreeing (pre ++ [(c, f)])).
    { intros H i j c0 f0 f1 Hij Hi Hj. assert (j < List.length (pre ++ [(c, f)]))%nat by (apply nth_error_Some; congruence). apply (H i j c0 f0 f1 Hij); change ((c, f) :: l) with ([(c, f)] ++ l); rewrite app_assoc, nth_error_app1 by lia; assumption. }
    assert (Next : agreeing (pre ++ [(c, f)]) -> def_step all (c, f) = Ok (put all c f)).
    { intros H. unfold def_step. cbn [fst snd]. destruct (get all c) as [f'|] eqn:E; [|reflexivity]. rewrite (proj2 (freq_neq_false f f') (proj2 Step H f' eq_refl)). reflexivity. }
    assert (Bad : ~ agreeing (pre ++ [(c, f)]) -> def_step all (c, f) = Err ValueError).
    { intros H. unfold def_step. cbn [fst snd]. destruct (get all c) as [f'|] eqn:E; [|exfalso; apply H, Step; discriminate]. destruct (freq_neq f f') eqn:N; [reflexivity|]. exfalso. apply H, Step. intros f'' [= <-]. apply freq_neq_false, N. }
    assert (Dec : agreeing (pre ++ [(c, f)]) \/ ~ agreeing (pre ++ [(c, f)])).
    { destruct (get all c) as [f'|] eqn:E; [|left; apply Step; discriminate]. destruct (freq_neq f f') eqn:N; [right; intros H|left; apply Step; intros f'' [= <-]; apply freq_neq_false, N]. pose proof (proj2 Step H f' eq_refl) as G. apply freq_neq_false in G. congruence. }
    assert (Rest : agreeing (pre ++ [(c, f)]) -> (forall c0 f0, get (put all c f) c0 = Some f0 -> In (c0, f0) (pre ++ [(c, f)])) /\ (forall c0 f0, In (c0, f0) (pre ++ [(c, f)]) -> exists f', get (put all c f) c0 = Some f')).
    { intros _. split; intros c0 f0; rewrite get_put; destruct (String.eqb_spec c c0) as [->|Hne].
      - intros [= ->]. apply in_or_app. right. left. reflexivity.
      - intros H. apply in_or_app. left. apply Hs, H.
      - eauto.
      - intros H. apply in_app_or in H. destruct H as [H|[[= ? _]|[]]]; [eapply Hd, H|contradiction]. }
    replace (pre ++ (c, f) :: l) with ((pre ++ [(c, f)]) ++ l) in * by (rewrite <- app_assoc; reflexivity). cbn [foldM].
    destruct Dec as [D|D].
    + rewrite (Next D). cbn [bind]. destruct (Rest D) as [R1 R2]. destruct (IH (pre ++ [(c, f)]) (put all c f) D R1 R2) as (I1 & I2 & I3). auto.
    + rewrite (Bad D). cbn [bind]. split; [intros H; contradiction (D (Pre H))|]. split; [discriminate|reflexivity].
Qed.
Lemma extract_spec o : (agreeing (definitions o) -> exists all, extract o [] = Ok all) /\
  (forall all, extract o [] = Ok all -> agreeing (definitions o) /\ (forall c f, get all c = Some f -> In (c, f) (definitions o)) /\ (forall c f, In (c, f) (definitions o) -> exists f', get all c = Some f')) /\
  (~ agreeing (definitions o) -> extract o [] = Err ValueError).
Proof.
  rewrite extract_defs. apply (defs_fold (definitions o) [] []).
  - intros i j c f f' _ H. destruct i; discriminate.
  - discriminate.
  - intros c f [].
Qed.
Lemma with_device_get cfg all c : get (with_device cfg all) c = match get all c with Some f => Some f | None => get (clocks cfg) c end.
Proof.
  unfold with_device. revert all. induction (clocks cfg) as [|[k f] l IH]; intros all; cbn [fold_left get]; [destruct (get all c); reflexivity|]. rewrite IH. unfold has. destruct (get all k) as [f'|] eqn:E.
  - destruct (String.eqb_spec k c) as [->|_]; [rewrite E; reflexivity|reflexivity].
  - rewrite get_put. destruct (String.eqb_spec k c) as [->|_]; [rewrite E; reflexivity|reflexivity].
Qed.
Lemma known_spec cfg o all c q : extract o [] = Ok all -> (get (with_device cfg all) c = Some (Some q) -> Known cfg o c q) /\ (Known cfg o c q -> exists q', get (with_device cfg all) c = Some (Some q') /\ q == q').
Proof.
  intros E. destruct (proj1 (proj2 (extract_spec o)) all E) as (A & S & D). rewrite with_device_get. split.
  - destruct (get all c) as [f|] eqn:Ec; [intros [= ->]; left; apply S, Ec|]. intros H. right. split; [|exact H]. intros f Hf. destruct (D c f Hf). congruence.
  - intros [H|[Hn Hc]].
    + destruct (D c _ H) as (f & Hf). rewrite Hf. pose proof (S c f Hf) as Hf'. apply In_nth_error in H, Hf'. destruct H as (i & Hi), Hf' as (j & Hj). destruct (Nat.lt_trichotomy i j) as [L|[->|L]].
      * destruct (A _ _ _ _ _ L Hi Hj) as (x & y & [= <-] & -> & Eq). eauto.
      * assert (Hij : Some (c, Some q) = Some (c, f)) by (etransitivity; [symmetry; exact Hi|exact Hj]). injection Hij as <-. exists q. split; reflexivity.
      * destruct (A _ _ _ _ _ L Hj Hi) as (x & y & -> & [= <-] & Eq). exists x. split; [reflexivity|symmetry; exact Eq].
    + destruct (get all c) as [f|] eqn:Ec; [exfalso; eapply Hn, S, Ec|]. exists q. split; [exact Hc|reflexivity].
Qed.

(** ** The resources of the schedules *)
Definition res_t := dict (option freq).
Definition inv (st : res_t * list string) : Prop := forall c, In c (snd st) -> has (fst st) c = true.
Lemma has_get {A} (d : dict A) k : has d k = true <-> exists v, get d k = Some v.
Proof. unfold has. destruct (get d k); split; eauto; try discriminate. intros (v & H). discriminate. Qed.
Definition allows (all : dict freq) (c : string) (q : Q) : Prop := get all c = Some (Some q).
Lemma completed_refl known (used : string -> Prop) res : (forall c, used c -> False) -> Completed known used res res.
Proof. intros H. split; [auto|]. split; [intros c Hc; destruct (H c Hc)|congruence]. Qed.
Lemma completed_trans known (u1 u2 u : string -> Prop) r1 r2 r3 : (forall c, u c <-> u1 c \/ u2 c) -> Completed known u1 r1 r2 -> Completed known u2 r2 r3 -> Completed known u r1 r3.
Proof.
  intros Hu (A1 & B1 & C1) (A2 & B2 & C2). split; [auto|]. split.
  - intros c Hc. apply Hu in Hc. destruct Hc as [Hc|Hc]; [destruct (B1 c Hc) as (v & Hv); eauto|apply B2, Hc].
  - intros c v Hn Hv. destruct (get r2 c) as [w|] eqn:E.
    + pose proof (A2 c w E) as Hw. assert (v = w) by congruence. subst w. destruct (C1 c v Hn E) as [H1 H2]. split; [apply Hu; auto|exact H2].
    + destruct (C2 c v E Hv) as [H1 H2]. split; [apply Hu; auto|exact H2].
Qed.
Lemma clock_step_spec all st c st' : inv st -> clock_step all st c = Ok st' -> inv st' /\ Completed (allows all) (eq c) (fst st) (fst st').
Proof.
  destruct st as [res ver]. intros I. unfold clock_step. destruct (existsb (String.eqb c) ver) eqn:Ev.
  - intros [= <-]. split; [exact I|]. split; [auto|]. split; [|cbn; congruence]. intros c' <-. apply existsb_exists in Ev. destruct Ev as (x & Hx & Ex). apply String.eqb_eq in Ex. subst x. apply has_get, I, Hx.
  - destruct (has res c) eqn:Eh.
    + intros [= <-]. split; [|split; [auto|split; [|cbn; congruence]]]. * intros x Hx. cbn [fst snd] in *. apply in_app_or in Hx. destruct Hx as [Hx|[<-|[]]]; [apply I, Hx|exact Eh]. * intros c' <-. apply has_get, Eh.
    + destruct (get all c) as [[q|]|] eqn:Ea; try discriminate. intros [= <-]. cbn [fst snd]. split.
      * intros x Hx. cbn [fst snd] in *. apply has_get. rewrite get_put. destruct (String.eqb_spec c x) as [->|Hne]; [eauto|]. apply has_get. apply in_app_or in Hx. destruct Hx as [Hx|[<-|[]]]; [apply I, Hx|contradiction].
      * assert (Hn : get res c = None) by (unfold has in Eh; destruct (get res c); [discriminate|reflexivity]). split; [|split].
        -- intros c' v Hv. rewrite get_put. destruct (String.eqb_spec c c') as [->|_]; [congruence|exact Hv].
        -- intros c' <-. rewrite get_put, String.eqb_refl. eauto.
        -- intros c' v Hv. rewrite get_put. destruct (String.eqb_spec c c') as [->|_]; [|congruence]. intros [= <-]. split; [reflexivity|]. exists q. split; [reflexivity|exact Ea].
Qed.
Lemma clock_step_ok all st c : inv st -> (has (fst st) c = true \/ exists q, allows all c q) -> exists st', clock_step all st c = Ok st'.
Proof.
  destruct st as [res ver]. intros _. cbn [fst]. unfold clock_step. destruct (existsb (String.eqb c) ver); [eauto|]. destruct (has res c); [eauto|]. intros [H|(q & Hq)]; [discriminate|]. unfold allows in Hq. rewrite Hq. eauto.
Qed.
Lemma clock_steps_spec all : forall cs st st', inv st -> foldM (clock_step all) cs st = Ok st' -> inv st' /\ Completed (allows all) (fun c => In c cs) (fst st) (fst st').
Proof.
  induction cs as [|c cs IH]; intros st st' I E; cbn [foldM] in E; [injection E as <-; split; [exact I|apply completed_refl; intros c []]|]. destruct (clock_step all st c) as [s|] eqn:Es; [|discriminate]. cbn [bind] in E. destruct (clock_step_spec _ _ _ _ I Es) as [I1 C1]. destruct (IH _ _ I1 E) as [I2 C2]. split; [exact I2|]. eapply completed_trans; [|exact C1|exact C2]. intros c'. cbn. tauto.
Qed.
Lemma clock_steps_ok all : forall cs st, inv st -> (forall c, In c cs -> has (fst st) c = true \/ exists q, allows all c q) -> exists st', foldM (clock_step all) cs st = Ok st'.
Proof.
  induction cs as [|c cs IH]; intros st I H; [eexists; reflexivity|]. cbn [foldM]. destruct (clock_step_ok all st c I (H c (or_introl eq_refl))) as (s & Es). rewrite Es. cbn [bind]. destruct (clock_step_spec _ _ _ _ I Es) as [I1 (C1 & _)]. apply IH; [exact I1|]. intros c' Hc. destruct (H c' (or_intror Hc)) as [Hh|Hq]; [left|right; exact Hq]. apply has_get. apply has_get in Hh. destruct Hh as (v & Hv). eauto.
Qed.
Lemma used_leaf id l c : In c (clocks_used l) <-> Uses (GLeaf id l) c.
Proof.
  unfold clocks_used. rewrite nodup_In, in_map_iff. split.
  - intros (i & <- & Hi). constructor. exact Hi.
  - intros H. inversion H; subst. eauto.
Qed.
Definition go_clocks all := fix go (l : list (string * gop)) (st : res_t * list string) : result (list (string * gop) * (res_t * list string)) :=
  match l with [] => Ok ([], st) | (k, x) :: l' => do p <- set_clocks all st x; let '(x', st) := p in do q <- go l' st; let '(l'', st) := q in Ok ((k, x') :: l'', st) end.
Lemma clocks_sched all st own d res n ops ss : set_clocks all st (GSched own d res n ops ss) = do out <- go_clocks all ops (res, []); let '(ops', st') := out in Ok (GSched own d (fst st') n ops' ss, st).
Proof. reflexivity. Qed.
Lemma set_clocks_spec all : forall o st o' st', inv st -> set_clocks all st o = Ok (o', st') -> inv st' /\ Clocked (allows all) o o' /\ Completed (allows all) (Uses o) (fst st) (fst st').
Proof.
  induction o as [id l|c d|n b IH|u b IH|e m g r b IH|own d r n ops ss IH] using gop_ind'; intros st o' st' I E.
  - cbn [set_clocks] in E. destruct (empty_dec l) as [[Hp Ha]|He]; [rewrite Hp, Ha in E; discriminate|].
    assert (E' : (do st <- foldM (clock_step all) (clocks_used l) st; Ok (GLeaf id l, st)) = Ok (o', st')) by (destruct (pulses l) eqn:Hp; [destruct (acqs l) eqn:Ha; [exfalso; apply He; split; assumption|exact E]|exact E]).
    destruct (foldM (clock_step all) (clocks_used l) st) as [s|] eqn:Es; [|discriminate]. cbn [bind] in E'. injection E' as <- <-. destruct (clock_steps_spec _ _ _ _ I Es) as [I1 C1]. split; [exact I1|]. split; [constructor; exact He|]. destruct C1 as (A & B & C). split; [exact A|]. split; [intros c Hc; apply B, (used_leaf id), Hc|]. intros c v H1 H2. destruct (C c v H1 H2) as [H3 H4]. split; [apply used_leaf, H3|exact H4].
  - cbn [set_clocks] in E. destruct (clock_step all st c) as [s|] eqn:Es; [|discriminate]. cbn [bind] in E. injection E as <- <-. destruct (clock_step_spec _ _ _ _ I Es) as [I1 (A & B & C)]. split; [exact I1|]. split; [constructor|]. split; [exact A|]. split; [intros c' Hc; inversion Hc; subst; apply B; reflexivity|]. intros c' v H1 H2. destruct (C c' v H1 H2) as [<- H4]. split; [constructor|exact H4].
  - cbn [set_clocks] in E. destruct (set_clocks all st b) as [[b' s]|] eqn:Eb; [|discriminate]. injection E as <- <-. destruct (IH _ _ _ I Eb) as (I1 & C1 & A & B & C). split; [exact I1|]. split; [constructor; exact C1|]. split; [exact A|]. split; [intros c Hc; inversion Hc; subst; auto|]. intros c v H1 H2. destruct (C c v H1 H2). split; [constructor|]; assumption.
  - cbn [set_clocks] in E. destruct (set_clocks all st b) as [[b' s]|] eqn:Eb; [|discriminate]. injection E as <- <-. destruct (IH _ _ _ I Eb) as (I1 & C1 & A & B & C). split; [exact I1|]. split; [constructor; exact C1|]. split; [exact A|]. split; [intros c Hc; inversion Hc; subst; auto|]. intros c v H1 H2. destruct (C c v H1 H2). split; [constructor|]; assumption.
  - cbn [set_clocks] in E. destruct (set_clocks all st b) as [[b' s]|] eqn:Eb; [|discriminate]. injection E as <- <-. destruct (IH _ _ _ I Eb) as (I1 & C1 & A & B & C). split; [exact I1|]. split; [constructor; exact C1|]. split; [exact A|]. split; [intros c Hc; inversion Hc; subst; auto|]. intros c v H1 H2. destruct (C c v H1 H2). split; [constructor|]; assumption.
  - rewrite clocks_sched in E. destruct (go_clocks all ops (r, [])) as [[ops' s]|] eqn:Eo; [|discriminate]. cbn [bind] in E. injection E as <- <-. split; [exact I|]. split; [|apply completed_refl; intros c Hc; inversion Hc].
    enough (H : forall st0 s ops', inv st0 -> go_clocks all ops st0 = Ok (ops', s) -> Forall2 (fun x y => fst x = fst y /\ Clocked (allows all) (snd x) (snd y)) ops ops' /\ Completed (allows all) (UsedIn ops) (fst st0) (fst s)).
    { destruct (H (r, []) s ops') as [F C]; [intros c []|exact Eo|]. constructor; assumption. }
    clear - IH. induction IH as [|[k x] ops Hx _ IHo]; intros st0 s ops' I0 E; cbn [go_clocks] in E.
    + injection E as <- <-. split; [constructor|]. apply completed_refl. intros c (? & ? & [] & _).
    + destruct (set_clocks all st0 x) as [[x' s1]|] eqn:Ex; [|discriminate]. cbn [bind] in E. match type of E with bind ?e _ = _ => destruct e as [[r' s2]|] eqn:Er; [|discriminate] end. cbn [bind] in E. injection E as <- <-.
      destruct (Hx _ _ _ I0 Ex) as (I1 & C1 & D1). destruct (IHo _ _ _ I1 Er) as [F C2]. split; [constructor; [split; [reflexivity|exact C1]|exact F]|]. eapply completed_trans; [|exact D1|exact C2].
      intros c. split; [intros (k' & y & [[= <- <-]|Hy] & Hu); [left; exact Hu|right; exists k', y; auto]|intros [Hu|(k' & y & Hy & Hu)]; [exists k, x; split; [left; reflexivity|exact Hu]|exists k', y; split; [right; exact Hy|exact Hu]]].
Qed.
Definition can_clock (all : dict freq) (o : gop) : Prop :=
  (forall id l, Within o (GLeaf id l) -> ~ empty l) /\
  (forall own d res n ops ss c, Within o (GSched own d res n ops ss) -> UsedIn ops c -> has res c = true \/ exists q, allows all c q).
Lemma can_sub all o x : can_clock all o -> Within o x -> can_clock all x.
Proof. intros [H1 H2] W. split; [intros id l Hl; eapply H1, within_trans; eassumption|]. intros own d res n ops ss c Hs. eapply H2, within_trans; eassumption. Qed.
Lemma set_clocks_ok all : forall o st, inv st -> can_clock all o -> (forall c, Uses o c -> has (fst st) c = true \/ exists q, allows all c q) -> exists r, set_clocks all st o = Ok r.
Proof.
  induction o as [id l|c d|n b IH|u b IH|e m g r b IH|own d r n ops ss IH] using gop_ind'; intros st I Hc Hu.
  - cbn [set_clocks]. pose proof (proj1 Hc id l (W_self _)) as He. destruct (clock_steps_ok all (clocks_used l) st I) as (s & Es); [intros c Hi; apply Hu, used_leaf, Hi|]. rewrite Es. destruct (pulses l) eqn:Hp; [destruct (acqs l) eqn:Ha; [exfalso; apply He; split; assumption|]|]; eexists; reflexivity.
  - cbn [set_clocks]. destruct (clock_step_ok all st c I (Hu c (U_asm c d))) as (s & Es). rewrite Es. eexists. reflexivity.
  - cbn [set_clocks]. destruct (IH st I) as ([b' s] & E); [eapply can_sub; [exact Hc|constructor; apply W_self]|intros c H; apply Hu; constructor; exact H|]. rewrite E. eexists. reflexivity.
  - cbn [set_clocks]. destruct (IH st I) as ([b' s] & E); [eapply can_sub; [exact Hc|constructor; apply W_self]|intros c H; apply Hu; constructor; exact H|]. rewrite E. eexists. reflexivity.
  - cbn [set_clocks]. destruct (IH st I) as ([b' s] & E); [eapply can_sub; [exact Hc|constructor; apply W_self]|intros c H; apply Hu; constructor; exact H|]. rewrite E. eexists. reflexivity.
  - rewrite clocks_sched. enough (H : forall st0, inv st0 -> (forall c, UsedIn ops c -> has (fst st0) c = true \/ exists q, allows all c q) -> exists r, go_clocks all ops st0 = Ok r).
    { destruct (H (r, [])) as ([ops' s] & E); [intros c []|intros c H1; eapply (proj2 Hc); [apply W_self|exact H1]|]. rewrite E. eexists. reflexivity. }
    assert (Hs : forall k x, In (k, x) ops -> can_clock all x) by (intros k x Hx; eapply can_sub; [exact Hc|eapply W_sched; [exact Hx|apply W_self]]). clear Hc Hu I st. induction IH as [|[k x] ops Hx _ IHo]; intros st0 I0 Hu; [eexists; reflexivity|]. cbn [go_clocks].
    destruct (Hx st0 I0) as ([x' s] & E); [eapply Hs; left; reflexivity|intros c H; apply Hu; exists k, x; split; [left; reflexivity|exact H]|]. cbn [snd] in E. rewrite E. cbn [bind].
    destruct (set_clocks_spec _ _ _ _ _ I0 E) as (I1 & _ & A & _ & _). destruct (IHo (fun k y Hy => Hs k y (or_intror Hy)) s I1) as ([r' s2] & E2).
    { intros c (k' & y & Hy & H). destruct (Hu c) as [Hh|Hq]; [exists k', y; split; [right; exact Hy|exact H]|left|right; exact Hq]. apply has_get. apply has_get in Hh. destruct Hh as (v & Hv). eauto. }
    rewrite E2. eexists. reflexivity.
Qed.

(** ** The pass *)
Lemma clocked_weaken (k1 k2 : string -> Q -> Prop) : (forall c q, k1 c q -> k2 c q) -> forall o o', Clocked k1 o o' -> Clocked k2 o o'.
Proof.
  intros Hk. induction o as [id l|c d|n b IH|u b IH|e m g r b IH|own d r n ops ss IH] using gop_ind'; intros o' H; inversion H; subst; try (constructor; auto; fail). constructor.
  - match goal with F : Forall2 _ ops ops' |- _ => clear - F IH; revert ops' F end. induction IH as [|x ops Hx _ IHo]; intros ops' F; inversion F; subst; constructor; [|auto]. match goal with H : _ /\ _ |- _ => destruct H end. auto.
  - match goal with HC : Completed _ _ _ _ |- _ => destruct HC as (A & B & C) end. split; [exact A|]. split; [exact B|]. intros c v H1 H2. destruct (C c v H1 H2) as (H3 & q & H4 & H5). eauto 6.
Qed.
(** A successful pass only adds clocks to the resources of schedules: to every schedule, at any depth, those and only those its operations use and it lacks, each with the frequency written elsewhere in the schedule or else in the device configuration. In particular what a schedule defines itself is kept, also if the device configuration disagrees. *)
Theorem C41_clocks_added : forall cfg o o', set_pulse_and_acquisition_clock cfg o = Ok o' -> Clocked (Known cfg o) o o'.
Proof.
  intros cfg o o' E. unfold set_pulse_and_acquisition_clock in E. destruct (extract o []) as [all|] eqn:Ea; [|discriminate]. cbn [bind] in E. destruct (set_clocks (with_device cfg all) ([], []) o) as [[x s]|] eqn:Es; [|discriminate]. cbn in E. injection E as <-. assert (I0 : inv ([], [])) by (intros c []). destruct (set_clocks_spec _ _ _ _ _ I0 Es) as (_ & C & _). eapply clocked_weaken; [|exact C]. intros c q H. eapply known_spec; eassumption.
Qed.
(** so every clock used in a schedule is a resource of that schedule *)
Lemma clocked_uses known : forall o o', Clocked known o o' -> forall c, Uses o' c -> Uses o c.
Proof. induction o as [id l|c d|n b IH|u b IH|e m g r b IH|own d r n ops ss IH] using gop_ind'; intros o' H c0 Hu; inversion H; subst; inversion Hu; subst; constructor; eauto. Qed.
Lemma Forall2_back {A B} (R : A -> B -> Prop) l l' : Forall2 R l l' -> forall y, In y l' -> exists x, In x l /\ R x y.
Proof. induction 1; intros z Hz; [destruct Hz|]. destruct Hz as [<-|Hz]; [eexists; split; [left; reflexivity|assumption]|]. destruct (IHForall2 z Hz) as (w & Hw & HR). exists w. split; [right; exact Hw|exact HR]. Qed.
Lemma Forall2_forth {A B} (R : A -> B -> Prop) l l' : Forall2 R l l' -> forall x, In x l -> exists y, In y l' /\ R x y.
Proof. induction 1; intros z Hz; [destruct Hz|]. destruct Hz as [<-|Hz]; [eexists; split; [left; reflexivity|assumption]|]. destruct (IHForall2 z Hz) as (w & Hw & HR). exists w. split; [right; exact Hw|exact HR]. Qed.
Theorem C41_clocks_present : forall cfg o o' own d res n ops ss c, set_pulse_and_acquisition_clock cfg o = Ok o' -> Within o' (GSched own d res n ops ss) -> UsedIn ops c -> exists v, get res c = Some v.
Proof.
  intros cfg o o' own d res n ops ss c E W. apply C41_clocks_added in E. revert o' E W. generalize (Known cfg o) as known. intros known.
  induction o as [id l|c0 d0|n0 b IH|u b IH|e m g r b IH|own0 d0 r0 n0 ops0 ss0 IH] using gop_ind'; intros o' E W; inversion E; subst; inversion W; subst; try (eapply IH; eassumption).
  - intros (k & x & Hk & Hu). match goal with HC : Completed _ _ _ _ |- _ => destruct HC as (_ & B & _) end. apply B. match goal with F : Forall2 _ _ _ |- _ => destruct (Forall2_back _ _ _ F _ Hk) as ([k1 y] & Hy & Hf & Hc) end. exists k1, y. split; [exact Hy|]. eapply clocked_uses; eassumption.
  - match goal with F : Forall2 _ _ ?l, Hi : In _ ?l |- _ => destruct (Forall2_back _ _ _ F _ Hi) as ([k1 y] & Hy & Hf & Hc) end. rewrite Forall_forall in IH. eapply (IH _ Hy); eassumption.
Qed.
(** ** What is accepted *)
(** The pass succeeds exactly if the frequencies written in the schedule agree, no operation is left at the gate level, and every clock that is used in a schedule is a resource of it or has a known frequency. *)
Theorem C41_accepts : forall cfg o, (exists o', set_pulse_and_acquisition_clock cfg o = Ok o') -> agreeing (definitions o) /\ (forall id l, Within o (GLeaf id l) -> ~ empty l) /\
    (forall own d res n ops ss c, Within o (GSched own d res n ops ss) -> UsedIn ops c -> (exists v, get res c = Some v) \/ exists q, Known cfg o c q).
Proof.
  intros cfg o (o' & E). pose proof (C41_clocks_added _ _ _ E) as C. unfold set_pulse_and_acquisition_clock in E. destruct (extract o []) as [all|] eqn:Ea; [|discriminate]. split; [eapply (proj1 (proj2 (extract_spec o))), Ea|]. clear E Ea all.
  revert C. generalize (Known cfg o) as known. intros known. revert o'. induction o as [id l|c0 d0|n0 b IH|u b IH|e m g r b IH|own0 d0 r0 n0 ops0 ss0 IH] using gop_ind'; intros o' E; inversion E; subst.
  - split; intros until 1; inversion H; subst. assumption.
  - split; intros until 1; inversion H.
  - destruct (IH _ H2) as [I1 I2]. split; intros until 1; inversion H; subst; eauto.
  - destruct (IH _ H2) as [I1 I2]. split; intros until 1; inversion H; subst; eauto.
  - destruct (IH _ H5) as [I1 I2]. split; intros until 1; inversion H; subst; eauto.
  - assert (Sub : forall k x, In (k, x) ops0 -> exists x', Clocked known x x' /\ ((forall id l, Within x (GLeaf id l) -> ~ empty l) /\ (forall own d res n ops ss c, Within x (GSched own d res n ops ss) -> UsedIn ops c -> (exists v, get res c = Some v) \/ exists q, known c q))).
    { intros k x Hx. match goal with F : Forall2 _ _ _ |- _ => destruct (Forall2_forth _ _ _ F _ Hx) as ([k1 y] & Hy & Hf & Hc) end. exists y. split; [exact Hc|]. rewrite Forall_forall in IH. eapply (IH _ Hx), Hc. }
    split; intros until 1; inversion H; subst.
    + match goal with Hi : In _ ops0 |- _ => destruct (Sub _ _ Hi) as (x' & _ & S1 & _) end. eauto.
    + intros Hu. match goal with HC : Completed _ _ _ _ |- _ => destruct HC as (A & B & C) end. destruct (B c Hu) as (v & Hv). destruct (get res c) as [w|] eqn:Ew; [left; eauto|right]. destruct (C c v Ew Hv) as (_ & q & _ & Hq). eauto.
    + match goal with Hi : In _ ops0 |- _ => destruct (Sub _ _ Hi) as (x' & _ & _ & S2) end. eauto.
Qed.
Theorem C41_accepted : forall cfg o, is_schedule o -> agreeing (definitions o) -> (forall id l, Within o (GLeaf id l) -> ~ empty l) ->
  (forall own d res n ops ss c, Within o (GSched own d res n ops ss) -> UsedIn ops c -> (exists v, get res c = Some v) \/ exists q, Known cfg o c q) ->
  exists o', set_pulse_and_acquisition_clock cfg o = Ok o'.
Proof.
  intros cfg o Hs Ha He Hk. destruct (proj1 (extract_spec o) Ha) as (all & Ea). unfold set_pulse_and_acquisition_clock. rewrite Ea. cbn [bind].
  destruct (set_clocks_ok (with_device cfg all) o ([], [])) as ([x s] & E).
  - intros c [].
  - split; [exact He|]. intros own d res n ops ss c W Hu. destruct (Hk _ _ _ _ _ _ _ W Hu) as [(v & Hv)|(q & Hq)]; [left; apply has_get; eauto|right]. apply (proj2 (known_spec cfg o all c q Ea)) in Hq. destruct Hq as (q' & Hq' & _). exists q'. exact Hq'.
  - intros c Hu. destruct Hs as (? & ? & ? & ? & ? & ? & ->). inversion Hu.
  - rewrite E. cbn. eauto.
Qed.
(** inconsistent frequencies are a ValueError, whatever else is wrong *)
Theorem C41_inconsistent : forall cfg o, ~ agreeing (definitions o) -> set_pulse_and_acquisition_clock cfg o = Err ValueError.
Proof. intros cfg o H. unfold set_pulse_and_acquisition_clock. rewrite (proj2 (proj2 (extract_spec o)) H). reflexivity. Qed.
(** ** One frequency per clock *)
Lemma clocked_entry known : forall o o', Clocked known o o' -> forall own d res n ops ss c f, Within o' (GSched own d res n ops ss) -> get res c = Some (Some f) ->
  (exists own' d' res' n' ops' ss', Within o (GSched own' d' res' n' ops' ss') /\ get res' c = Some (Some f)) \/ (exists q, f = Some q /\ known c q).
Proof.
  assert (Up : forall o x own d res n ops ss, Within o x -> Within x (GSched own d res n ops ss) -> Within o (GSched own d res n ops ss)) by (intros; eapply within_trans; eassumption).
  induction o as [id l|c0 d0|n0 b IH|u b IH|e m g r b IH|own0 d0 r0 n0 ops0 ss0 IH] using gop_ind'; intros o' E own d res n ops ss c f W G; inversion E; subst; inversion W; subst.
  - match goal with H : Clocked _ _ _, H' : Within _ (GSched _ _ _ _ _ _) |- _ => destruct (IH _ H _ _ _ _ _ _ _ _ H' G) as [(o1 & o2 & o3 & o4 & o5 & o6 & Hw & Hg)|H0]; [left|right; exact H0] end. exists o1, o2, o3, o4, o5, o6. split; [constructor; exact Hw|exact Hg].
  - match goal with H : Clocked _ _ _, H' : Within _ (GSched _ _ _ _ _ _) |- _ => destruct (IH _ H _ _ _ _ _ _ _ _ H' G) as [(o1 & o2 & o3 & o4 & o5 & o6 & Hw & Hg)|H0]; [left|right; exact H0] end. exists o1, o2, o3, o4, o5, o6. split; [constructor; exact Hw|exact Hg].
  - match goal with H : Clocked _ _ _, H' : Within _ (GSched _ _ _ _ _ _) |- _ => destruct (IH _ H _ _ _ _ _ _ _ _ H' G) as [(o1 & o2 & o3 & o4 & o5 & o6 & Hw & Hg)|H0]; [left|right; exact H0] end. exists o1, o2, o3, o4, o5, o6. split; [constructor; exact Hw|exact Hg].
  - match goal with HC : Completed _ _ _ _ |- _ => destruct HC as (A & B & C) end. destruct (get r0 c) as [w|] eqn:Ew.
    + left. exists own, d, r0, n, ops0, ss. split; [apply W_self|]. rewrite (A _ _ Ew) in G. congruence.
    + right. destruct (C _ _ Ew G) as (_ & q & [= ->] & Hq). eauto.
  - match goal with F : Forall2 _ _ ?l, Hi : In _ ?l |- _ => destruct (Forall2_back _ _ _ F _ Hi) as ([k1 y] & Hy & Hf & Hc) end. rewrite Forall_forall in IH. match goal with H' : Within _ (GSched own d res n ops ss) |- _ => destruct (IH _ Hy _ Hc _ _ _ _ _ _ _ _ H' G) as [(o1 & o2 & o3 & o4 & o5 & o6 & Hw & Hg)|H0]; [left|right; exact H0] end. exists o1, o2, o3, o4, o5, o6. split; [eapply W_sched; [exact Hy|exact Hw]|exact Hg].
Qed.
Lemma get_own res c f : get res c = Some (Some f) -> In (c, f) (own_freqs res).
Proof.
  intros H. induction res as [|[k v] res IH]; [discriminate|]. cbn [get] in H. destruct (String.eqb_spec k c) as [->|_].
  - injection H as ->. left. reflexivity.
  - destruct v as [v|]; [right|]; apply IH, H.
Qed.
Lemma within_defined : forall o own d res n ops ss c f, no_compensation o -> Within o (GSched own d res n ops ss) -> get res c = Some (Some f) -> In (c, f) (definitions o).
Proof.
  induction o as [id l|c0 d0|n0 b IH|u b IH|e m g r b IH|own0 d0 r0 n0 ops0 ss0 IH] using gop_ind'; intros own d res n ops ss c f N W G; inversion W; subst.
  - cbn [definitions]. eapply IH; [|eassumption|exact G]. intros e m g r x Hx. eapply N, W_loop, Hx.
  - cbn [definitions]. eapply IH; [|eassumption|exact G]. intros e m g r x Hx. eapply N, W_cond, Hx.
  - exfalso. eapply N, W_self.
  - cbn [definitions]. apply in_or_app. right. apply get_own, G.
  - cbn [definitions]. apply in_or_app. left. rewrite Forall_forall in IH. apply in_flat_map. eexists. split; [eassumption|]. eapply IH; [eassumption| |cbn [snd]; eassumption|exact G]. intros e m g r y Hy. eapply N, W_sched; eassumption.
Qed.
(** After the pass a clock has one frequency in the whole tree of schedules. Partial: pulse compensations must not occur. *)
Theorem C41_one_frequency_partial : forall cfg o o', no_compensation o -> set_pulse_and_acquisition_clock cfg o = Ok o' ->
  forall own1 d1 res1 n1 ops1 ss1 own2 d2 res2 n2 ops2 ss2 c f1 f2,
    Within o' (GSched own1 d1 res1 n1 ops1 ss1) -> Within o' (GSched own2 d2 res2 n2 ops2 ss2) -> get res1 c = Some (Some f1) -> get res2 c = Some (Some f2) ->
    f1 = f2 \/ exists q1 q2, f1 = Some q1 /\ f2 = Some q2 /\ q1 == q2.
Proof.
  intros cfg o o' N E own1 d1 res1 n1 ops1 ss1 own2 d2 res2 n2 ops2 ss2 c f1 f2 W1 W2 G1 G2.
  pose proof (proj1 (C41_accepts _ _ (ex_intro _ _ E))) as Ag. apply C41_clocks_added in E.
  assert (Src : forall own d res n ops ss f, Within o' (GSched own d res n ops ss) -> get res c = Some (Some f) -> In (c, f) (definitions o) \/ ((forall f, ~ In (c, f) (definitions o)) /\ get (clocks cfg) c = Some f)).
  { intros own d res n ops ss f W G. destruct (clocked_entry _ _ _ E _ _ _ _ _ _ _ _ W G) as [(a1 & a2 & a3 & a4 & a5 & a6 & Hw & Hg)|(q & -> & [Hd|Hd])]; [left; eapply within_defined; eassumption|left; exact Hd|right; exact Hd]. }
  destruct (Src _ _ _ _ _ _ _ W1 G1) as [S1|[S1 S1']], (Src _ _ _ _ _ _ _ W2 G2) as [S2|[S2 S2']].
  - apply In_nth_error in S1, S2. destruct S1 as (i & Hi), S2 as (j & Hj). destruct (Nat.lt_trichotomy i j) as [L|[->|L]].
    + right. exact (Ag _ _ _ _ _ L Hi Hj).
    + left. assert (Hij : Some (c, f1) = Some (c, f2)) by (etransitivity; [symmetry; exact Hi|exact Hj]). congruence.
    + right. destruct (Ag _ _ _ _ _ L Hj Hi) as (x & y & -> & -> & Eq). exists y, x. repeat split. symmetry. exact Eq.
  - exfalso. eapply S2, S1.
  - exfalso. eapply S1, S2.
  - left. congruence.
Qed.
(** The definitions in the body of a pulse compensation are not compared with the others: a clock can have two frequencies. *)
Theorem C41_one_frequency_refuted : exists cfg o o' own1 d1 res1 n1 ops1 ss1 own2 d2 res2 n2 ops2 ss2 c q1 q2, set_pulse_and_acquisition_clock cfg o = Ok o' /\
  Within o' (GSched own1 d1 res1 n1 ops1 ss1) /\ Within o' (GSched own2 d2 res2 n2 ops2 ss2) /\ UsedIn ops1 c /\ UsedIn ops2 c /\ get res1 c = Some (Some (Some q1)) /\ get res2 c = Some (Some (Some q2)) /\ ~ q1 == q2.
Proof.
  set (p := GLeaf None {| l_gate := None; pulses := [{| t0 := 0; dur := 20; what := {| TableModel.port := Some "q0:mw"; clock := "q0.01"; wave := Square 1; tag := 0 |}; is_acq := false |}]; acqs := [] |}).
  set (inner := GSched [] None [("q0.01", Some (Some 5))] 1 [("p", p)] [("p", "p", [tc_first])]).
  set (outer := GSched [] None [("q0.01", Some (Some 6))] 1 [("p", p); ("c", GComp None [("q0:mw", 1)] (Some 4) (Some 1) inner)] [("p", "p", [tc_first]); ("c", "c", [tc_first])]).
  exists {| clocks := []; elements := []; edges := [] |}, outer, outer. do 12 eexists. exists "q0.01", 6, 5.
  assert (U : Uses p "q0.01") by (unfold p; apply (U_leaf None _ {| t0 := 0; dur := 20; what := {| TableModel.port := Some "q0:mw"; clock := "q0.01"; wave := Square 1; tag := 0 |}; is_acq := false |}); left; reflexivity).
  split; [reflexivity|]. split; [apply W_self|]. split; [eapply W_sched; [right; left; reflexivity|]; apply W_comp, W_self|]. split; [exists "p", p; split; [left; reflexivity|exact U]|]. split; [exists "p", p; split; [left; reflexivity|exact U]|]. split; [reflexivity|]. split; [reflexivity|]. discriminate.
Qed.
