(** C40: the parameters of a pulse compensation written in terms of device elements. *)
From Verif Require Import Base TimingModel TableModel CircModel CircSpec CircProps CircProps5.
From Coq Require Import List Lia.
Open Scope string_scope.
Open Scope list_scope.
Open Scope Q_scope.

(** element [q] is configured for pulse compensation, on port [p] with maximum amplitude [m], time grid [g] and sampling rate [r] *)
Definition Compensates (cfg : devcfg) (q p : string) (m g r : Q) : Prop :=
  exists c, OnElement cfg q "pulse_compensation" c /\ factory c = None /\ get (kwargs c) "port" = Some (VStr p) /\ get (kwargs c) "max_compensation_amp" = Some (VNum m) /\ get (kwargs c) "time_grid" = Some (VNum g) /\ get (kwargs c) "sampling_rate" = Some (VNum r).
Definition Uncompensated (cfg : devcfg) (q : string) : Prop := forall c, ~ OnElement cfg q "pulse_compensation" c.
(** the parameters for the elements [qs]: time grid and sampling rate are those of every element that has them; the amplitude of a port is that of the last element with that port, and other ports have none *)
Definition Parameters (cfg : devcfg) (qs : list string) (max : dict Q) (grid rate : option Q) : Prop :=
  (forall q, In q qs -> Uncompensated cfg q \/ exists p m g r g' r', Compensates cfg q p m g r /\ grid = Some g' /\ g' == g /\ rate = Some r' /\ r' == r) /\
  (forall p m, get max p = Some m <-> exists pre q post g r, qs = pre ++ q :: post /\ Compensates cfg q p m g r /\ forall q' m' g' r', In q' post -> ~ Compensates cfg q' p m' g' r') /\
  ((forall q, In q qs -> Uncompensated cfg q) -> grid = None /\ rate = None).
Lemma compensates_fun cfg q p m g r p' m' g' r' : Compensates cfg q p m g r -> Compensates cfg q p' m' g' r' -> p = p' /\ m = m' /\ g = g' /\ r = r'.
Proof. intros (c & (el & H1 & H2) & _ & A1 & A2 & A3 & A4) (c' & (el' & H1' & H2') & _ & B1 & B2 & B3 & B4). assert (el = el') by congruence. subst el'. assert (c = c') by congruence. subst c'. repeat split; congruence. Qed.
Lemma step_config cfg q : get (match get (elements cfg) q with Some el => el | None => [] end) "pulse_compensation" = None <-> Uncompensated cfg q.
Proof.
  split.
  - intros H c (el & H1 & H2). rewrite H1 in H. congruence.
  - intros H. destruct (get (elements cfg) q) as [el|] eqn:E; [|reflexivity]. destruct (get el "pulse_compensation") as [c|] eqn:Ec; [|reflexivity]. exfalso. apply (H c). exists el. auto.
Qed.
Lemma agree_spec old new out : agree old new = Ok out -> out = Some new /\ forall q, old = Some q -> q == new.
Proof. unfold agree. destruct old as [q|]; [destruct (Qeq_bool q new) eqn:E; [|discriminate]; apply Qeq_bool_iff in E; intros [= <-]; split; [reflexivity|intros ? [= <-]; exact E]|]. intros [= <-]. split; [reflexivity|discriminate]. Qed.
Lemma comp_step_spec cfg q max grid rate max' grid' rate' : comp_step cfg (max, grid, rate) q = Ok (max', grid', rate') ->
  (Uncompensated cfg q /\ max' = max /\ grid' = grid /\ rate' = rate) \/
  (exists p m g r, Compensates cfg q p m g r /\ max' = put max p m /\ grid' = Some g /\ rate' = Some r /\ (forall x, grid = Some x -> x == g) /\ (forall x, rate = Some x -> x == r)).
Proof.
  unfold comp_step. destruct (get (match get (elements cfg) q with Some el => el | None => [] end) "pulse_compensation") as [c|] eqn:Ec; [|intros [= <- <- <-]; left; split; [apply step_config, Ec|auto]].
  destruct (factory c) eqn:Ef; [discriminate|]. intros E. right.
  apply bind_inv in E. destruct E as (vg & G1 & E). apply bind_inv in E. destruct E as (g & G2 & E). apply bind_inv in E. destruct E as (g' & G3 & E). apply bind_inv in E. destruct E as (vr & R1 & E). apply bind_inv in E. destruct E as (r & R2 & E). apply bind_inv in E. destruct E as (r' & R3 & E). apply bind_inv in E. destruct E as (vp & P1 & E). apply bind_inv in E. destruct E as (p & P2 & E). apply bind_inv in E. destruct E as (vm & M1 & E). apply bind_inv in E. destruct E as (m & M2 & E). injection E as <- <- <-.
  apply agree_spec in G3, R3. destruct G3 as [-> G3], R3 as [-> R3]. exists p, m, g, r. split; [|auto 6].
  apply index_ok in G1, R1, P1, M1. destruct vg; try discriminate. destruct vr; try discriminate. destruct vp; try discriminate. destruct vm; try discriminate. injection G2 as <-. injection R2 as <-. injection P2 as <-. injection M2 as <-.
  exists c. split; [|auto 6]. destruct (get (elements cfg) q) as [el|] eqn:Eq; [|discriminate]. exists el. auto.
Qed.
(** the state after the elements [pre] *)
Lemma params_step cfg pre q max grid rate max' grid' rate' : Parameters cfg pre max grid rate -> comp_step cfg (max, grid, rate) q = Ok (max', grid', rate') -> Parameters cfg (pre ++ [q]) max' grid' rate'.
Proof.
  intros (A & B & C) E. apply comp_step_spec in E. destruct E as [(U & -> & -> & ->)|(p & m & g & r & Hq & -> & -> & -> & Hg & Hr)].
  - split; [|split].
    + intros x Hx. apply in_app_or in Hx. destruct Hx as [Hx|[<-|[]]]; [apply A, Hx|left; exact U].
    + intros p m. rewrite B. split.
      * intros (a & x & b & g & r & -> & Hc & Hn). exists a, x, (b ++ [q]), g, r. rewrite <- app_assoc. split; [reflexivity|]. split; [exact Hc|]. intros q' m' g' r' Hi. apply in_app_or in Hi. destruct Hi as [Hi|[<-|[]]]; [apply Hn, Hi|]. intros (c & Hon & _). eapply U, Hon.
      * intros (a & x & b & g & r & Ea & Hc & Hn). destruct (exists_last (l := x :: b)) as (b' & y & Eb); [discriminate|]. rewrite Eb, app_assoc in Ea. apply app_inj_tail in Ea. destruct Ea as [-> <-]. destruct b' as [|z b']; [injection Eb as -> ->; exfalso; destruct Hc as (c & Hon & _); eapply U, Hon|]. injection Eb as -> ->. exists a, z, b', g, r. split; [reflexivity|]. split; [exact Hc|]. intros q' m' g' r' Hi. apply Hn. apply in_or_app. left. exact Hi.
    + intros H. apply C. intros x Hx. apply H. apply in_or_app. left. exact Hx.
  - split; [|split].
    + intros x Hx. apply in_app_or in Hx. destruct Hx as [Hx|[<-|[]]]; [|right; exists p, m, g, r, g, r; repeat split; try reflexivity; exact Hq].
      destruct (A x Hx) as [U|(p' & m' & g' & r' & g1 & r1 & Hc & E1 & E2 & E3 & E4)]; [left; exact U|right; exists p', m', g', r', g, r; split; [exact Hc|]; split; [reflexivity|]; split; [rewrite <- (Hg _ E1); exact E2|]; split; [reflexivity|]; rewrite <- (Hr _ E3); exact E4].
    + intros p0 m0. rewrite get_put. destruct (String.eqb_spec p p0) as [->|Hne].
      * split; [intros [= <-]; exists pre, q, [], g, r; split; [reflexivity|]; split; [exact Hq|]; intros ? ? ? ? []|].
        intros (a & x & b & g' & r' & Ea & Hc & Hn). destruct (exists_last (l := x :: b)) as (b' & y & Eb); [discriminate|]. rewrite Eb, app_assoc in Ea. apply app_inj_tail in Ea. destruct Ea as [-> <-]. destruct b' as [|z b']; [injection Eb as -> ->; destruct (compensates_fun _ _ _ _ _ _ _ _ _ _ Hq Hc) as (_ & -> & _); reflexivity|]. injection Eb as -> ->. exfalso. eapply Hn; [apply in_or_app; right; left; reflexivity|exact Hq].
      * rewrite B. split.
        -- intros (a & x & b & g' & r' & -> & Hc & Hn). exists a, x, (b ++ [q]), g', r'. rewrite <- app_assoc. split; [reflexivity|]. split; [exact Hc|]. intros q' m' g'' r'' Hi. apply in_app_or in Hi. destruct Hi as [Hi|[<-|[]]]; [apply Hn, Hi|]. intros Hc'. apply Hne. apply (compensates_fun _ _ _ _ _ _ _ _ _ _ Hq Hc').
        -- intros (a & x & b & g' & r' & Ea & Hc & Hn). destruct (exists_last (l := x :: b)) as (b' & y & Eb); [discriminate|]. rewrite Eb, app_assoc in Ea. apply app_inj_tail in Ea. destruct Ea as [-> <-]. destruct b' as [|z b']; [injection Eb as -> ->; exfalso; apply Hne; apply (compensates_fun _ _ _ _ _ _ _ _ _ _ Hq Hc)|]. injection Eb as -> ->. exists a, z, b', g', r'. split; [reflexivity|]. split; [exact Hc|]. intros q' m' g'' r'' Hi. apply Hn. apply in_or_app. left. exact Hi.
    + intros H. exfalso. destruct Hq as (c & Hon & _). eapply (H q); [apply in_or_app; right; left; reflexivity|exact Hon].
Qed.
Lemma params_all cfg : forall qs pre max grid rate max' grid' rate', Parameters cfg pre max grid rate -> foldM (comp_step cfg) qs (max, grid, rate) = Ok (max', grid', rate') -> Parameters cfg (pre ++ qs) max' grid' rate'.
Proof.
  induction qs as [|q qs IH]; intros pre max grid rate max' grid' rate' P E; cbn [foldM] in E; [injection E as <- <- <-; rewrite app_nil_r; exact P|]. destruct (comp_step cfg (max, grid, rate) q) as [[[m1 g1] r1]|] eqn:E1; [|discriminate]. cbn [bind] in E. replace (pre ++ q :: qs) with ((pre ++ [q]) ++ qs) by (rewrite <- app_assoc; reflexivity). eapply IH; [|exact E]. eapply params_step; eassumption.
Qed.
Lemma params_nil cfg : Parameters cfg [] [] None None.
Proof. split; [intros q []|]. split; [|auto]. intros p m. split; [discriminate|]. intros (a & x & b & g & r & E & _). destruct a; discriminate. Qed.
(** A pulse compensation given by device elements is compiled to one with the parameters of these elements. *)
Theorem C40_compensation : forall cfg over qs m g r b o', Device cfg over (GComp (Some qs) m g r b) o' ->
  exists max grid rate b', o' = GComp None max grid rate b' /\ Parameters cfg qs max grid rate /\ Device cfg over b b'.
Proof.
  intros cfg over qs m g r b o' D. inversion D; subst. match goal with E : foldM _ _ _ = Ok _ |- _ => apply (params_all cfg qs [] [] None None) in E; [|apply params_nil]; cbn [app] in E end. eauto 10.
Qed.
(** Elements with different time grids or sampling rates are refused; all others are accepted. *)
Lemma comp_accepts cfg : forall qs max grid rate G R, (forall q, In q qs -> Uncompensated cfg q \/ exists p m g r, Compensates cfg q p m g r /\ g == G /\ r == R) -> (forall x, grid = Some x -> x == G) -> (forall x, rate = Some x -> x == R) -> exists out, foldM (comp_step cfg) qs (max, grid, rate) = Ok out.
Proof.
  induction qs as [|q qs IH]; intros max grid rate G R H Hg Hr; [eexists; reflexivity|]. cbn [foldM]. assert (H' : forall q, In q qs -> Uncompensated cfg q \/ exists p m g r, Compensates cfg q p m g r /\ g == G /\ r == R) by (intros x Hx; apply H; right; exact Hx).
  assert (S : exists max1 grid1 rate1, comp_step cfg (max, grid, rate) q = Ok (max1, grid1, rate1) /\ (forall x, grid1 = Some x -> x == G) /\ (forall x, rate1 = Some x -> x == R)).
  { unfold comp_step. destruct (H q (or_introl eq_refl)) as [U|(p & m & g & r & (c & (el & H1 & H2) & Hf & A1 & A2 & A3 & A4) & Eg & Er)].
    - rewrite (proj2 (step_config cfg q) U). exists max, grid, rate. auto.
    - rewrite H1, H2, Hf. unfold index. rewrite A3. cbn [bind as_num]. assert (Ag : forall old G x, (forall y, old = Some y -> y == G) -> x == G -> agree old x = Ok (Some x)).
      { intros old G0 x Ho Hx. unfold agree. destruct old as [y|]; [|reflexivity]. assert (Hy : Qeq_bool y x = true) by (apply Qeq_bool_iff; rewrite (Ho y eq_refl), Hx; reflexivity). rewrite Hy. reflexivity. }
      rewrite (Ag grid G g Hg Eg). cbn [bind]. rewrite A4. cbn [bind as_num]. rewrite (Ag rate R r Hr Er). cbn [bind]. rewrite A1. cbn [bind as_str]. rewrite A2. cbn [bind as_num]. do 3 eexists. split; [reflexivity|]. split; intros x [= <-]; assumption. }
  destruct S as (m1 & g1 & r1 & -> & Hg1 & Hr1). cbn [bind]. eapply IH; eassumption.
Qed.
Theorem C40_compensation_accepted : forall cfg over qs m g r b b' G R, (forall q, In q qs -> Uncompensated cfg q \/ exists p m g r, Compensates cfg q p m g r /\ g == G /\ r == R) -> Device cfg over b b' ->
  exists o', Device cfg over (GComp (Some qs) m g r b) o'.
Proof.
  intros cfg over qs m g r b b' G R H D. destruct (comp_accepts cfg qs [] None None G R H) as ([[max grid] rate] & E); try discriminate. exists (GComp None max grid rate b'). eapply D_comp; eassumption.
Qed.
Example C40_ex_compensation : Parameters ex_cfg ["q0"; "q1"; "nv"] [("q0:fl", 3#10); ("q1:fl", 3#10)] (Some 4) (Some 1000000000).
Proof. apply (params_all ex_cfg ["q0"; "q1"; "nv"] [] [] None None); [apply params_nil|reflexivity]. Qed.
