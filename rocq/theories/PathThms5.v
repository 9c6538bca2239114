(** C43: a sequencer behind a mixer knows its local oscillator. *)
From Verif Require Import Base CircModel CircProps CircProps5 PathModel PathStr PathSpec PathProps PathProps2 PathProps3 PathProps4 PathProps5 PathProps6 PathThms PathThms2 PathThms3.
From Coq Require Import Ascii DecimalString Lia Permutation.
Open Scope string_scope.
Open Scope list_scope.
Open Scope Z_scope.

(** something that is never lost and holds after one of the steps *)
Lemma foldM_reach {A B} (P : B -> Prop) (f : B -> A -> result B) l : forall b b' x, foldM f l b = Ok b' -> In x l -> (forall b y b', In y l -> P b -> f b y = Ok b' -> P b') -> (forall b b', f b x = Ok b' -> P b') -> P b'.
Proof. induction l as [|y l IH]; intros b b' x h hx mono est; [destruct hx|]. cbn [foldM] in h. apply bind_inv in h as (b1 & h1 & h2). destruct hx as [->|hx].
  - refine (foldM_inv P _ _ _ _ h2 (est _ _ h1) _). intros c z c' hz. apply mono. now right.
  - apply (IH _ _ _ h2 hx); auto. intros c z c' hz. apply mono. now right. Qed.
Definition HasLO (c ml : string) (st : state) : Prop := exists l, get2 (los st) c ml = Some l.
Lemma nbr_lo_mono hw E port clks st n st' c ml : nbr_step hw E port clks st n = Ok st' -> HasLO c ml st -> HasLO c ml st'.
Proof. unfold nbr_step, HasLO. intros h (l & e). destruct (is_path hw n).
  - apply bind_inv in h as (p & _ & h). exists l. refine (foldM_inv (fun s => get2 (los s) c ml = Some l) _ _ _ _ h e _). intros b k b' _ hb hs. apply direct_clock_los in hs. now rewrite hs.
  - destruct (before_last n); [|inversion h; subst; eauto]. apply bind_inv in h as ((mp, ml') & _ & h). apply bind_inv in h as (p & _ & h). apply bind_inv in h as (lo & h1 & h). apply bind_inv in h as (d & _ & h). inversion h; subst. cbn. eapply put2_mono; eauto. Qed.
Lemma nbr_lo_set hw E port clks st n st' x mp ml p : is_path hw n = false -> before_last n = Some x -> mixer_ends hw E x = Ok (mp, ml) -> from_path mp = Ok p -> nbr_step hw E port clks st n = Ok st' -> HasLO (p_cl p) ml st'.
Proof. intros h1 h2 h3 h4 h. unfold nbr_step in h. rewrite h1, h2, h3 in h. cbn [bind] in h. rewrite h4 in h. cbn [bind] in h. apply bind_inv in h as (lo & h5 & h). apply bind_inv in h as (d & _ & h). inversion h; subst. unfold HasLO. cbn. apply put2_spec in h5 as (_ & k). rewrite k, !String.eqb_refl. cbn. eauto. Qed.
Lemma all_lo hw E used st port clock n x mp ml p : all_paths hw E used = Ok st -> In (port, clock) used -> In n (neighbors E port) -> is_path hw n = false -> before_last n = Some x -> mixer_ends hw E x = Ok (mp, ml) -> from_path mp = Ok p -> HasLO (p_cl p) ml st.
Proof. intros h hu hn h1 h2 h3 h4. unfold all_paths in h. assert (PC : In (port, clocks_of port used) (port_to_clocks used)) by (apply p2c_spec; split; auto; intros e; apply clocks_in in hu; rewrite e in hu; destruct hu).
  refine (foldM_reach (HasLO (p_cl p) ml) _ _ _ _ _ h PC _ _).
  - intros b (q, ks) b' _ hb hs. cbn in hs. destruct (memb q (nodes E)); [|discriminate]. refine (foldM_inv (HasLO (p_cl p) ml) _ _ _ _ hs hb _). intros c y c' _ hc e. eapply nbr_lo_mono; eauto.
  - intros b b' hs. cbn in hs. destruct (memb port (nodes E)); [|discriminate]. refine (foldM_reach (HasLO (p_cl p) ml) _ _ _ _ _ hs hn _ _).
    + intros c y c' _ hc e. eapply nbr_lo_mono; eauto.
    + intros c c' e. eapply nbr_lo_set; eauto. Qed.
Lemma lo_map_some lo n p : In (n, p) lo -> get (lo_map lo) (p_ch p) <> None.
Proof. unfold lo_map. assert (G : forall l d, get d (p_ch p) <> None \/ In (n, p) l -> get (fold_left (fun d '(n, p) => put d (p_ch p) n) l d) (p_ch p) <> None).
  { induction l as [|(m, q) l IH]; cbn; intros d h; [destruct h as [h|[]]; auto|]. apply IH. rewrite get_put. destruct h as [h|[h|h]]; auto; left.
    - destruct (String.eqb (p_ch q) (p_ch p)); [discriminate|auto].
    - inversion h; subst. rewrite String.eqb_refl. discriminate. }
  intros h. apply G. auto. Qed.
(** the paths of a port without direct channels are those of its mixers *)
Lemma mixer_only_local hw E n ns : (forall x, In x ns -> is_path hw x = false) -> forall L', foldM (lstep hw E n) ns [] = Ok L' -> forall c q, get L' c = Some q -> exists y x mp ml, In y ns /\ before_last y = Some x /\ mixer_ends hw E x = Ok (mp, ml) /\ from_path mp = Ok q.
Proof. intros np L' h. refine (foldM_inv (fun L => forall c q, get L c = Some q -> exists y x mp ml, In y ns /\ before_last y = Some x /\ mixer_ends hw E x = Ok (mp, ml) /\ from_path mp = Ok q) _ _ _ _ h _ _); [discriminate|]. intros b y b' hy hb hs. unfold lstep in hs. rewrite (np _ hy) in hs. destruct (before_last y) as [x|] eqn:B; [|inversion hs; subst; auto].
  apply bind_inv in hs as ((mp, ml) & hm & hs). apply bind_inv in hs as (p & fp & hs). inversion hs; subst. intros c q. rewrite get_put. destruct (String.eqb (p_cl p) c); [|apply hb]. intros e; inversion e; subst. exists y, x, mp, ml. auto. Qed.

(** If no port is wired both to channels and to mixers and no local oscillator is connected to two mixers of used ports: a sequencer for a port behind mixers has a local oscillator (which one: [C43_lo]). *)
Theorem C43_lo_complete : forall hw E opts used res cl i s port clock, WfHw hw -> NoDup used -> Distinct used -> Plain hw E used -> assign_sequencers hw E opts used = Ok res ->
  (forall port clock x n, In (port, clock) used -> AtMixer hw E port x -> Edge E port n -> ~ OfCluster hw n) ->
  (forall port clock x port' clock' x' t n t' n' lo, In (port, clock) used -> In (port', clock') used -> AtMixer hw E port x -> AtMixer hw E port' x' -> Terminal t x -> Edge E t n -> OfLO hw n lo -> Terminal t' x' -> Edge E t' n' -> OfLO hw n' lo -> x = x') ->
  Given res cl i s -> For s port clock -> In (port, clock) used -> ~ HasDirect hw E port -> exists lo, q_lo s = Some lo.
Proof. intros hw E opts used res cl i s port clock wf nu d pl h nomix uniq g hf hu nd. destruct (sim_ok _ _ _ _ _ wf nu d pl h) as (st & loc & new & s1 & s2 & s3 & s4).
  destruct (given_entry _ _ _ _ _ _ _ _ _ _ _ wf h s1 s3 s4 g) as (port' & clks & L & k & q & a1 & a2 & a3 & a4 & a5). destruct (proj1 (locals_in _ _ _ _ _ _ _ s2) a1) as (b1 & b2). apply p2c_spec in b1 as (-> & _). apply clocks_in in a2 as a2'. unfold For in hf, a3. destruct (d _ _ _ _ hu a2') as (<- & <-); [congruence|].
  unfold lport in b2. destruct (memb port (nodes E)); [|discriminate].
  assert (NP : forall n, In n (neighbors E port) -> is_path hw n = false) by (intros n hn; apply is_path_false; intros o; apply nd; exists n; split; [now apply neighbors_in|auto]).
  destruct (mixer_only_local _ _ _ _ NP _ b2 _ _ a4) as (y & x & mp & ml & c1 & c2 & c3 & c4). destruct (all_lo _ _ _ _ _ _ _ _ _ _ _ s1 hu c1 (NP _ c1) c2 c3 c4) as (l & gl).
  destruct (given_inv _ _ _ _ _ _ _ _ wf h g) as (st' & mods & kd & p & a & i1 & i2 & i3 & _ & _ & i6 & i7 & _ & _ & _ & i11 & _ & i13 & _). rewrite s1 in i1. inversion i1; subst st'; clear i1.
  assert (p = q). { rewrite a3 in i6. assert (hp : In (pc_key port clock, q) (paths_of st (pcs st) cl)) by (apply (final_paths _ _ _ _ _ _ _ s3 (proj1 s4)); exists port, (clocks_of port used), L, clock; auto). pose proof (paths_nodup st (pcs st) cl (proj1 s4)) as n. apply in_get in i6; auto. apply in_get in hp; auto. unfold pc_key in *. congruence. }
  subst p. destruct (all_paths_inv _ _ _ _ (clusters_nodup _ (proj1 wf)) s1 i2) as (own & _ & _ & (_ & _ & j3) & _ & j5). destruct (j5 _ _ _ gl) as (p' & port1 & x1 & clock1 & e1 & e2 & e3 & e4 & e5). destruct (j3 _ _ _ _ e1 e2) as (m1 & m2).
  destruct m2 as [(n1 & o1 & o2)|(_ & mp1 & ml1 & m3 & m4)]; [exfalso; eapply nomix; eauto|]. assert (AM : AtMixer hw E port x) by (exists y; split; [now apply terminal_spec|split; [now apply neighbors_in|now apply is_path_false, NP]]).
  apply mixer_ends_spec in c3 as c3'. destruct c3' as (_ & _ & (t & n & r1 & r2 & r3)). destruct e5 as (t' & n' & r1' & r2' & r3'). assert (x1 = x) by (symmetry; eapply (uniq port clock x port1 clock1 x1); eauto). subst x1. rewrite c3 in m3. inversion m3; subst mp1 ml1. rewrite c4 in m4. inversion m4; subst p'.
  assert (pcl : p_cl q = cl). { assert (hp : In (q_pc s, q) (paths_of st (pcs st) cl)) by auto. destruct (paths_in _ _ _ _ _ hp (proj1 s4)) as (l' & g1 & g2). destruct (all_paths_inv _ _ _ _ (clusters_nodup _ (proj1 wf)) s1 i2) as (own' & _ & _ & _ & j4 & _). destruct (j4 _ _ _ g1) as (p4 & ? & ? & ? & y1 & _ & y3 & _). congruence. }
  assert (HL : In (ml, q) (on i (paths_of st (los st) cl))) by (apply on_in; split; [rewrite <- pcl; eapply in_paths; eauto|auto]). apply lo_map_some in HL. rewrite i13. destruct (get _ (p_ch q)); [eauto|easy]. Qed.
