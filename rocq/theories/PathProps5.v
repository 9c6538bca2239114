(** The walk over the neighbours of a port does to the shared state what [lstep] says. *)
From Verif Require Import Base CircModel CircProps CircProps5 PathModel PathStr PathSpec PathProps PathProps2 PathProps3 PathProps4.
From Coq Require Import Ascii Lia Permutation.
Open Scope string_scope.
Open Scope list_scope.
Open Scope Z_scope.

Definition upd (loc : string -> string -> nat) (port c : string) (n : nat) : string -> string -> nat := fun p x => if String.eqb p port && String.eqb x c then n else loc p x.
Lemma upd_same loc port c n : upd loc port c n port c = n.
Proof. unfold upd. now rewrite !String.eqb_refl. Qed.
Lemma upd_port loc port c n p x : p <> port -> upd loc port c n p x = loc p x.
Proof. unfold upd. destruct (String.eqb_spec p port); [easy|auto]. Qed.
Lemma upd_cl loc port c n p x : x <> c -> upd loc port c n p x = loc p x.
Proof. unfold upd. destruct (String.eqb_spec x c); [easy|]. now rewrite andb_false_r. Qed.
Lemma cell_bound hw st done loc e c p : R hw st done loc -> In e done -> get (snd (snd e)) c = Some p -> nth_error (heap st) (loc (fst e) c) = Some p /\ (loc (fst e) c < List.length (heap st))%nat.
Proof. intros r h g. pose proof (r_cells _ _ _ _ r _ h c) as ce. rewrite g in ce. destruct ce as (ce & _). split; auto. apply nth_error_Some. congruence. Qed.

Lemma R_put hw port clks L done st loc p d lo :
  R hw st ((port, (clks, L)) :: done) loc -> KeysInj ((port, (clks, L)) :: done) -> In (p_cl p) (map fst (clusters hw)) -> map fst d = map fst (pcs st) -> map fst lo = map fst (los st) ->
  (forall c key, get2 d c key = if String.eqb (p_cl p) c && existsb (fun k => String.eqb (pc_key port k) key) clks then Some (List.length (heap st)) else get2 (pcs st) c key) ->
  R hw {| heap := heap st ++ [p]; pcs := d; los := lo |} ((port, (clks, put L (p_cl p) p)) :: done) (upd loc port (p_cl p) (List.length (heap st))).
Proof. intros r (kn & ki) hc e1 e2 hg.  assert (PN : forall e, In e done -> fst e <> port). { intros e he eq. cbn in kn. inversion kn; subst. apply H1. apply in_map_iff. eauto. }
  assert (EX : forall k, In k clks -> existsb (fun k' => String.eqb (pc_key port k') (pc_key port k)) clks = true). { intros k hk. apply existsb_exists. exists k. split; auto. apply String.eqb_refl. }
  assert (EN : forall e k, In e done -> In k (fst (snd e)) -> existsb (fun k' => String.eqb (pc_key port k') (pc_key (fst e) k)) clks = false).
  { intros e k he hk. apply not_true_iff_false. intros h. apply existsb_exists in h as (k' & h & eq). apply String.eqb_eq in eq. apply (ki (port, (clks, L)) e k' k) in eq; [|left; auto|right; auto|exact h|exact hk]. destruct eq as (eq & _). apply (PN _ he). now rewrite <- eq. }
  constructor; cbn [heap pcs los].
  - intros e [<-|he] c; cbn [fst snd].
    + pose proof (r_cells _ _ _ _ r _ (or_introl eq_refl) c) as ce. cbn [fst snd] in ce. rewrite get_put. destruct (String.eqb_spec (p_cl p) c) as [<-|n].
      * rewrite upd_same. split; [now apply nth_app_last|]. split; auto. intros k hk. rewrite hg, String.eqb_refl, EX; auto.
      * rewrite upd_cl by auto. destruct (get L c) as [q|] eqn:G.
        -- destruct ce as (c1 & c2 & c3). split; [now apply nth_app_some|]. split; auto. intros k hk. rewrite hg. destruct (String.eqb_spec (p_cl p) c); [easy|]. cbn. auto.
        -- intros k hk. rewrite hg. destruct (String.eqb_spec (p_cl p) c); [easy|]. cbn. auto.
    + pose proof (r_cells _ _ _ _ r _ (or_intror he) c) as ce. pose proof (PN _ he) as pn. destruct (get (snd (snd e)) c) as [q|] eqn:G.
      * destruct ce as (c1 & c2 & c3). rewrite upd_port by auto. split; [now apply nth_app_some|]. split; auto. intros k hk. rewrite hg, EN, andb_false_r by auto. auto.
      * intros k hk. rewrite hg, EN, andb_false_r by auto. auto.
  - intros e e' c c' q q' he he' g g' el.
    assert (B : forall e c q, In e done -> get (snd (snd e)) c = Some q -> (loc (fst e) c < List.length (heap st))%nat) by (intros e0 c0 q0 h0 g0; exact (proj2 (cell_bound hw st _ loc e0 c0 q0 r (or_intror h0) g0))).
    assert (B0 : forall c q, get L c = Some q -> (loc port c < List.length (heap st))%nat) by (intros c0 q0 g0; exact (proj2 (cell_bound hw st _ loc (port, (clks, L)) c0 q0 r (or_introl eq_refl) g0))).
    destruct he as [<-|he], he' as [<-|he']; cbn [fst snd] in *.
    + split; auto. rewrite get_put in g, g'. destruct (String.eqb_spec (p_cl p) c) as [<-|n], (String.eqb_spec (p_cl p) c') as [<-|n']; auto.
      * rewrite upd_same, upd_cl in el by auto. specialize (B0 _ _ g'). lia.
      * rewrite upd_same, upd_cl in el by auto. specialize (B0 _ _ g). lia.
      * rewrite !upd_cl in el by auto. eapply (r_inj _ _ _ _ r (port, (clks, L)) (port, (clks, L))); eauto; left; auto.
    + exfalso. apply (PN _ he'). rewrite (upd_port _ _ _ _ (fst e')) in el by auto. rewrite get_put in g. destruct (String.eqb_spec (p_cl p) c) as [<-|n]; [rewrite upd_same in el; specialize (B _ _ _ he' g'); lia|]. rewrite upd_cl in el by auto.
      destruct (r_inj _ _ _ _ r (port, (clks, L)) e' c c' q q') as (eq & _); auto; [left; auto|right; auto].
    + exfalso. apply (PN _ he). rewrite (upd_port _ _ _ _ (fst e)) in el by auto. rewrite get_put in g'. destruct (String.eqb_spec (p_cl p) c') as [<-|n]; [rewrite upd_same in el; specialize (B _ _ _ he g); lia|]. rewrite upd_cl in el by auto.
      destruct (r_inj _ _ _ _ r e (port, (clks, L)) c c' q q') as (eq & _); auto; [right; auto|left; auto].
    + rewrite !upd_port in el by auto. eapply (r_inj _ _ _ _ r); eauto; right; auto.
  - intros c key l g. rewrite hg in g. destruct (_ && _)%bool eqn:B.
    + apply andb_prop in B as (_ & B). apply existsb_exists in B as (k & hk & e). apply String.eqb_eq in e. exists (port, (clks, put L (p_cl p) p)), k. split; [left; auto|]. auto.
    + destruct (r_keys _ _ _ _ r _ _ _ g) as (e & k & [<-|he] & hk & ->); [exists (port, (clks, put L (p_cl p) p)), k; split; [left; auto|auto]|]. exists e, k. split; [right; auto|auto].
  - rewrite e1. apply (r_cl _ _ _ _ r).
  - rewrite e2. apply (r_lo _ _ _ _ r).
  - intros e [<-|he]; cbn; [apply put_nodup; apply (r_nodup _ _ _ _ r (port, (clks, L))); left; auto|]. apply (r_nodup _ _ _ _ r). right; auto.
  - intros e c q [<-|he]; cbn; [|apply (r_sub _ _ _ _ r); right; auto]. rewrite get_put. destruct (String.eqb_spec (p_cl p) c) as [<-|n]; [auto|]. apply (r_sub _ _ _ _ r (port, (clks, L))). left; auto. Qed.

Lemma iter_add_same n q ch : p_cl (iter_add n q ch) = p_cl q /\ p_mod (iter_add n q ch) = p_mod q /\ p_idx (iter_add n q ch) = p_idx q.
Proof. revert q; induction n as [|n IH]; cbn; intros q; auto. destruct (IH (add_meas q ch)) as (a & b & c). pose proof (add_meas_same q ch) as (a' & b' & c'). rewrite a, b, c. auto. Qed.

Lemma fold_put2 cl port n clks : forall d, In cl (map fst d) -> exists d', foldM (fun d k => put2 d cl (pc_key port k) n) clks d = Ok d' /\ map fst d' = map fst d /\
  (forall c key, get2 d' c key = if String.eqb cl c && existsb (fun k => String.eqb (pc_key port k) key) clks then Some n else get2 d c key).
Proof. induction clks as [|k clks IH]; intros d hc.
  - exists d. cbn. split; auto. split; auto. intros. now rewrite andb_false_r.
  - cbn [foldM]. destruct (put2_total d cl (pc_key port k) n hc) as (d1 & h1). rewrite h1. cbn [bind]. pose proof (put2_spec _ _ _ _ _ h1) as (s1 & s2). destruct (IH d1) as (d2 & e1 & e2 & e3); [now rewrite s1|]. exists d2. split; auto. split; [congruence|].
    intros c key. rewrite e3, s2. cbn [existsb]. destruct (String.eqb cl c), (String.eqb (pc_key port k) key); cbn; auto. now destruct (existsb _ clks). Qed.

Lemma path_cluster hw n p : is_path hw n = true -> from_path n = Ok p -> In (p_cl p) (map fst (clusters hw)).
Proof. intros h1 h2. destruct (from_path_channel _ _ _ h1 h2) as (_ & _ & _ & _ & mods & h). apply clusters_in in h. apply in_map_iff. eexists; split; [|exact h]; auto. Qed.
Lemma foldM_ext' {A B} (f g : B -> A -> result B) l b : (forall b x, f b x = g b x) -> foldM f l b = foldM g l b.
Proof. intros h. revert b; induction l as [|x l IH]; cbn; auto. intros b. rewrite h. destruct (g b x); cbn; auto. Qed.

Lemma nbr_sim hw E port clks L done st loc nbr :
  NoDup (map fst (clusters hw)) -> R hw st ((port, (clks, L)) :: done) loc -> KeysInj ((port, (clks, L)) :: done) -> clks <> [] -> NoDup clks ->
  (forall x, is_path hw nbr = false -> before_last nbr = Some x -> optical_clock x clks = None) ->
  match lstep hw E (List.length clks) L nbr with
  | Ok L' => exists st' loc', nbr_step hw E port clks st nbr = Ok st' /\ R hw st' ((port, (clks, L')) :: done) loc'
  | Err _ => exists e, nbr_step hw E port clks st nbr = Err e
  end.
Proof. intros nd r ki ne nk opt. unfold lstep, nbr_step. destruct (is_path hw nbr) eqn:IP.
  - destruct (from_path nbr) as [p|e] eqn:FP; cbn [bind]; [|eauto]. pose proof (path_cluster _ _ _ IP FP) as pc. set (n := List.length (heap st)). set (st1 := {| heap := heap st ++ [p]; pcs := pcs st; los := los st |}).
    assert (N1 : nth_error (heap st1) n = Some p) by (apply nth_app_last; auto). pose proof (r_cells _ _ _ _ r _ (or_introl eq_refl)) as ce. unfold Cells in ce. cbn [fst snd] in ce. pose proof (r_cl _ _ _ _ r) as rc.
    assert (ND : NoDup (map fst (pcs st1))) by (cbn; rewrite rc; auto).
    assert (BAD : forall c q, get L c = Some q -> (p_cl p <> p_cl q \/ p_mod p <> p_mod q) -> exists e, foldM (direct_clock port n) clks st1 = Err e).
    { intros c q g hne. destruct clks as [|k clks]; [easy|]. cbn [foldM]. rewrite direct_clock_eq. specialize (ce c). rewrite g in ce. destruct ce as (c1 & c2 & c3). specialize (c3 k (or_introl eq_refl)).
      destruct (inner_err (pc_key port k) n (pcs st1) c (loc port c) p q (heap st1, false)) as (e & he); auto; [eapply get2_cluster; exact c3|cbn [fst]; now apply nth_app_some|]. rewrite he. cbn; eauto. }
    destruct L as [|(c, q) [|(c', q') L]].
    + destruct (direct_first port p clks st1 ND ltac:(cbn; rewrite rc; exact pc) nk (fun c k hk => ce c k hk) n N1) as (d & e1 & e2 & e3).
      exists {| heap := heap st1; pcs := d; los := los st1 |}, (upd loc port (p_cl p) n). split; [exact e1|]. apply (R_put hw port clks [] done st loc p d (los st) r ki pc e2 eq_refl e3).
    + pose proof (ce c) as cc. cbn [get] in cc. rewrite String.eqb_refl in cc. destruct cc as (c1 & c2 & c3). destruct (_ && _)%bool eqn:B.
      * apply andb_prop in B as (B1 & B2). apply String.eqb_eq in B1, B2. assert (LT : (loc port c < List.length (heap st))%nat) by (apply nth_error_Some; congruence).
        exists {| heap := set_nth (heap st1) (loc port c) (iter_add (List.length clks) q (p_ch p)); pcs := pcs st1; los := los st1 |}, loc. split.
        { refine (direct_more port p c (loc port c) clks n st1 q ND _ c3 _ N1 (nth_app_some _ _ _ _ c1) _ B2); [unfold n; lia| |congruence]. intros c' k hn hk. specialize (ce c'). cbn [get] in ce. destruct (String.eqb_spec c c'); [congruence|]. apply ce; auto. }
        pose proof (iter_add_same (List.length clks) q (p_ch p)) as (i1 & i2 & i3).
        assert (OT : forall e c' p', In e done -> get (snd (snd e)) c' = Some p' -> loc (fst e) c' <> loc port c). { intros e c' p' he g' el. destruct (r_inj _ _ _ _ r e (port, (clks, [(c, q)])) c' c p' q) as (a & b); auto; [right; auto|left; auto|cbn; now rewrite String.eqb_refl|]. cbn in a. destruct ki as (kn & _). cbn in kn. inversion kn; subst. apply H1. apply in_map_iff. eauto. }
        constructor; cbn [heap pcs los st1].
        -- intros e [<-|he] c'; cbn [fst snd get].
           ++ pose proof (ce c') as ce'. cbn [get] in ce'. destruct (String.eqb_spec c c') as [ec|nc]; [rewrite <- ec in *|auto]. cbn [heap pcs los]. split; [rewrite set_nth_get, Nat.eqb_refl, (nth_app_some _ _ _ _ c1); auto|]. split; [congruence|]. apply ce'.
           ++ pose proof (r_cells _ _ _ _ r _ (or_intror he) c') as ce'. destruct (get (snd (snd e)) c') as [q'|] eqn:G; [|auto]. destruct ce' as (d1 & d2 & d3). cbn [heap pcs los]. split; [|auto]. rewrite set_nth_get. destruct (Nat.eqb_spec (loc port c) (loc (fst e) c')) as [el|]; [exfalso; eapply OT; eauto|]. now apply nth_app_some.
        -- intros e e' a a' x x' he he' g g' el. assert (G : forall f b y, In f ((port, (clks, [(c, iter_add (List.length clks) q (p_ch p))])) :: done) -> get (snd (snd f)) b = Some y -> exists f' y', In f' ((port, (clks, [(c, q)])) :: done) /\ get (snd (snd f')) b = Some y' /\ fst f' = fst f).
           { intros f b y [<-|hf]; cbn [snd get]; [|intros; exists f, y; split; [right; auto|auto]]. destruct (String.eqb_spec c b) as [->|]; [|discriminate]. intros _. exists (port, (clks, [(b, q)])), q. split; [left; auto|]. cbn. now rewrite String.eqb_refl. }
           destruct (G _ _ _ he g) as (f & y & g1 & g2 & g3). destruct (G _ _ _ he' g') as (f' & y' & g1' & g2' & g3'). destruct (r_inj _ _ _ _ r f f' a a' y y') as (u & v); auto; [exact (eq_trans (f_equal (fun z => loc z a) g3) (eq_trans el (f_equal (fun z => loc z a') (eq_sym g3'))))|]. split; [exact (eq_trans (eq_sym g3) (eq_trans u g3'))|auto].
        -- intros c' key l g. destruct (r_keys _ _ _ _ r _ _ _ g) as (e & k & [<-|he] & hk & ->); [eexists (port, (clks, _)), k; split; [left; reflexivity|auto]|]. exists e, k. split; [right; auto|auto].
        -- exact rc.
        -- apply (r_lo _ _ _ _ r).
        -- intros e [<-|he]; cbn; [repeat constructor; auto|]. apply (r_nodup _ _ _ _ r). right; auto.
        -- intros e c' y [<-|he]; cbn [snd get]; [|apply (r_sub _ _ _ _ r); right; auto]. destruct (String.eqb_spec c c') as [->|]; [|discriminate]. intros _. apply (r_sub _ _ _ _ r (port, (clks, [(c', q)])) c' q); [left; auto|cbn; now rewrite String.eqb_refl].
      * apply (BAD c q); [cbn; now rewrite String.eqb_refl|]. rewrite c2. destruct (String.eqb_spec (p_cl p) c); [|auto]. destruct (String.eqb_spec (p_mod p) (p_mod q)); [discriminate|auto].
    + assert (X : exists c0 q0, get ((c, q) :: (c', q') :: L) c0 = Some q0 /\ p_cl p <> c0).
      { pose proof (r_nodup _ _ _ _ r _ (or_introl eq_refl)) as nn. cbn in nn. inversion nn; subst. destruct (string_dec (p_cl p) c) as [e|e].
        - exists c', q'. cbn [get]. destruct (String.eqb_spec c c') as [<-|]; [exfalso; apply H1; left; auto|]. rewrite String.eqb_refl. split; auto. congruence.
        - exists c, q. cbn [get]. now rewrite String.eqb_refl. }
      destruct X as (c0 & q0 & g & hx). apply (BAD c0 q0 g). left. specialize (ce c0). rewrite g in ce. destruct ce as (_ & -> & _). auto.
  - destruct (before_last nbr) as [x|] eqn:BL; [|eauto]. rewrite (opt x eq_refl eq_refl). destruct (mixer_ends hw E x) as [(mp, ml)|e] eqn:ME; cbn [bind]; [|eauto]. destruct (from_path mp) as [p|e] eqn:FP; cbn [bind]; [|eauto].
    pose proof (mixer_ends_spec _ _ _ _ _ ME) as (m1 & _). pose proof (path_cluster _ _ _ m1 FP) as pc. pose proof (r_cl _ _ _ _ r) as rc. pose proof (r_lo _ _ _ _ r) as rl.
    destruct (put2_total (los st) (p_cl p) ml (List.length (heap st))) as (lo & hlo); [rewrite rl; auto|]. rewrite hlo. cbn [bind]. apply put2_spec in hlo as (l1 & _).
    destruct (fold_put2 (p_cl p) port (List.length (heap st)) clks (pcs st)) as (d & e1 & e2 & e3); [rewrite rc; auto|]. rewrite e1. cbn [bind].
    eexists _, _. split; [reflexivity|]. apply (R_put hw port clks L done st loc p d lo r ki pc e2 l1 e3). Qed.

(** ** All neighbours, all ports *)
Definition NoOptical hw E port clks : Prop := forall n x, In n (neighbors E port) -> is_path hw n = false -> before_last n = Some x -> optical_clock x clks = None.
Lemma keysinj_L port clks L L' done : KeysInj ((port, (clks, L)) :: done) -> KeysInj ((port, (clks, L')) :: done).
Proof. intros (a & b). split; [exact a|]. intros e e' k k' he he' hk hk' eq.
  assert (G : forall f, In f ((port, (clks, L')) :: done) -> exists g, In g ((port, (clks, L)) :: done) /\ fst g = fst f /\ fst (snd g) = fst (snd f)). { intros f [<-|hf]; [exists (port, (clks, L)); split; [left; auto|auto]|exists f; split; [right; auto|auto]]. }
  destruct (G _ he) as (g & g1 & g2 & g3). destruct (G _ he') as (g' & g1' & g2' & g3'). rewrite <- g2, <- g2', <- g3, <- g3' in *. eapply b; eauto. Qed.
Lemma nbrs_sim hw E port clks done ns : forall L st loc,
  NoDup (map fst (clusters hw)) -> R hw st ((port, (clks, L)) :: done) loc -> KeysInj ((port, (clks, L)) :: done) -> clks <> [] -> NoDup clks ->
  (forall n x, In n ns -> is_path hw n = false -> before_last n = Some x -> optical_clock x clks = None) ->
  match foldM (lstep hw E (List.length clks)) ns L with
  | Ok L' => exists st' loc', foldM (nbr_step hw E port clks) ns st = Ok st' /\ R hw st' ((port, (clks, L')) :: done) loc'
  | Err _ => exists e, foldM (nbr_step hw E port clks) ns st = Err e
  end.
Proof. induction ns as [|n ns IH]; cbn [foldM]; intros L st loc nd r ki ne nk opt; [eauto|]. pose proof (nbr_sim hw E port clks L done st loc n nd r ki ne nk (fun x => opt n x (or_introl eq_refl))) as s.
  destruct (lstep hw E (List.length clks) L n) as [L1|e]; cbn [bind].
  - destruct s as (st1 & loc1 & s1 & s2). rewrite s1. cbn [bind]. apply IH with (loc := loc1); auto. { eapply keysinj_L; eauto. } intros m x hm; apply opt; right; auto.
  - destruct s as (e' & s). rewrite s. cbn; eauto. Qed.
Lemma R_new hw st done loc port clks : R hw st done loc -> KeysInj ((port, (clks, [])) :: done) -> R hw st ((port, (clks, [])) :: done) loc.
Proof. intros r (kn & ki). assert (PN : forall e, In e done -> fst e <> port). { intros e he eq. cbn in kn. inversion kn; subst. apply H1. apply in_map_iff. eauto. }
  constructor.
  - intros e [<-|he]; [|apply (r_cells _ _ _ _ r); auto]. intros c. cbn [fst snd get]. intros k hk. destruct (get2 (pcs st) c (pc_key port k)) as [l|] eqn:G; auto. exfalso. destruct (r_keys _ _ _ _ r _ _ _ G) as (e & k' & he & hk' & eq). destruct (ki (port, (clks, [])) e k k') as (a & _); [left; auto|right; auto|exact hk|exact hk'|exact eq|]. apply (PN _ he). now rewrite <- a.
  - intros e e' c c' p p' [<-|he] [<-|he']; cbn [fst snd get]; try discriminate. apply (r_inj _ _ _ _ r); auto.
  - intros c key l g. destruct (r_keys _ _ _ _ r _ _ _ g) as (e & k & he & h). exists e, k. split; [right; auto|auto].
  - apply (r_cl _ _ _ _ r).
  - apply (r_lo _ _ _ _ r).
  - intros e [<-|he]; [constructor|apply (r_nodup _ _ _ _ r); auto].
  - intros e c p [<-|he]; [discriminate|apply (r_sub _ _ _ _ r); auto]. Qed.
Definition UsedInj (ps : list (string * list string)) : Prop := NoDup (map fst ps) /\ forall e e' k k', In e ps -> In e' ps -> In k (snd e) -> In k' (snd e') -> pc_key (fst e) k = pc_key (fst e') k' -> fst e = fst e' /\ k = k'.
Definition forget_paths (d : list entry) : list (string * list string) := map (fun e => (fst e, fst (snd e))) d.
Lemma usedinj_keys d : UsedInj (forget_paths d) -> KeysInj d.
Proof. intros (a & b). split.
  - unfold forget_paths in a. rewrite map_map in a. exact a.
  - intros e e' k k' he he' hk hk' eq. apply (b (fst e, fst (snd e)) (fst e', fst (snd e')) k k'); auto; apply in_map_iff; eauto. Qed.
Lemma usedinj_incl a b : UsedInj (a ++ b) -> UsedInj b.
Proof. intros (n & h). split; [rewrite map_app in n; clear - n; induction (map fst a); cbn in n; auto; inversion n; auto|]. intros; eapply h; eauto; apply in_or_app; auto. Qed.
Lemma usedinj_perm a b : Permutation a b -> UsedInj a -> UsedInj b.
Proof. intros p (n & h). split; [eapply Permutation_NoDup; [apply Permutation_map; exact p|auto]|]. intros e e' k k' he he'. apply h; eapply Permutation_in; try (symmetry; exact p); auto. Qed.

Theorem ports_sim hw E ps : forall done st loc,
  NoDup (map fst (clusters hw)) -> R hw st done loc -> UsedInj (ps ++ forget_paths done) -> (forall port clks, In (port, clks) ps -> clks <> [] /\ NoDup clks /\ NoOptical hw E port clks) ->
  match mapM (fun '(port, clks) => do L <- lport hw E (List.length clks) port; Ok (port, (clks, L))) ps with
  | Ok new => exists st' loc', foldM (port_step hw E) ps st = Ok st' /\ R hw st' (rev new ++ done) loc'
  | Err _ => exists e, foldM (port_step hw E) ps st = Err e
  end.
Proof. induction ps as [|(port, clks) ps IH]; intros done st loc nd r ui hp; [cbn; eauto|]. cbn [mapM foldM]. destruct (hp _ _ (or_introl eq_refl)) as (ne & nk & no). unfold port_step at 1 3. unfold lport at 1. destruct (memb port (nodes E)); [|cbn; eauto].
  assert (ki : KeysInj ((port, (clks, [])) :: done)). { apply usedinj_keys. cbn. eapply (usedinj_incl ps). eapply usedinj_perm; [|exact ui]. cbn. apply Permutation_middle. }
  pose proof (nbrs_sim hw E port clks done (neighbors E port) [] st loc nd (R_new _ _ _ _ _ _ r ki) ki ne nk no) as s. destruct (foldM (lstep hw E (List.length clks)) (neighbors E port) []) as [L|e]; cbn [bind].
  - destruct s as (st1 & loc1 & s1 & s2). rewrite s1. cbn [bind]. specialize (IH ((port, (clks, L)) :: done) st1 loc1 nd s2).
    assert (ui' : UsedInj (ps ++ forget_paths ((port, (clks, L)) :: done))) by (cbn; eapply usedinj_perm; [|exact ui]; cbn; apply Permutation_middle).
    specialize (IH ui' (fun p c h => hp p c (or_intror h))). destruct (mapM _ ps) as [new|e]; cbn [bind]; [|auto]. cbn [rev]. rewrite <- app_assoc. exact IH.
  - destruct s as (e' & s). rewrite s. cbn. eauto. Qed.
