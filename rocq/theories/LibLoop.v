(** Time lines of schedules with loops (used for C44). *)
From Coq Require Import Lqa Qminmax.
From Verif Require Import Base TimingModel TimingSpec TimingProofs TimingProofs2 TimingProofs3 TimingProofs4 LibModel LibSpec LibProps LibEngine LibProps2 LibThms4 LibThms5.
Open Scope Q_scope.
Open Scope string_scope.
Open Scope list_scope.

(** how long any operation lasts once it is timed *)
Definition edur gdur gdelay (o : lop) : Q := match determine ASAP (to_op gdur gdelay o) with Ok o' => match op_dur o' with Some d => d | None => 0 end | Err _ => 0 end.
Lemma od_edur gdur gdelay o d : OD gdur gdelay o d -> OD gdur gdelay o (edur gdur gdelay o) /\ edur gdur gdelay o = d.
Proof. intros (o' & h1 & h2). unfold edur. rewrite h1, h2. split; auto. exists o'. auto. Qed.
Lemma edur_leaf gdur gdelay o : leaf o = true -> OD gdur gdelay o (edur gdur gdelay o) /\ edur gdur gdelay o = ldur gdur o.
Proof. intros h. apply (od_edur gdur gdelay o (ldur gdur o)). now apply od_ldur. Qed.

(** the duration of a schedule: the end of the operation that ends last *)
Lemma engine_dur gdur gdelay df s : l_entries s <> [] -> NoDup (names (l_entries s)) -> Backward (l_entries s) ->
  (forall e, In e (l_entries s) -> OD gdur gdelay (e_op e) (df (e_op e))) ->
  exists T d items D, determine ASAP (to_tree gdur gdelay s) = Ok (OSched (Some d) None (l_reps s) items) /\
    Timeline gdur gdelay s (tl_of (l_entries s) T) /\ Rel gdur gdelay df (l_entries s) T /\
    d == inject_Z (l_reps s) * D /\ 0 <= D /\ (forall k e, nth_error (l_entries s) k = Some e -> T k + df (e_op e) <= D) /\
    (D == 0 \/ exists k e, nth_error (l_entries s) k = Some e /\ D == T k + df (e_op e)).
Proof. intros hne hn hb hd. destruct (engine gdur gdelay df s hne hn hb hd) as (T0 & (d & items & h1 & h2 & h3) & hR).
  destruct (go_ok gdur gdelay df _ hd) as (items1 & g1 & g2 & g3).
  pose proof h1 as h1'. unfold to_tree in h1'. cbn [determine] in h1'. rewrite g1 in h1'. cbn [bind] in h1'. rewrite g2 in h1'. cbn [bind] in h1'.
  destruct (determine_level ASAP (l_reps s) (map (sch_of gdur gdelay df) (l_entries s))) as [[out d']|] eqn:E; [|discriminate]. cbn [bind snd fst] in h1'. injection h1' as -> h1'.
  destruct (level_timed _ _ _ _ _ (level_keys gdur gdelay df _ hn) (level_fresh gdur gdelay df (l_entries s)) E) as (k1 & _ & _ & _ & D & k2 & k3 & k4 & k5).
  destruct (level_rel gdur gdelay df _ _ _ _ hn hb E) as (T & hT & hR').
  assert (hSt : forall k e, nth_error (l_entries s) k = Some e -> Starts out (e_name e) (T k)).
  { intros k e he. assert (g : nth_error (map (fun s0 => (s_name s0, s_abs s0)) out) k = Some (e_name e, Some (T k))).
    { rewrite hT, nth_error_map. assert (G : forall (l : list entry) i k e, nth_error l k = Some e -> nth_error (combine (seq i (List.length l)) l) k = Some ((i + k)%nat, e)).
      { induction l as [|x l IH]; intros i [|k'] e' h; cbn in *; try discriminate; [injection h as ->; now rewrite Nat.add_0_r|]. rewrite (IH (S i) k' e') by auto. f_equal. f_equal. lia. }
      rewrite (G _ 0%nat _ _ he). reflexivity. }
    rewrite nth_error_map in g. destruct (nth_error out k) as [x|] eqn:Ex; [|discriminate]. cbn in g. injection g as g g'. exists x. split; [eapply nth_error_In; eauto|auto]. }
  exists T, d, items, D. split; [exact h1|]. split.
  { exists d, items. split; [exact h1|]. unfold tl_of. rewrite !map_map. cbn. split.
    - transitivity (map (fun e : entry => (e_name e, e_op e)) (map snd (combine (seq 0 (List.length (l_entries s))) (l_entries s)))); [now rewrite map_map|].
      f_equal. generalize 0%nat. generalize (l_entries s). clear. induction l as [|x l IH]; intros i; cbn; [auto|]. now rewrite IH.
    - rewrite <- h1'. rewrite <- hT.
      assert (hl : map s_name out = map it_name items1) by (rewrite k1, g3, map_map; reflexivity). clear - hl. revert out hl. induction items1 as [|i l IH]; intros [|x out] hl; cbn in *; try discriminate; auto.
      injection hl as e hl. rewrite (IH out) by auto. now rewrite e. }
  split; [exact hR'|]. split; [exact k2|]. split; [exact k3|]. split.
  - intros k e he. apply (k4 (e_name e) (T k) (sch_of gdur gdelay df e)); auto. apply in_map. eapply nth_error_In; eauto.
  - destruct k5 as [k5|(n & t & sx & hs & hin & hnm & hD)]; [auto|]. right. apply in_map_iff in hin as (e & <- & hin). apply In_nth_error in hin as (k & hk). exists k, e. split; auto.
    cbn in hnm. subst n. rewrite hD. cbn. assert (t = T k); [|now subst].
    destruct hs as (x & hx1 & hx2 & hx3). destruct (hSt _ _ hk) as (y & hy1 & hy2 & hy3). assert (x = y); [|subst; congruence].
    assert (hnd : NoDup (map s_name out)) by (rewrite k1; exact (level_keys gdur gdelay df _ hn)). clear - hx1 hx2 hy1 hy2 hnd.
    revert hx1 hy1. induction out as [|z out IH]; cbn; [easy|]. inversion hnd; subst. intros [->|hx] [->|hy]; auto.
    + exfalso. apply H1. rewrite hx2, <- hy2. now apply in_map.
    + exfalso. apply H1. rewrite hy2, <- hx2. now apply in_map. Qed.

(** a loop lasts as many times its body as it has repetitions *)
Lemma loop_dur gdur gdelay es n : es <> [] -> NoDup (names es) -> BackAll [] es -> (forall e, In e es -> leaf (e_op e) = true) ->
  exists T D, Timeline gdur gdelay {| l_entries := es; l_res := []; l_reps := 1 |} (tl_of es T) /\ Rel gdur gdelay (ldur gdur) es T /\
    OD gdur gdelay (Loop es n) (edur gdur gdelay (Loop es n)) /\ edur gdur gdelay (Loop es n) == inject_Z n * D /\
    0 <= D /\ (forall k e, nth_error es k = Some e -> T k + ldur gdur (e_op e) <= D) /\ (D == 0 \/ exists k e, nth_error es k = Some e /\ D == T k + ldur gdur (e_op e)).
Proof. intros h1 h2 h3 h4. destruct (engine_dur gdur gdelay (ldur gdur) {| l_entries := es; l_res := []; l_reps := 1 |}) as (T & d & items & D & g1 & g2 & g3 & g4 & g5 & g6 & g7); cbn [l_entries l_reps] in *; auto.
  - now apply backall_backward.
  - intros e h. apply od_ldur; auto.
  - exists T, D. split; [exact g2|]. split; [exact g3|].
    assert (G : OD gdur gdelay (Loop es n) (inject_Z n * d)).
    { exists (OLoop n (OSched (Some d) None 1 items)). split; [|reflexivity].
      assert (E : OSched None None 1 (map (fun e : string * tconstr * lop => let '(nm, tc, o') := e in Item nm [tc] None (to_op gdur gdelay o')) es) = to_tree gdur gdelay {| l_entries := es; l_res := []; l_reps := 1 |}).
      { unfold to_tree. cbn [l_reps l_entries]. f_equal. apply map_ext. intros [[nm tc] o]. reflexivity. }
      change ((do b' <- determine ASAP (OSched None None 1 (map (fun e : string * tconstr * lop => let '(nm, tc, o') := e in Item nm [tc] None (to_op gdur gdelay o')) es)); Ok (OLoop n b')) = Ok (OLoop n (OSched (Some d) None 1 items))).
      rewrite E, g1. reflexivity. }
    destruct (od_edur _ _ _ _ G) as (G1 & G2). split; [exact G1|]. split; [rewrite G2, g4; change (inject_Z 1) with 1; ring|]. auto. Qed.

(** the blocks of a sweep, with operations of any kind *)
Lemma run_blocks_df {A} u gdur gdelay df (blk : nat -> nat -> A -> list entry) (body : lsched -> nat -> A -> result lsched) (Lab : nat -> string -> Prop) xs s0 : Uuids u -> l_entries s0 = [] -> blocks blk 0 0 xs <> [] ->
  (forall s i x, In x xs -> NoDup (names (l_entries s ++ blk (List.length (l_entries s)) i x)) -> body s i x = Ok (ext s (blk (List.length (l_entries s)) i x))) ->
  (forall i n, Lab i n -> not_uuid n) -> (forall i j n, Lab i n -> Lab j n -> i = j) ->
  (forall base i x, NoDup (names (blk base i x))) ->
  (forall base i x n, In n (names (blk base i x)) -> in_block u Lab base i (List.length (blk base i x)) n) ->
  (forall base i x, BackAll [] (blk base i x)) ->
  (forall base i x e, In x xs -> In e (blk base i x) -> OD gdur gdelay (e_op e) (df (e_op e))) ->
  exists T, for_enum xs s0 body = Ok (ext s0 (blocks blk 0 0 xs)) /\ Timeline gdur gdelay (ext s0 (blocks blk 0 0 xs)) (tl_of (blocks blk 0 0 xs) T) /\ Rel gdur gdelay df (blocks blk 0 0 xs) T.
Proof. intros hu h0 hne hbody hl1 hl2 hn hlab hback hod.
  assert (hnd : NoDup (names (blocks blk 0 0 xs))) by (apply (blocks_nodup u Lab); auto).
  assert (he : l_entries (ext s0 (blocks blk 0 0 xs)) = blocks blk 0 0 xs) by (cbn; now rewrite h0).
  assert (hE : for_enum xs s0 body = Ok (ext s0 (blocks blk 0 0 xs))).
  { pose proof (for_enum_blocks blk body xs s0 hbody) as G. rewrite h0 in G. cbn [app List.length] in G. apply G; auto. }
  assert (hod' : forall ys, incl ys xs -> forall base i e, In e (blocks blk base i ys) -> OD gdur gdelay (e_op e) (df (e_op e))).
  { clear - hod. induction ys as [|x ys IH]; intros hi base i e; cbn; [easy|]. rewrite in_app_iff. intros [h|h]; [apply (hod base i x); auto; apply hi; cbn; auto|apply (IH ltac:(intros y hy; apply hi; cbn; auto) _ _ _ h)]. }
  destruct (engine gdur gdelay df (ext s0 (blocks blk 0 0 xs))) as (T & h1 & h2).
  - now rewrite he.
  - now rewrite he.
  - rewrite he. apply backall_backward, backall_blocks; auto.
  - rewrite he. intros e h. apply (hod' xs (incl_refl _) _ _ _ h).
  - rewrite he in h1, h2. exists T. auto. Qed.
Lemma rel_prev_df gdur gdelay df es T k e er : Rel gdur gdelay df es T -> nth_error es (S k) = Some e -> nth_error es k = Some er -> tc_ref (e_tc e) = None ->
  T (S k) == T k + match tc_pt (e_tc e) with Some PtStart => 0 | Some PtCenter => df (e_op er) / 2 | _ => df (e_op er) end + tc_rel (e_tc e) + match odelay gdur gdelay (e_op er) with Some x => x | None => 0 end.
Proof. intros (h & _) h1 h2 h3. apply (h (S k) e k er); auto. rewrite h3. auto. Qed.
Lemma rel_zero3 gdur gdelay df es T : Rel gdur gdelay df es T -> (forall k, (k < List.length es)%nat -> T O <= T k) -> T O == 0.
Proof. intros (_ & h1 & (k & hk & h2)) hm. apply Qle_antisym; [rewrite <- h2; auto|]. apply h1. lia. Qed.
