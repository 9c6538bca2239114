(** From the loop body of a library schedule to its time line (C44). *)
From Verif Require Import Base TimingModel TimingSpec LibModel LibSpec LibProps LibEngine.
Open Scope Q_scope.
Open Scope string_scope.
Open Scope list_scope.

(** labels made of a prefix without digits, the number of the setpoint, and a rest *)
Definition LabA (i : nat) (n : string) : Prop := not_uuid n /\ exists p s, n = (p ++ dec i ++ s)%string /\ no_digit p = true /\ stops s = true.
(** labels that end in a space and the number of the setpoint *)
Definition LabB (i : nat) (n : string) : Prop := not_uuid n /\ exists p, n = (p ++ " " ++ dec i)%string.
Lemma labA_inj i j n : LabA i n -> LabA j n -> i = j.
Proof. intros (_ & p & s & -> & h1 & h2) (_ & p' & s' & e & h3 & h4). exact (label_idx _ _ _ _ _ _ h1 h3 h2 h4 e). Qed.
Lemma labB_inj i j n : LabB i n -> LabB j n -> i = j.
Proof. intros (_ & p & ->) (_ & p' & e). now apply label_last in e. Qed.
Lemma labA_uuid i n : LabA i n -> not_uuid n. Proof. now intros (h & _). Qed.
Lemma labB_uuid i n : LabB i n -> not_uuid n. Proof. now intros (h & _). Qed.
Lemma labA_intro p i : not_uuid (p ++ dec i)%string -> no_digit p = true -> LabA i (p ++ dec i)%string.
Proof. intros h g. split; auto. exists p, "". rewrite app_s_nil. auto. Qed.
Lemma labA_intro' p i s : not_uuid (p ++ dec i ++ s)%string -> no_digit p = true -> stops s = true -> LabA i (p ++ dec i ++ s)%string.
Proof. intros h g g'. split; auto. exists p, s. auto. Qed.

Definition tl_of (es : list entry) (T : nat -> Q) : list (string * lop * Q) :=
  map (fun ke : nat * entry => (e_name (snd ke), e_op (snd ke), T (fst ke))) (combine (seq 0 (List.length es)) es).
Lemma tl_len es T : List.length (tl_of es T) = List.length es.
Proof. unfold tl_of. rewrite map_length, combine_length, seq_length. lia. Qed.

Section Run.
Context {A : Type} (u : nat -> string) (gdur : lop -> Q) (gdelay : lop -> option Q).
Context (blk : nat -> nat -> A -> list entry) (body : lsched -> nat -> A -> result lsched) (Lab : nat -> string -> Prop).

Lemma run_blocks xs s0 : Uuids u -> l_entries s0 = [] -> blocks blk 0 0 xs <> [] ->
  (forall s i x, In x xs -> NoDup (names (l_entries s ++ blk (List.length (l_entries s)) i x)) -> body s i x = Ok (ext s (blk (List.length (l_entries s)) i x))) ->
  (forall i n, Lab i n -> not_uuid n) -> (forall i j n, Lab i n -> Lab j n -> i = j) ->
  (forall base i x, NoDup (names (blk base i x))) ->
  (forall base i x n, In n (names (blk base i x)) -> in_block u Lab base i (List.length (blk base i x)) n) ->
  (forall base i x, BackAll [] (blk base i x)) ->
  (forall base i x e, In e (blk base i x) -> leaf (e_op e) = true) ->
  exists T, for_enum xs s0 body = Ok (ext s0 (blocks blk 0 0 xs)) /\ Timeline gdur gdelay (ext s0 (blocks blk 0 0 xs)) (tl_of (blocks blk 0 0 xs) T) /\ Rel gdur gdelay (ldur gdur) (blocks blk 0 0 xs) T.
Proof. intros hu h0 hne hbody hl1 hl2 hn hlab hback hleaf.
  assert (hnd : NoDup (names (blocks blk 0 0 xs))) by (apply (blocks_nodup u Lab); auto).
  assert (he : l_entries (ext s0 (blocks blk 0 0 xs)) = blocks blk 0 0 xs) by (cbn; now rewrite h0).
  assert (hE : for_enum xs s0 body = Ok (ext s0 (blocks blk 0 0 xs))).
  { pose proof (for_enum_blocks blk body xs s0 hbody) as G. rewrite h0 in G. cbn [app List.length] in G. apply G; auto. }
  assert (hleaf' : forall xs base i e, In e (blocks blk base i xs) -> leaf (e_op e) = true).
  { clear - hleaf. induction xs as [|x xs IH]; intros base i e; cbn; [easy|]. rewrite in_app_iff. intros [h|h]; eauto. }
  destruct (engine gdur gdelay (ldur gdur) (ext s0 (blocks blk 0 0 xs))) as (T & h1 & h2).
  - now rewrite he.
  - now rewrite he.
  - rewrite he. apply backall_backward, backall_blocks; auto.
  - rewrite he. intros e h. apply od_ldur. eauto.
  - rewrite he in h1, h2. exists T. auto. Qed.

(** the block of one setpoint in the time line *)
Lemma block_at xs i x B T : (forall base i x, List.length (blk base i x) = B) -> nth_error xs i = Some x ->
  let es := blocks blk 0 0 xs in
  Segment (tl_of es T) (B * i) (map (fun ke : nat * entry => (e_name (snd ke), e_op (snd ke), T (fst ke))) (combine (seq (B * i) B) (blk (B * i)%nat i x))) /\
  (forall j e, nth_error (blk (B * i)%nat i x) j = Some e -> nth_error es (B * i + j) = Some e).
Proof. intros hB hx es. destruct (blocks_split blk xs 0 0 i x hx) as (pre & post & h1 & h2 & h3).
  assert (hp : List.length pre = (B * i)%nat).
  { rewrite h2, (blocks_len blk B) by auto. rewrite firstn_length. assert (i < List.length xs)%nat by (apply nth_error_Some; congruence). f_equal. lia. }
  cbn [Nat.add] in h1. rewrite hp in h1. split.
  - pose proof (timeline_segment es pre (blk (B * i)%nat i x) post T h1) as G. rewrite hp, hB in G. exact G.
  - intros j e h. unfold es. rewrite h1, nth_error_app2 by lia. replace (B * i + j - List.length pre)%nat with j by lia. rewrite nth_error_app1; auto. apply nth_error_Some. congruence. Qed.
End Run.

(** an operation and the one it refers to *)
Lemma rel_prev gdur gdelay es T k e er : Rel gdur gdelay (ldur gdur) es T -> nth_error es (S k) = Some e -> nth_error es k = Some er -> tc_ref (e_tc e) = None ->
  T (S k) == T k + match tc_pt (e_tc e) with Some PtStart => 0 | Some PtCenter => ldur gdur (e_op er) / 2 | _ => ldur gdur (e_op er) end + tc_rel (e_tc e) + match odelay gdur gdelay (e_op er) with Some x => x | None => 0 end.
Proof. intros (h & _) h1 h2 h3. apply (h (S k) e k er); auto. rewrite h3. auto. Qed.
Lemma rel_ref gdur gdelay es T k e j er : Rel gdur gdelay (ldur gdur) es T -> nth_error es k = Some e -> nth_error es j = Some er -> k <> O -> tc_ref (e_tc e) = Some (e_name er) ->
  T k == T j + match tc_pt (e_tc e) with Some PtStart => 0 | Some PtCenter => ldur gdur (e_op er) / 2 | _ => ldur gdur (e_op er) end + tc_rel (e_tc e) + match odelay gdur gdelay (e_op er) with Some x => x | None => 0 end.
Proof. intros (h & _) h1 h2 h4 h3. apply (h k e j er); auto. rewrite h3. auto. Qed.
(** if nothing starts before its predecessor, the first operation starts at 0 *)
Lemma rel_zero gdur gdelay df es T : Rel gdur gdelay df es T -> (forall k, (S k < List.length es)%nat -> T k <= T (S k)) -> T O == 0.
Proof. intros (_ & h1 & (k & hk & h2)) hm. assert (G : forall k, (k < List.length es)%nat -> T O <= T k).
  { clear - hm. induction k as [|k IH]; intros h; [apply Qle_refl|]. eapply Qle_trans; [apply IH; lia|]. apply hm; lia. }
  apply Qle_antisym; [rewrite <- h2; auto|]. apply h1. lia. Qed.

(** proof of membership and distinctness of the labels of one block *)
Ltac neq_label hu :=
  match goal with
  | h : _ = _ |- False => first [discriminate h | apply hu in h; lia
      | refine (not_uuid_neq _ _ _ hu _ h); reflexivity | symmetry in h; refine (not_uuid_neq _ _ _ hu _ h); reflexivity ]
  end.
Ltac nodup_label hu := repeat constructor; cbn; intros hin; repeat (destruct hin as [hin|hin]; [neq_label hu|]); exact hin.
Ltac head_of t := lazymatch t with ?f _ => head_of f | _ => t end.
Ltac in_label := match goal with |- In _ (names ?b) -> _ => let h := head_of b in unfold h end; cbn [names map e_name fst In List.length]; intros hin; repeat (destruct hin as [<-|hin]; [first
   [ left; apply labA_intro; reflexivity | left; apply labA_intro'; reflexivity | right; eexists; split; [|reflexivity]; lia ]|]); destruct hin.
Ltac back_label := repeat match goal with |- BackAll _ ?b => let h := head_of b in progress unfold h end; cbn [BackAll app]; unfold Back1; cbn [e_tc fst snd mk_tc tc_pt tc_ptnew tc_ref names map e_name In]; repeat split; try discriminate; auto 10.

Lemma add_step u s l label o ref pt rel rest : NoDup (names (l_entries s ++ l ++ (name_of u label (List.length (l_entries s) + List.length l), mk_tc ref pt rel, o) :: rest)) ->
  add u (ext s l) label o ref pt rel = Ok (ext s (l ++ [(name_of u label (List.length (l_entries s) + List.length l), mk_tc ref pt rel, o)]), name_of u label (List.length (l_entries s) + List.length l)).
Proof. intros h. rewrite (add_ok' u (ext s l) label o ref pt rel rest); cbn [ext l_entries]; rewrite app_length.
  - f_equal. f_equal. now rewrite ext_app.
  - rewrite <- app_assoc. exact h. Qed.
Ltac add1 h := erewrite add_step by (cbn [app List.length name_of] in *; exact h); cbn [bind fst snd app List.length name_of].
Ltac build_block h := match goal with |- context [add _ ?s _ _ _ _ _] => let E := fresh in pose proof (ext_nil s) as E; rewrite <- E at 1; clear E end; repeat add1 h; reflexivity.

Lemma no_delay gdelay o : OnlyMeasureDelays gdelay -> (match o with MeasureGate _ _ _ => False | _ => True end) -> gdelay o = None.
Proof. intros h g. destruct (gdelay o) eqn:E; auto. destruct (h o) as (a & b & c & ->); [congruence|easy]. Qed.

Section Blk.
Context {A : Type} (gdur : lop -> Q) (gdelay : lop -> option Q) (blk : nat -> nat -> A -> list entry) (xs : list A) (T : nat -> Q) (B i : nat) (x : A).
Context (hB : forall base i x, List.length (blk base i x) = B) (hx : nth_error xs i = Some x) (hR : Rel gdur gdelay (ldur gdur) (blocks blk 0 0 xs) T).
Definition after (pt : option refpt) (rel : Q) (o : lop) (t : Q) : Q := t + match pt with Some PtStart => 0 | Some PtCenter => ldur gdur o / 2 | _ => ldur gdur o end + rel + match odelay gdur gdelay o with Some x => x | None => 0 end.
Lemma blk_prev j e er : nth_error (blk (B * i)%nat i x) (S j) = Some e -> nth_error (blk (B * i)%nat i x) j = Some er -> tc_ref (e_tc e) = None ->
  T (B * i + S j)%nat == after (tc_pt (e_tc e)) (tc_rel (e_tc e)) (e_op er) (T (B * i + j)%nat).
Proof. intros h1 h2 h3. destruct (block_at blk xs i x B T hB hx) as (_ & hn). apply hn in h1. apply hn in h2. rewrite Nat.add_succ_r in *. now apply (rel_prev _ _ _ _ _ e er hR). Qed.
Lemma blk_ref k j e er : nth_error (blk (B * i)%nat i x) k = Some e -> k <> O -> nth_error (blk (B * i)%nat i x) j = Some er -> tc_ref (e_tc e) = Some (e_name er) ->
  T (B * i + k)%nat == after (tc_pt (e_tc e)) (tc_rel (e_tc e)) (e_op er) (T (B * i + j)%nat).
Proof. intros h1 h2 h4 h3. destruct (block_at blk xs i x B T hB hx) as (_ & hn). apply hn in h1. apply hn in h4. apply (rel_ref _ _ _ _ _ e _ er hR); auto. lia. Qed.
(** the first operation of a block follows the last of the previous block *)
Lemma blk_first i' y e er : i = S i' -> nth_error xs i' = Some y -> nth_error (blk (B * i)%nat i x) 0 = Some e -> nth_error (blk (B * i')%nat i' y) (B - 1) = Some er -> tc_ref (e_tc e) = None -> (0 < B)%nat ->
  T (B * i + 0)%nat == after (tc_pt (e_tc e)) (tc_rel (e_tc e)) (e_op er) (T (B * i' + (B - 1))%nat).
Proof. intros hi hy h1 h4 h3 hB0. destruct (block_at blk xs i x B T hB hx) as (_ & hn). destruct (block_at blk xs i' y B T hB hy) as (_ & hn'). apply hn in h1. apply hn' in h4.
  replace (B * i + 0)%nat with (S (B * i' + (B - 1))) in * by (subst i; lia). now apply (rel_prev _ _ _ _ _ e er hR). Qed.
End Blk.
Arguments after : simpl never.
Lemma tl_nth es T k : nth_error (tl_of es T) k = match nth_error es k with Some e => Some (e_name e, e_op e, T k) | None => None end.
Proof. unfold tl_of. rewrite nth_error_map.
  assert (G : forall (l : list entry) i k, nth_error (combine (seq i (List.length l)) l) k = match nth_error l k with Some e => Some ((i + k)%nat, e) | None => None end).
  { induction l as [|x l IH]; intros i [|k']; cbn; auto; [now rewrite Nat.add_0_r|]. rewrite IH. destruct (nth_error l k'); auto. do 2 f_equal. lia. }
  rewrite G. destruct (nth_error es k); reflexivity. Qed.
Lemma ldur_duration gdur o : ldur gdur o = duration gdur o.
Proof. destruct o; reflexivity. Qed.
(** the first operation of every block has no timing arguments *)
Lemma after_previous {A} gdur gdelay (blk : nat -> nat -> A -> list entry) xs T B i x : OnlyMeasureDelays gdelay -> (forall base i x, List.length (blk base i x) = B) -> (0 < B)%nat -> nth_error xs i = Some x ->
  Rel gdur gdelay (ldur gdur) (blocks blk 0 0 xs) T -> (exists n o, nth_error (blk (B * i)%nat i x) 0 = Some (n, mk_tc None None 0, o)) ->
  AfterPrevious gdur gdelay (tl_of (blocks blk 0 0 xs) T) (B * i).
Proof. intros hd hB h0 hx hR (nm & o & h) m name o1 t name' o' t' hm h1 h2. destruct (block_at blk xs i x B T hB hx) as (_ & hn). apply hn in h. rewrite Nat.add_0_r in h.
  rewrite tl_nth in h1, h2. rewrite h in h2. injection h2 as <- <- <-. destruct (nth_error (blocks blk 0 0 xs) m) as [e|] eqn:E; [|discriminate]. injection h1 as <- <- <-.
  rewrite hm in *. rewrite (rel_prev _ _ _ _ _ _ _ hR h E eq_refl). cbn [e_tc fst snd mk_tc tc_pt tc_rel]. rewrite ldur_duration.
  unfold odelay, delay. destruct (e_op e) eqn:Eo; cbn [to_op op_delay]; rewrite ?(no_delay _ _ hd) by exact I; try ring. Qed.

(** [T (B*i+j)] for a block of explicit length *)
Ltac seg_ok hs := rewrite ?Nat.add_succ_r, ?Nat.add_0_r; exact hs.
Ltac rel_ok hd := unfold after; cbn [e_tc e_op fst snd mk_tc tc_pt tc_rel ldur to_op odelay op_delay]; rewrite ?(no_delay _ _ hd) by exact I; try ring.
(** [lib_run hu b]: run the loop of the schedule in the goal, with the blocks [b] *)
Ltac lib_run u gdur gdelay hu b hne T h1 h2 h3 :=
  match goal with |- context [for_enum ?xs ?s0 ?body] => destruct (run_blocks u gdur gdelay b body LabA xs s0 hu eq_refl) as (T & h1 & h2 & h3);
   [ destruct xs; [easy|discriminate] | let hin := fresh in let h := fresh in intros s i x hin h; build_block h | exact labA_uuid | exact labA_inj
   | intros base i x; nodup_label hu | intros base i x n; in_label | intros base i x; back_label | intros base i x e; cbn; intuition (subst; reflexivity) | ] end.
Ltac lib_prev b B hi hR hd j := let H := fresh in pose proof (blk_prev _ _ b _ _ B _ _ (fun _ _ _ => eq_refl) hi hR j _ _ eq_refl eq_refl eq_refl) as H; rewrite H; rel_ok hd.
Ltac lib_ref b B hi hR hd k j := let H := fresh in pose proof (blk_ref _ _ b _ _ B _ _ (fun _ _ _ => eq_refl) hi hR k j _ _ eq_refl ltac:(discriminate) eq_refl eq_refl) as H; rewrite H; rel_ok hd.
Ltac lib_first b B hi hR hd := apply (after_previous _ _ b _ _ B _ _ hd (fun _ _ _ => eq_refl) ltac:(lia) hi hR); do 2 eexists; reflexivity.

Lemma add_clock_ok s n f : ~ In n (map fst (l_res s)) -> add_clock s n f = Ok {| l_entries := l_entries s; l_res := l_res s ++ [(n, f)]; l_reps := l_reps s |}.
Proof. intros h. unfold add_clock. now rewrite known_false. Qed.
