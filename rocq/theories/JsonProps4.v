(** C45: compiled schedules, and the main lemma. *)
From Coq Require Import DecimalString Ascii.
From Verif Require Import Base PathModel JsonModel JsonSpec JsonProps JsonProps2 JsonProps3.
Open Scope string_scope.
Open Scope list_scope.

Lemma mapR_cons {A B} (f : A -> result B) x l : mapR f (x :: l) = (do y <- f x; do ys <- mapR f l; Ok (y :: ys)).
Proof. reflexivity. Qed.

Lemma item_data2 x y : item "data" [(VStr "deserialization_type", x); (VStr "data", y)] = Ok y.
Proof. reflexivity. Qed.

Section W.
Variable w : world.
Notation RT := (stored w).
Notation ren := (fun p : val * val => (restore w (fst p), restore w (snd p))).
Notation rea := (fun p : string * val => (fst p, restore w (snd p))).

(** ** Acquisition channels data *)
Definition chan_dict (v : val) : val := match v with VObj _ a => VDict (map (fun p => (VStr (fst p), restore w (snd p))) a) | _ => v end.
Lemma rt_channel c a : w_kind w c = KPlain -> map fst a = fields KPlain -> Allp (fun p => RT (snd p) (restore w (snd p))) a -> RT (VObj c a) (chan_dict (VObj c a)).
Proof. intros hk hf hr. apply (rt_try w _ (VDict (map (fun p => (VStr (fst p), snd p)) a))); [reflexivity| |].
  - cbn [default_try]. rewrite hk. cbn [bind]. unfold getstate. rewrite hk. destruct a; [discriminate|reflexivity].
  - cbn [chan_dict]. apply rt_plain_dict.
    + exists (fields KPlain). split; [|split; [repeat constructor; cbn; intuition discriminate|cbn; intuition discriminate]]. rewrite map_map, <- hf, map_map. reflexivity.
    + clear hf. induction a as [|p a IH]; [constructor|]. destruct hr as [h1 h2]. cbn [map]. constructor; [now apply entry_str|auto]. Qed.
Lemma channel_back a : map fst a = fields KPlain -> w_kind w acd_cls = KPlain -> acq_channel_data (chan_dict (VObj acd_cls a)) = Ok (restore w (VObj acd_cls a)).
Proof. intros hf hk. cbn [restore]. rewrite hk. destruct a as [|[k1 v1] a]; [discriminate|]. destruct a as [|[k2 v2] a]; [discriminate|]. destruct a as [|[k3 v3] a]; [discriminate|]. destruct a as [|[k4 v4] a]; [discriminate|]. destruct a; [|discriminate].
  cbn in hf. injection hf as -> -> -> ->. reflexivity. Qed.

Definition chan_list (d : list (val * val)) : val := VList (map (fun p => VDict [(VStr "key", fst p); (VStr "value", snd p)]) d).
Definition chan_list' (d : list (val * val)) : val := VList (map (fun p => VDict [(VStr "key", restore w (fst p)); (VStr "value", chan_dict (snd p))]) d).
Definition chan_ok (p : val * val) : Prop := RT (fst p) (restore w (fst p)) /\ RT (snd p) (chan_dict (snd p)) /\ acq_channel_data (chan_dict (snd p)) = Ok (restore w (snd p)).
Lemma rt_chan_list d : Forall chan_ok d -> RT (chan_list d) (chan_list' d).
Proof. intros h. apply rt_list. induction h as [|p d (h1 & h2 & h3) _ IH]; [constructor|]. cbn [map]. constructor; [|exact IH]. apply rt_plain_dict.
  - exists ["key"; "value"]. split; [reflexivity|]. split; [repeat constructor; cbn; intuition discriminate|cbn; intuition discriminate].
  - repeat constructor; apply entry_str; assumption. Qed.
Lemma chan_list_back d : Forall chan_ok d -> distinct_keys d -> Allp (fun p => scalar_key (fst p)) d ->
  (do ps <- mapM (fun e => do d <- as_dict e; do k <- item "key" d; do v <- item "value" d; do x <- acq_channel_data v; Ok (k, x)) (map (fun p => VDict [(VStr "key", restore w (fst p)); (VStr "value", chan_dict (snd p))]) d); dict_from ps) = Ok (map ren d).
Proof. intros h hd hs.
  assert (e : mapM (fun e => do d <- as_dict e; do k <- item "key" d; do v <- item "value" d; do x <- acq_channel_data v; Ok (k, x)) (map (fun p => VDict [(VStr "key", restore w (fst p)); (VStr "value", chan_dict (snd p))]) d) = Ok (map ren d)).
  { clear hd hs. induction h as [|p d (h1 & h2 & h3) _ IH]; [reflexivity|]. cbn [map mapM]. change (as_dict (VDict ?x)) with (Ok x). cbn [bind as_dict]. unfold item at 1 2. cbn [dget]. rewrite !key_str. cbn [String.eqb Ascii.eqb Bool.eqb bind]. rewrite h3. cbn [bind]. rewrite IH. reflexivity. }
  rewrite e. cbn [bind]. unfold dict_from.
  assert (e2 : all_b (fun p => hashable_key (fst p)) (map ren d) = true).
  { apply forallb_forall. intros q hq. apply in_map_iff in hq as (p & <- & hp). cbn. apply hashable_restore. exact (Allp_in _ _ _ hs hp). }
  rewrite e2, dict_of_distinct; [reflexivity|]. now apply distinct_restore. Qed.

(** ** Components *)
Lemma component_ok d : string_keys d ->
  (forall p s, In p d -> text (fst p) = Some s -> if (s =? "acq_channels_data")%string then exists cd, snd p = VDict cd /\ Forall chan_ok cd /\ distinct_keys cd /\ Allp (fun p => scalar_key (fst p)) cd else RT (snd p) (restore w (snd p))) ->
  exists x r, getstate_component w (VDict d) = Ok x /\ RT x r /\ setstate_component w r = Ok (restore w (VDict d)).
Proof. intros hs hr. unfold getstate_component. cbn [contains_key mapping bind]. unfold dhas. destruct (dget (VStr "acq_channels_data") d) as [v|] eqn:E.
  - destruct (dget_in _ _ _ E) as (p & hp & ht & <-). pose proof (hr _ _ hp ht) as h. rewrite String.eqb_refl in h. destruct h as (cd & ev & hc & hd & hk).
    cbn [bind]. unfold lookup. cbn [mapping]. unfold item. rewrite E. cbn [bind]. rewrite ev. cbn [as_dict bind with_item]. fold (chan_list cd).
    exists (VDict (dput (VStr "acq_channels_data") (chan_list cd) d)), (VDict (dput (VStr "acq_channels_data") (chan_list' cd) (map ren d))). split; [reflexivity|]. split.
    + apply rt_plain_dict; [eapply string_keys_dput; [rewrite dget_restore, E; reflexivity|now apply string_keys_restore]|].
      apply (entry_ex_none w _ _ (fun s => s = "acq_channels_data" /\ s <> "acq_channels_data")); [intros s [h1 h2]; contradiction|]. apply entries_put; [|now apply string_keys_distinct|now apply rt_chan_list|rewrite E; discriminate].
      apply entries_any; [exact hs|]. intros q s hq hts. pose proof (hr _ _ hq hts) as h. destruct (String.eqb_spec s "acq_channels_data"); [now left|now right].
    + unfold setstate_component. cbn [contains_key mapping bind]. unfold dhas. rewrite dget_dput. cbn [bind]. unfold lookup. cbn [mapping]. unfold item at 1. rewrite dget_dput. cbn [bind]. unfold chan_list' at 1.
      pose proof (chan_list_back cd hc hd hk) as hb.
      destruct (mapM _ _) as [ps|] eqn:Em; [|discriminate hb]. cbn [bind] in hb |- *. rewrite hb. cbn [bind with_item restore]. rewrite dput_dput. do 2 f_equal. apply dput_same. rewrite dget_restore, E. cbn. rewrite ev. reflexivity.
  - exists (VDict d), (VDict (map ren d)). split; [reflexivity|]. split.
    + apply rt_plain_dict; [now apply string_keys_restore|]. apply (entry_ex_none w _ _ (fun _ => False)); [auto|]. apply entries_any; [exact hs|]. intros q s hq hts. right. pose proof (hr _ _ hq hts) as h.
      destruct (String.eqb_spec s "acq_channels_data") as [->|]; [|exact h]. exfalso.
      assert (hh : dget (VStr "acq_channels_data") d <> None); [|now apply hh]. clear - hq hts. induction d as [|[k v] d IH]; [contradiction|]. cbn [dget]. destruct hq as [<-|hq].
      * cbn in hts. rewrite (text_key _ _ _ hts), String.eqb_refl. discriminate.
      * destruct (key_eqb _ _); [discriminate|auto].
    + unfold setstate_component. cbn [contains_key mapping bind]. unfold dhas. rewrite dget_restore, E. reflexivity. Qed.

Definition comp_ok (v : val) : Prop := exists x r, getstate_component w v = Ok x /\ RT x r /\ setstate_component w r = Ok (restore w v).
Definition ci_ok (v : val) : Prop := exists x r, with_values w (getstate_component w) v = Ok x /\ RT x r /\ with_values w (setstate_component w) r = Ok (restore w v).

Lemma ci_dict d : string_keys d -> (forall p, In p d -> comp_ok (snd p)) ->
  exists d1 d2, mapR (fun p => do x <- getstate_component w (snd p); Ok (fst p, x)) d = Ok d1 /\ string_keys d2 /\ Forall2 (entry w) d1 d2 /\ mapR (fun p => do x <- setstate_component w (snd p); Ok (fst p, x)) d2 = Ok (map ren d).
Proof. intros hs hc. assert (ht : Forall (fun p => exists s, text (fst p) = Some s) d) by (apply Forall_forall; intros p hp; exact (string_keys_text _ _ hs hp)).
  assert (H : exists d1 d2, mapR (fun p => do x <- getstate_component w (snd p); Ok (fst p, x)) d = Ok d1 /\ map fst d2 = map fst (map ren d) /\ Forall2 (entry w) d1 d2 /\ mapR (fun p => do x <- setstate_component w (snd p); Ok (fst p, x)) d2 = Ok (map ren d)).
  { clear hs. induction d as [|[k v] d IH]; [exists [], []; repeat split; constructor|]. inversion ht as [|? ? [s hsx] ht']; subst. cbn in hsx.
    destruct (hc _ (or_introl eq_refl)) as (x & r & h1 & h2 & h3). cbn in h1, h2, h3. destruct IH as (d1 & d2 & e1 & e2 & e3 & e4); [intros p hp; apply hc; now right|exact ht'|].
    exists ((k, x) :: d1), ((VStr s, r) :: d2). split; [|split; [|split]].
    - rewrite mapR_cons. cbn [fst snd]. rewrite h1. cbn [bind]. rewrite e1. reflexivity.
    - cbn [map fst snd]. rewrite (text_restore w _ _ hsx). now rewrite e2.
    - constructor; [exists s; cbn; auto|exact e3].
    - rewrite mapR_cons. cbn [fst snd map]. rewrite h3. cbn [bind]. rewrite e4. cbn [bind]. rewrite (text_restore w _ _ hsx). reflexivity. }
  destruct H as (d1 & d2 & e1 & e2 & e3 & e4). exists d1, d2. split; [exact e1|]. split; [|auto]. apply (string_keys_fst (map ren d)); [now symmetry|now apply string_keys_restore]. Qed.

Lemma ci_dict_ok d : string_keys d -> (forall p, In p d -> comp_ok (snd p)) -> ci_ok (VDict d).
Proof. intros hs hc. destruct (ci_dict d hs hc) as (d1 & d2 & e1 & e2 & e3 & e4). exists (VDict d1), (VDict d2). unfold with_values. cbn [mapping]. rewrite e1. cbn [bind]. split; [reflexivity|]. split; [now apply rt_plain_dict|]. rewrite e4. reflexivity. Qed.
Lemma ci_obj_ok c a d : importable w c -> w_kind w c = KInstructions -> aget "data" a = Some (VDict d) -> string_keys d -> (forall p, In p d -> comp_ok (snd p)) -> ci_ok (VObj c a).
Proof. intros hi hk ha hs hc. destruct (ci_dict d hs hc) as (d1 & d2 & e1 & e2 & e3 & e4). exists (VObj c (aput "data" (VDict d1) a)), (VObj c [("data", VDict d2)]). unfold with_values. cbn [mapping]. rewrite hk, ha, e1. cbn [bind]. split; [reflexivity|]. split.
  - apply (rt_data w c _ (VDict d1)); [exact hi|now right| |now apply rt_plain_dict]. clear - ha. induction a as [|[k v] a IH]; [discriminate|]. cbn [aget aput] in *. destruct (_ =? _)%string eqn:E; cbn [aget]; rewrite E; auto.
  - cbn [aget]. rewrite String.eqb_refl, e4. cbn [bind aput]. rewrite String.eqb_refl. cbn [restore]. rewrite hk. cbn [fields]. rewrite (pick1 w _ _ _ ha). reflexivity. Qed.

(** ** Compiled schedules *)
Lemma rt_compiled c a d sd ci : importable w c -> w_kind w c = KCompiled -> aget "data" a = Some (VDict d) -> dget (VStr "schedulables") d = Some (VDict sd) -> dget (VStr "compiled_instructions") d = Some ci ->
  string_keys d -> (forall p s, In p d -> text (fst p) = Some s -> s <> "compiled_instructions" -> RT (snd p) (restore w (snd p))) -> ci_ok ci ->
  string_keys sd -> (forall p, In p sd -> RT (snd p) (restore w (snd p))) ->
  RT (VObj c a) (restore w (VObj c a)).
Proof. intros hi hk ha hg hci hs hr (x & r & h1 & h2 & h3) hss hsr. cbn [restore]. rewrite hk. cbn [fields]. rewrite (pick1 w _ _ _ ha). cbn [restore].
  set (d1 := dput (VStr "schedulables") (pairs sd) d). assert (hne : "compiled_instructions" <> "schedulables") by discriminate.
  apply (rt_try w _ (state2 (VStr (export_path c)) (VDict (dput (VStr "compiled_instructions") x d1)))); [reflexivity| |].
  - cbn [default_try]. rewrite hk. cbn [bind]. unfold getstate. rewrite hk. unfold getstate_compiled, getstate_schedule, attr. rewrite ha. cbn [bind as_dict]. unfold item at 1. rewrite hg. cbn [bind as_dict]. unfold state2 at 1. cbn [as_dict bind].
    rewrite item_data2. fold (pairs sd). fold d1. cbn [bind as_dict].
    unfold item. unfold d1 at 1. rewrite dget_dput_ne by exact hne. rewrite hci. cbn [bind]. rewrite h1. reflexivity.
  - eapply (rt_state2 w c); [exact hi| |].
    + apply (rt_plain_dict w _ (dput (VStr "compiled_instructions") r (dput (VStr "schedulables") (pairs' w sd) (map ren d)))).
      * eapply string_keys_dput; [rewrite dget_dput_ne by exact hne; rewrite dget_restore, hci; reflexivity|]. eapply string_keys_dput; [rewrite dget_restore, hg; reflexivity|]. now apply string_keys_restore.
      * apply (entry_ex_none w _ _ (fun s => (s = "compiled_instructions" /\ s <> "schedulables") /\ s <> "compiled_instructions")); [intros s [[u _] v]; contradiction|]. apply entries_put; [apply entries_put| |exact h2|].
        -- apply entries_any; [exact hs|]. intros p s hp ht. destruct (String.eqb_spec s "compiled_instructions"); [now left|right]. exact (hr p s hp ht n).
        -- now apply string_keys_distinct.
        -- apply rt_pairs. apply Forall_forall. intros p hp. split; [exact (string_keys_text _ _ hss hp)|auto].
        -- rewrite hg. discriminate.
        -- apply string_keys_distinct. eapply string_keys_dput; [exact hg|exact hs].
        -- unfold d1. rewrite dget_dput_ne by exact hne. rewrite hci. discriminate.
    + unfold setstate. rewrite hk. unfold setstate_compiled. rewrite item_data2. cbn [bind as_dict]. unfold item. rewrite dget_dput. cbn [bind]. rewrite h3. cbn [bind].
      apply (setstate_schedule_ok w c d sd); [exact hss|exact hg|]. rewrite dget_dput. do 2 f_equal. rewrite dput_dput.
      rewrite (dput_comm "compiled_instructions" "schedulables" _ _ (map ren d) (restore w ci) (restore w (VDict sd))); [|discriminate|rewrite dget_restore, hci; reflexivity|rewrite dget_restore, hg; reflexivity].
      f_equal. apply dput_same. rewrite dget_restore, hci. reflexivity. Qed.
End W.
