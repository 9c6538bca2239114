(** C45: what is read back is stored as the same document. *)
From Coq Require Import DecimalString Ascii.
From Verif Require Import Base PathModel JsonModel JsonSpec JsonProps JsonProps2 JsonProps3 JsonProps4 JsonThms JsonHash.
Open Scope string_scope.
Open Scope list_scope.

Section W.
Variable w : world.
Notation ren := (fun p : val * val => (restore w (fst p), restore w (snd p))).
Notation rea := (fun p : string * val => (fst p, restore w (snd p))).

Definition SD (a b : val) : Prop := forall n, encode w n a = encode w n b.
Lemma sd_refl v : SD v v. Proof. intros n. reflexivity. Qed.
Lemma sd_map l l' n : Forall2 SD l l' -> mapR (encode w n) l = mapR (encode w n) l'.
Proof. induction 1 as [|x y l l' h _ IH]; [reflexivity|]. cbn. now rewrite (h n), IH. Qed.
Lemma sd_list l l' : Forall2 SD l l' -> SD (VList l) (VList l').
Proof. intros h [|n]; [reflexivity|]. cbn. now rewrite (sd_map _ _ n h). Qed.
Lemma sd_tuple l l' : Forall2 SD l l' -> SD (VTuple l) (VList l').
Proof. intros h [|n]; [reflexivity|]. cbn. now rewrite (sd_map _ _ n h). Qed.
Lemma sd_tuple2 l l' : Forall2 SD l l' -> SD (VTuple l) (VTuple l').
Proof. intros h [|n]; [reflexivity|]. cbn. now rewrite (sd_map _ _ n h). Qed.
Definition esd (E : string -> Prop) (p q : val * val) : Prop := exists s, text (fst p) = Some s /\ text (fst q) = Some s /\ (E s \/ SD (snd p) (snd q)).
Lemma json_text k s : text k = Some s -> json_key w k = Ok s.
Proof. destruct k; cbn; intros h; inversion h; reflexivity. Qed.
Lemma sd_dict E d d' : (forall s, ~ E s) -> Forall2 (esd E) d d' -> SD (VDict d) (VDict d').
Proof. intros he h [|n]; [reflexivity|]. cbn. f_equal.
  induction h as [|p q d d' (s & e1 & e2 & e3) _ IH]; [reflexivity|]. destruct e3 as [e3|e3]; [destruct (he _ e3)|]. cbn. rewrite (json_text _ _ e1), (json_text _ _ e2). cbn. rewrite (e3 n). destruct (encode w n (snd q)); cbn; [|reflexivity]. now rewrite IH. Qed.
Lemma esd_put E k v v' d d' : Forall2 (esd E) d d' -> distinct_keys d -> SD v v' -> dget (VStr k) d <> None ->
  Forall2 (esd (fun s => E s /\ s <> k)) (dput (VStr k) v d) (dput (VStr k) v' d').
Proof. intros f. induction f as [|[a x] [b y] d d' (s & e1 & e2 & h) f IH]; intros hd hr hk; [now destruct hk|]. cbn in e1, e2, h, hd. destruct hd as [hd1 hd2]. cbn [dput dget] in *.
  rewrite (text_key _ _ _ e1) in *. rewrite (text_key _ _ _ e2). destruct (String.eqb_spec s k) as [->|hn].
  - constructor; [exists k; cbn; auto|]. clear IH hk. rewrite Allp_Forall in hd1. clear hd2. induction f as [|[a' x'] [b' y'] d d' (s' & e1' & e2' & h') f IH2]; [constructor|]. inversion hd1; subst. constructor; [|now apply IH2].
    exists s'. cbn in *. split; [exact e1'|]. split; [exact e2'|]. destruct h' as [h'|h']; [|now right]. left. split; [exact h'|]. intros ->. destruct a, a'; cbn in e1, e1'; inversion e1; inversion e1'; subst; cbn in H1; rewrite String.eqb_refl in H1; discriminate.
  - constructor; [exists s; cbn; split; [exact e1|split; [exact e2|]]; destruct h; [left|right]; auto|]. apply IH; auto. Qed.
Lemma esd_any d E : string_keys d -> (forall p s, In p d -> text (fst p) = Some s -> E s \/ SD (snd p) (restore w (snd p))) -> Forall2 (esd E) d (map ren d).
Proof. intros h hr. apply forall2_map_r. apply Forall_forall. intros p hp. destruct (string_keys_text _ _ h hp) as [s e]. exists s. cbn. split; [exact e|]. split; [now rewrite text_rest|]. exact (hr p s hp e). Qed.
Lemma sd_try v v' o o' : (forall n, encode w (S n) v = encode w n (default w v)) -> (forall n, encode w (S n) v' = encode w n (default w v')) ->
  default_try w v = Ok o -> default_try w v' = Ok o' -> SD o o' -> SD v v'.
Proof. intros e1 e2 t1 t2 h [|n]; [destruct v, v'; reflexivity|]. rewrite e1, e2. unfold default. rewrite t1, t2. apply h. Qed.
Lemma sd_state2 x d d' : SD d d' -> SD (state2 x d) (state2 x d').
Proof. intros h [|n]; [reflexivity|]. unfold state2. cbn. rewrite (h n). reflexivity. Qed.
Lemma sd_attrs a : Allp (fun p => SD (snd p) (restore w (snd p))) a -> SD (VDict (map (fun p => (VStr (fst p), snd p)) a)) (VDict (map (fun p => (VStr (fst p), snd p)) (map rea a))).
Proof. intros h. apply (sd_dict (fun _ => False)); [auto|]. induction a as [|p a IH]; [constructor|]. destruct h as [h1 h2]. cbn [map]. constructor; [|auto]. exists (fst p). cbn. auto. Qed.

Definition csd (f : val -> result val) (v : val) : Prop := exists x y, f v = Ok x /\ f (restore w v) = Ok y /\ SD x y.
Definition concl2 (m : place) (v : val) : Prop :=
  match m with
  | AnyValue => SD v (restore w v)
  | CompiledData => True
  | Instructions => csd (with_values w (getstate_component w)) v
  | Component => csd (getstate_component w) v
  | Channels => exists cd, v = VDict cd /\ Forall (fun p => SD (fst p) (restore w (fst p)) /\ SD (snd p) (restore w (snd p))) cd
  | Channel => SD v (restore w v)
  end.

Lemma sd_chan_list cd : Forall (fun p => SD (fst p) (restore w (fst p)) /\ SD (snd p) (restore w (snd p))) cd -> SD (chan_list cd) (chan_list (map ren cd)).
Proof. intros h. apply sd_list. induction h as [|p d [h1 h2] _ IH]; [constructor|]. cbn [map]. constructor; [|exact IH]. apply (sd_dict (fun _ => False)); [auto|].
  constructor; [exists "key"; cbn; auto|]. constructor; [exists "value"; cbn; auto|]. constructor. Qed.
Lemma sd_component d : string_keys d ->
  (forall p s, In p d -> text (fst p) = Some s -> if (s =? "acq_channels_data")%string then concl2 Channels (snd p) else SD (snd p) (restore w (snd p))) -> csd (getstate_component w) (VDict d).
Proof. intros hs hr. unfold csd, getstate_component. cbn [restore contains_key mapping bind]. unfold dhas. rewrite dget_restore. destruct (dget (VStr "acq_channels_data") d) as [v|] eqn:E; cbn [option_map].
  - destruct (dget_in _ _ _ E) as (p & hp & ht & <-). pose proof (hr _ _ hp ht) as h. rewrite String.eqb_refl in h. destruct h as (cd & ev & hc).
    cbn [bind]. unfold lookup. cbn [mapping]. unfold item. rewrite dget_restore, E. cbn [bind option_map]. rewrite ev. cbn [restore as_dict bind with_item]. fold (chan_list cd). fold (chan_list (map ren cd)).
    eexists _, _. split; [reflexivity|]. split; [reflexivity|]. apply (sd_dict (fun s => s = "acq_channels_data" /\ s <> "acq_channels_data")); [intros s [h1 h2]; contradiction|].
    apply esd_put; [|now apply string_keys_distinct|now apply sd_chan_list|rewrite E; discriminate]. apply esd_any; [exact hs|]. intros q s hq hts. pose proof (hr _ _ hq hts) as h. destruct (String.eqb_spec s "acq_channels_data"); [now left|now right].
  - eexists _, _. split; [reflexivity|]. split; [reflexivity|]. apply (sd_dict (fun _ => False)); [auto|]. apply esd_any; [exact hs|]. intros q s hq hts. right. pose proof (hr _ _ hq hts) as h.
    destruct (String.eqb_spec s "acq_channels_data") as [->|]; [|exact h]. exfalso.
    assert (hh : dget (VStr "acq_channels_data") d <> None); [|now apply hh]. clear - hq hts. induction d as [|[k v] d IH]; [contradiction|]. cbn [dget]. destruct hq as [<-|hq].
    + cbn in hts. rewrite (text_key _ _ _ hts), String.eqb_refl. discriminate.
    + destruct (key_eqb _ _); [discriminate|auto]. Qed.
Lemma sd_values d : string_keys d -> (forall p, In p d -> csd (getstate_component w) (snd p)) ->
  exists d1 d2, mapR (fun p => do x <- getstate_component w (snd p); Ok (fst p, x)) d = Ok d1 /\ mapR (fun p => do x <- getstate_component w (snd p); Ok (fst p, x)) (map ren d) = Ok d2 /\ SD (VDict d1) (VDict d2).
Proof. intros hs hc. assert (ht : Forall (fun p => exists s, text (fst p) = Some s) d) by (apply Forall_forall; intros p hp; exact (string_keys_text _ _ hs hp)). clear hs.
  assert (H : exists d1 d2, mapR (fun p => do x <- getstate_component w (snd p); Ok (fst p, x)) d = Ok d1 /\ mapR (fun p => do x <- getstate_component w (snd p); Ok (fst p, x)) (map ren d) = Ok d2 /\ Forall2 (esd (fun _ => False)) d1 d2).
  { induction d as [|[k v] d IH]; [exists [], []; repeat split; constructor|]. inversion ht as [|? ? [s hsx] ht']; subst. cbn in hsx.
    destruct (hc _ (or_introl eq_refl)) as (x & r & h1 & h2 & h3). cbn in h1, h2, h3. destruct IH as (d1 & d2 & e1 & e2 & e3); [intros p hp; apply hc; now right|exact ht'|].
    exists ((k, x) :: d1), ((restore w k, r) :: d2). cbn [map]. rewrite !mapR_cons. cbn [fst snd]. rewrite h1, h2. cbn [bind]. rewrite e1, e2. cbn [bind]. split; [reflexivity|]. split; [reflexivity|]. constructor; [|exact e3]. exists s. cbn. rewrite text_rest. auto. }
  destruct H as (d1 & d2 & e1 & e2 & e3). exists d1, d2. split; [exact e1|]. split; [exact e2|]. apply (sd_dict (fun _ => False)); auto. Qed.

Lemma default_data c a d : (w_kind w c = KData \/ w_kind w c = KInstructions) -> aget "data" a = Some d -> default_try w (VObj c a) = Ok (state2 (VStr (export_path c)) d).
Proof. intros hk ha. cbn [default_try]. destruct hk as [hk|hk]; rewrite hk; cbn [bind]; unfold getstate, attr; rewrite hk, ha; reflexivity. Qed.
Lemma sd_pairs sd : (forall p, In p sd -> SD (fst p) (restore w (fst p)) /\ SD (snd p) (restore w (snd p))) -> SD (pairs sd) (pairs (map ren sd)).
Proof. intros h. apply sd_list. induction sd as [|p d IH]; [constructor|]. cbn [map]. constructor; [|apply IH; intros q hq; apply h; now right]. apply sd_tuple2. destruct (h p (or_introl eq_refl)) as [h1 h2]. cbn [fst snd]. repeat constructor; assumption. Qed.
Lemma sd_text k s : text k = Some s -> SD k (restore w k).
Proof. intros h [|n]; destruct k; cbn in h |- *; inversion h; reflexivity. Qed.
Lemma default_schedule c a d sd : w_kind w c = KSchedule -> aget "data" a = Some (VDict d) -> dget (VStr "schedulables") d = Some (VDict sd) ->
  default_try w (VObj c a) = Ok (state2 (VStr (export_path c)) (VDict (dput (VStr "schedulables") (pairs sd) d))).
Proof. intros hk ha hg. cbn [default_try]. rewrite hk. cbn [bind]. unfold getstate. rewrite hk. unfold getstate_schedule, attr. rewrite ha. cbn [bind as_dict]. unfold item. rewrite hg. reflexivity. Qed.
Lemma default_compiled c a d sd ci x : w_kind w c = KCompiled -> aget "data" a = Some (VDict d) -> dget (VStr "schedulables") d = Some (VDict sd) -> dget (VStr "compiled_instructions") d = Some ci ->
  with_values w (getstate_component w) ci = Ok x ->
  default_try w (VObj c a) = Ok (state2 (VStr (export_path c)) (VDict (dput (VStr "compiled_instructions") x (dput (VStr "schedulables") (pairs sd) d)))).
Proof. intros hk ha hg hci h1. assert (hne : "compiled_instructions" <> "schedulables") by discriminate. cbn [default_try]. rewrite hk. cbn [bind]. unfold getstate. rewrite hk. unfold getstate_compiled, getstate_schedule, attr. rewrite ha. cbn [bind as_dict]. unfold item at 1. rewrite hg. cbn [bind as_dict]. unfold state2 at 1. cbn [as_dict bind].
  rewrite item_data2. fold (pairs sd). cbn [bind as_dict]. unfold item. rewrite dget_dput_ne by exact hne. rewrite hci. cbn [bind]. rewrite h1. reflexivity. Qed.
Lemma aget_data1 v : aget "data" [("data", v)] = Some v. Proof. reflexivity. Qed.

Theorem main2 : forall v m, storable w m v -> concl2 m v.
Proof.
  intros v. remember (vsize v) as n eqn:En. revert v En. induction n as [n IH] using lt_wf_ind. intros v -> m hs.
  assert (IHa : forall u, (vsize u < vsize v)%nat -> storable w AnyValue u -> SD u (restore w u)) by (intros u hu hh; exact (IH _ hu u eq_refl AnyValue hh)).
  destruct v; cbn [storable] in hs; try contradiction.
  all: try (subst m; apply sd_refl).
  all: try (destruct hs as [-> ?]; apply sd_refl).
  - subst m. cbn. intros [|n]; [reflexivity|]. cbn. destruct f; reflexivity.
  - subst m. cbn. intros [|n]; reflexivity.
  - destruct hs as [-> h]. cbn [concl2 restore]. apply sd_list. apply forall2_map_r. rewrite Allp_Forall in h. rewrite Forall_forall in h |- *. intros x hx. apply IHa; [now apply size_elem|auto].
  - destruct hs as [-> h]. cbn [concl2 restore]. apply sd_tuple. apply forall2_map_r. rewrite Allp_Forall in h. rewrite Forall_forall in h |- *. intros x hx. apply IHa; [now apply size_elem|auto].
  - destruct m; cbn [concl2]; try contradiction.
    + destruct hs as [h1 h2]. cbn [restore]. apply (sd_dict (fun _ => False)); [auto|]. apply esd_any; [exact h1|]. intros p s hp ht. right. apply IHa; [now apply size_entry|]. exact (Allp_in _ _ _ h2 hp).
    + exact I.
    + destruct hs as [h1 h2]. destruct (sd_values kvs h1) as (d1 & d2 & e1 & e2 & e3).
      { intros p hp. exact (IH _ (proj2 (size_entry _ _ hp)) (snd p) eq_refl Component (Allp_in _ _ _ h2 hp)). }
      exists (VDict d1), (VDict d2). unfold with_values. cbn [restore mapping]. rewrite e1, e2. cbn [bind]. auto.
    + destruct hs as [h1 h2]. apply sd_component; [exact h1|]. intros p s hp ht. pose proof (Allp_in _ _ _ h2 hp) as h. cbn [inside] in h. rewrite ht in h. destruct (String.eqb_spec s "acq_channels_data").
      * exact (IH _ (proj2 (size_entry _ _ hp)) (snd p) eq_refl Channels h).
      * exact (IHa _ (proj2 (size_entry _ _ hp)) h).
    + destruct hs as [h1 h2]. exists kvs. split; [reflexivity|]. apply Forall_forall. intros p hp. destruct (Allp_in _ _ _ h2 hp) as [h3 h4]. split.
      * apply IHa; [now apply size_entry|]. destruct (fst p); cbn in h3 |- *; try contradiction; reflexivity.
      * exact (IH _ (proj2 (size_entry _ _ hp)) (snd p) eq_refl Channel h4).
  - destruct m; cbn [concl2]; try contradiction.
    + pose proof hs as hs0. destruct hs as (hi & hw & ha).
      assert (hattr : forall f x, aget f attrs = Some x -> In f (fields (w_kind w c)) -> storable w (attr_place (w_kind w c) f) x) by (intros f x hf hin; exact (Allp_in _ _ _ ha (aget_in _ _ _ hf) hin)).
      assert (hsz : forall f x, aget f attrs = Some x -> (vsize x < vsize (VObj c attrs))%nat) by (intros f x hf; exact (size_attr c _ _ (aget_in _ _ _ hf))).
      pose proof (hash_ok w (VObj c attrs) AnyValue hs0) as hh. cbn [restore] in hh |- *.
      destruct (w_kind w c) eqn:hk; unfold well_formed in hw; rewrite hk in hw.
      * destruct hw as (d & hd & [z ez] & _ & u & _ & hu).
        assert (ep : pick (fields KOperation) (map rea attrs) = [("data", restore w (VDict d)); ("_duration", restore w u)]) by (unfold pick; cbn [fields flat_map]; rewrite !aget_map, hd, hu; reflexivity).
        rewrite ep in *. destruct (hh (ex_intro _ z ez)) as [z' ez'].
        apply (sd_try _ _ (state2 (VStr (export_path c)) (VDict d)) (state2 (VStr (export_path c)) (restore w (VDict d)))); try reflexivity.
        -- cbn [default_try]. rewrite hk, ez. cbn [bind]. unfold getstate, attr. rewrite hk, hd. reflexivity.
        -- cbn [default_try]. rewrite hk, ez'. cbn [bind]. unfold getstate, attr. rewrite hk, aget_data1 || rewrite hk. reflexivity.
        -- apply sd_state2. apply IHa; [exact (hsz _ _ hd)|]. exact (hattr _ _ hd (or_introl eq_refl)).
      * destruct hw as (d & hd & sd & hsd). pose proof (hattr _ _ hd (or_introl eq_refl)) as hst. cbn in hst. destruct hst as [h1 h2]. pose proof (hsz _ _ hd) as hlt.
        destruct (dget_in _ _ _ hsd) as (p & hp & ht & ep). pose proof (Allp_in _ _ _ h2 hp) as h3. cbn in h3. rewrite ep in h3. cbn in h3. destruct h3 as [h3 h4].
        assert (hlt2 : (vsize (VDict sd) < vsize (VDict d))%nat) by (rewrite <- ep; now apply size_entry).
        cbn [fields]. rewrite (pick1 w _ _ _ hd). cbn [restore].
        eapply sd_try; [reflexivity|reflexivity|exact (default_schedule c attrs d sd hk hd hsd)|apply (default_schedule c _ (map ren d) (map ren sd) hk); [reflexivity|rewrite dget_restore, hsd; reflexivity]|].
        apply sd_state2. apply (sd_dict (fun s => False /\ s <> "schedulables")); [intros s []; contradiction|]. apply esd_put.
        -- apply esd_any; [exact h1|]. intros q s hq _. right. apply IHa; [pose proof (size_entry _ _ hq); lia|]. exact (Allp_in _ _ _ h2 hq).
        -- now apply string_keys_distinct.
        -- apply sd_pairs. intros q hq. destruct (string_keys_text _ _ h3 hq) as [s e]. split; [exact (sd_text _ _ e)|]. apply IHa; [pose proof (size_entry _ _ hq); lia|]. exact (Allp_in _ _ _ h4 hq).
        -- rewrite hsd. discriminate.
      * destruct hw as (d & ci & hd & (sd & hsd) & hci). pose proof (hattr _ _ hd (or_introl eq_refl)) as hst. cbn [attr_place] in hst. rewrite String.eqb_refl in hst. cbn [storable] in hst. destruct hst as [h1 h2]. pose proof (hsz _ _ hd) as hlt.
        destruct (dget_in _ _ _ hsd) as (p & hp & ht & ep). pose proof (Allp_in _ _ _ h2 hp) as h3. cbn [inside] in h3. rewrite ht, ep in h3. cbn [String.eqb Ascii.eqb Bool.eqb storable] in h3. destruct h3 as [h3 h4].
        assert (hlt2 : (vsize (VDict sd) < vsize (VDict d))%nat) by (rewrite <- ep; now apply size_entry).
        destruct (dget_in _ _ _ hci) as (p2 & hp2 & ht2 & ep2). pose proof (Allp_in _ _ _ h2 hp2) as h5. cbn [inside] in h5. rewrite ht2, ep2, String.eqb_refl in h5.
        assert (hlt3 : (vsize ci < vsize (VDict d))%nat) by (rewrite <- ep2; now apply size_entry).
        assert (hc : csd (with_values w (getstate_component w)) ci) by (refine (IH _ _ ci eq_refl Instructions h5); lia). destruct hc as (x & y & hx & hy & hxy).
        cbn [fields]. rewrite (pick1 w _ _ _ hd). cbn [restore].
        eapply sd_try; [reflexivity|reflexivity|exact (default_compiled c attrs d sd ci x hk hd hsd hci hx)|apply (default_compiled c _ (map ren d) (map ren sd) (restore w ci) y hk); [reflexivity|rewrite dget_restore, hsd; reflexivity|rewrite dget_restore, hci; reflexivity|exact hy]|].
        apply sd_state2. apply (sd_dict (fun s => (s = "compiled_instructions" /\ s <> "schedulables") /\ s <> "compiled_instructions")); [intros s [[e1 _] e2]; contradiction|]. apply esd_put; [apply esd_put| |exact hxy|].
        -- apply esd_any; [exact h1|]. intros q s hq hts. destruct (String.eqb_spec s "compiled_instructions"); [now left|right]. apply IHa; [pose proof (size_entry _ _ hq); lia|]. pose proof (Allp_in _ _ _ h2 hq) as h. cbn [inside] in h. rewrite hts in h. destruct (String.eqb_spec s "compiled_instructions"); [contradiction|exact h].
        -- now apply string_keys_distinct.
        -- apply sd_pairs. intros q hq. destruct (string_keys_text _ _ h3 hq) as [s e]. split; [exact (sd_text _ _ e)|]. apply IHa; [pose proof (size_entry _ _ hq); lia|]. exact (Allp_in _ _ _ h4 hq).
        -- rewrite hsd. discriminate.
        -- apply string_keys_distinct. eapply string_keys_dput; [exact hsd|exact h1].
        -- rewrite dget_dput_ne by discriminate. rewrite hci. discriminate.
      * destruct hw as (d & hd). cbn [fields]. rewrite (pick1 w _ _ _ hd). eapply sd_try; [reflexivity|reflexivity|apply (default_data c attrs d); auto|apply (default_data c _ (restore w d)); auto|].
        apply sd_state2. apply IHa; [exact (hsz _ _ hd)|]. exact (hattr _ _ hd (or_introl eq_refl)).
      * destruct hw as (d & hd). cbn [fields]. rewrite (pick1 w _ _ _ hd). eapply sd_try; [reflexivity|reflexivity|apply (default_data c attrs d); auto|apply (default_data c _ (restore w d)); auto|].
        apply sd_state2. apply IHa; [exact (hsz _ _ hd)|]. exact (hattr _ _ hd (or_introl eq_refl)).
      * clear hh hattr hsz hs0. assert (hal : Allp (fun p => SD (snd p) (restore w (snd p))) attrs).
        { apply Allp_Forall, Forall_forall. intros p hp. apply IHa; [exact (size_attr c _ _ hp)|]. apply (Allp_in _ _ _ ha hp). rewrite <- hw. exact (in_map fst _ _ hp). }
        clear IH IHa ha.
        destruct attrs as [|[k1 v1] a]; [discriminate|]. destruct a as [|[k2 v2] a]; [discriminate|]. destruct a as [|[k3 v3] a]; [discriminate|]. destruct a as [|[k4 v4] a]; [discriminate|]. destruct a; [|discriminate].
        cbn in hw. injection hw as -> -> -> ->. destruct hal as (g1 & g2 & g3 & g4 & _). cbn [snd] in g1, g2, g3, g4.
        eapply sd_try; [reflexivity|reflexivity|cbn [default_try]; rewrite hk; cbn [bind]; unfold getstate; rewrite hk; reflexivity|cbn [default_try]; rewrite hk; cbn [bind]; unfold getstate; rewrite hk; reflexivity|].
        apply sd_state2. apply (sd_dict (fun _ => False)); [auto|]. repeat constructor; (eexists; cbn; split; [reflexivity|split; [reflexivity|right; assumption]]).
      * destruct hw as (v & u & t & -> & ht). assert (hv : aget "value" ([("value", v); ("unit", u)] ++ t) = Some v) by reflexivity. assert (hu : aget "unit" ([("value", v); ("unit", u)] ++ t) = Some u) by reflexivity.
        assert (g1 : SD v (restore w v)) by (apply IHa; [exact (hsz _ _ hv)|exact (hattr _ _ hv (or_introl eq_refl))]).
        assert (g2 : SD u (restore w u)) by (apply IHa; [exact (hsz _ _ hu)|exact (hattr _ _ hu (or_intror (or_introl eq_refl)))]).
        assert (ep : pick (fields KRefMag) (map rea ([("value", v); ("unit", u)] ++ t)) = [("value", restore w v); ("unit", restore w u)]) by (destruct ht as [-> | ->]; reflexivity).
        rewrite ep.
        apply (sd_try _ _ (VDict [(VStr "value", v); (VStr "unit", u); (VStr "deserialization_type", VStr (export_path c))]) (VDict [(VStr "value", restore w v); (VStr "unit", restore w u); (VStr "deserialization_type", VStr (export_path c))])); try reflexivity.
        -- cbn [default_try]. rewrite hk. cbn [bind]. unfold getstate. rewrite hk. destruct ht as [-> | ->]; reflexivity.
        -- cbn [default_try]. rewrite hk. cbn [bind]. unfold getstate. rewrite hk. reflexivity.
        -- apply (sd_dict (fun _ => False)); [auto|]. repeat constructor; (eexists; cbn; split; [reflexivity|split; [reflexivity|right; try assumption; apply sd_refl]]).
      * contradiction.
    + destruct hs as (hi & hk & (d & hd) & ha). pose proof (Allp_in _ _ _ ha (aget_in _ _ _ hd) eq_refl) as hst. cbn [fst snd storable] in hst. destruct hst as [h1 h2]. pose proof (size_attr c _ _ (aget_in _ _ _ hd)) as hlt.
      destruct (sd_values d h1) as (d1 & d2 & e1 & e2 & e3).
      { intros p hp. refine (IH _ _ (snd p) eq_refl Component (Allp_in _ _ _ h2 hp)). pose proof (size_entry _ _ hp). cbn [snd] in hlt. lia. }
      exists (VObj c (aput "data" (VDict d1) attrs)), (VObj c [("data", VDict d2)]). unfold with_values. cbn [restore mapping]. rewrite hk. cbn [fields]. rewrite (pick1 w _ _ _ hd), hd, e1. cbn [bind restore]. rewrite aget_data1, e2. cbn [bind aput]. rewrite String.eqb_refl. split; [reflexivity|]. split; [reflexivity|].
      eapply sd_try; [reflexivity|reflexivity|apply (default_data c _ (VDict d1)); [now right|]|apply (default_data c _ (VDict d2)); [now right|reflexivity]|now apply sd_state2].
      clear - hd. induction attrs as [|[k v] a IH]; [discriminate|]. cbn [aget aput] in *. destruct (_ =? _)%string eqn:E; cbn [aget]; rewrite E; auto.
    + destruct hs as (-> & hk & hf & ha). assert (hal : Allp (fun p => SD (snd p) (restore w (snd p))) attrs) by (apply Allp_Forall, Forall_forall; intros p hp; apply IHa; [exact (size_attr _ _ _ hp)|exact (Allp_in _ _ _ ha hp)]). cbn [restore]. rewrite hk.
      assert (ep : pick (fields KPlain) (map rea attrs) = map rea attrs).
      { clear - hf. destruct attrs as [|[k1 v1] a]; [discriminate|]. destruct a as [|[k2 v2] a]; [discriminate|]. destruct a as [|[k3 v3] a]; [discriminate|]. destruct a as [|[k4 v4] a]; [discriminate|]. destruct a; [|discriminate]. cbn in hf. injection hf as -> -> -> ->. reflexivity. }
      rewrite ep. destruct attrs as [|q attrs]; [discriminate|].
      eapply sd_try; [reflexivity|reflexivity|cbn [default_try]; rewrite hk; cbn [bind]; unfold getstate; rewrite hk; reflexivity|cbn [default_try]; rewrite hk; cbn [bind]; unfold getstate; rewrite hk; reflexivity|].
      exact (sd_attrs (q :: attrs) hal).
Qed.
End W.
