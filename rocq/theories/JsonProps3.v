(** C45: objects of each class. *)
From Coq Require Import DecimalString Ascii.
From Verif Require Import Base PathModel JsonModel JsonSpec JsonProps JsonProps2.
Open Scope string_scope.
Open Scope list_scope.

Section W.
Variable w : world.
Notation RT := (stored w).
Notation ren := (fun p : val * val => (restore w (fst p), restore w (snd p))).
Notation rea := (fun p : string * val => (fst p, restore w (snd p))).

Lemma pick1 k a v : aget k a = Some v -> pick [k] (map rea a) = [(k, restore w v)].
Proof. intros h. unfold pick. cbn [flat_map]. rewrite aget_map, h. reflexivity. Qed.

(** ** KData, KInstructions *)
Lemma rt_data c a d d' : importable w c -> (w_kind w c = KData \/ w_kind w c = KInstructions) -> aget "data" a = Some d -> RT d d' -> RT (VObj c a) (VObj c [("data", d')]).
Proof. intros hi hk ha hd. apply (rt_try w _ (state2 (VStr (export_path c)) d)); [reflexivity| |].
  - cbn [default_try]. destruct hk as [hk|hk]; rewrite hk; cbn [bind]; unfold getstate, attr; rewrite hk, ha; reflexivity.
  - apply (rt_state2 w c d d'); [exact hi|exact hd|]. unfold setstate. destruct hk as [hk|hk]; rewrite hk; reflexivity. Qed.

(** ** KTiming *)
Lemma rt_timing c a : importable w c -> w_kind w c = KTiming -> map fst a = fields KTiming ->
  (forall p, In p a -> In (fst p) (fields KTiming) -> RT (snd p) (restore w (snd p))) -> RT (VObj c a) (restore w (VObj c a)).
Proof. intros hi hk hf hr. assert (H : exists x1 x2 x3 x4, a = [("ref_schedulable", x1); ("ref_pt", x2); ("ref_pt_new", x3); ("rel_time", x4)]).
  { clear hr. destruct a as [|[k1 v1] a]; [discriminate|]. destruct a as [|[k2 v2] a]; [discriminate|]. destruct a as [|[k3 v3] a]; [discriminate|]. destruct a as [|[k4 v4] a]; [discriminate|]. destruct a; [|discriminate].
    cbn in hf. injection hf as -> -> -> ->. eauto. }
  destruct H as (x1 & x2 & x3 & x4 & ea).
  assert (h1 : aget "ref_schedulable" a = Some x1) by (subst a; reflexivity). assert (h2 : aget "ref_pt" a = Some x2) by (subst a; reflexivity).
  assert (h3 : aget "ref_pt_new" a = Some x3) by (subst a; reflexivity). assert (h4 : aget "rel_time" a = Some x4) by (subst a; reflexivity). clear ea.
  assert (ag : forall f x, aget f a = Some x -> In f (fields KTiming) -> RT x (restore w x)).
  { intros f x hfx hin. assert (H : In (f, x) a). { clear - hfx. induction a as [|[k v] a IH]; [discriminate|]. cbn in hfx. destruct (String.eqb_spec k f) as [->|]; [inversion hfx; now left|right; auto]. } exact (hr _ H hin). }
  cbn [restore]. rewrite hk.
  assert (ep : pick (fields KTiming) (map rea a) = [("ref_schedulable", restore w x1); ("ref_pt", restore w x2); ("ref_pt_new", restore w x3); ("rel_time", restore w x4)]).
  { unfold pick. cbn [fields flat_map]. rewrite !aget_map, h1, h2, h3, h4. reflexivity. }
  rewrite ep.
  apply (rt_try w _ (state2 (VStr (export_path c)) (VDict [(VStr "ref_schedulable", x1); (VStr "ref_pt", x2); (VStr "ref_pt_new", x3); (VStr "rel_time", x4)]))); [reflexivity| |].
  - cbn [default_try]. rewrite hk. cbn [bind]. unfold getstate, attr. rewrite hk, h1, h2, h3, h4. reflexivity.
  - eapply (rt_state2 w c); [exact hi| |].
    + apply (rt_plain_dict w _ [(VStr "ref_schedulable", restore w x1); (VStr "ref_pt", restore w x2); (VStr "ref_pt_new", restore w x3); (VStr "rel_time", restore w x4)]).
      * exists ["ref_schedulable"; "ref_pt"; "ref_pt_new"; "rel_time"]. split; [reflexivity|]. split; [repeat constructor; cbn; intuition discriminate|cbn; intuition discriminate].
      * repeat constructor; apply entry_str; eapply ag; eauto; cbn; auto.
    + unfold setstate. rewrite hk. reflexivity. Qed.

(** ** KRefMag *)
Lemma rt_refmag c v u t : importable w c -> w_kind w c = KRefMag -> (t = [] \/ t = [("deserialization_type", VStr (export_path c))]) ->
  RT v (restore w v) -> RT u (restore w u) -> RT (VObj c ([("value", v); ("unit", u)] ++ t)) (restore w (VObj c ([("value", v); ("unit", u)] ++ t))).
Proof. intros hi hk ht hv hu. cbn [restore]. rewrite hk.
  assert (ep : pick (fields KRefMag) (map rea ([("value", v); ("unit", u)] ++ t)) = [("value", restore w v); ("unit", restore w u)]) by (destruct ht as [-> | ->]; reflexivity).
  rewrite ep. set (d := [(VStr "value", v); (VStr "unit", u); (VStr "deserialization_type", VStr (export_path c))]).
  apply (rt_try w _ (VDict d)); [reflexivity| |].
  - cbn [default_try]. rewrite hk. cbn [bind]. unfold getstate. rewrite hk. destruct ht as [-> | ->]; reflexivity.
  - apply (rt_dict w d [(VStr "value", restore w v); (VStr "unit", restore w u); (VStr "deserialization_type", VStr (export_path c))]).
    + repeat constructor; apply entry_str; auto. apply rt_str.
    + cbn. repeat split.
    + unfold decode_dict. match goal with |- match ?x with _ => _ end = _ => change x with (Some (VStr (export_path c))) end. cbn iota beta.
      rewrite get_type_path by exact hi. cbn [bind]. match goal with |- (if is_str _ ?x then _ else _) = _ => change x with (@None val) end. cbn [is_str].
      destruct hi as (_ & _ & _ & hb). rewrite hb. unfold setstate. rewrite hk. reflexivity. Qed.

(** ** KOperation *)
Lemma nadd_restore a b e : nadd a b = Ok e -> nadd (restore w a) (restore w b) = Ok (restore w e).
Proof. destruct a, b; cbn; try discriminate; repeat match goal with f : flt |- _ => destruct f; try discriminate end; intros h; inversion h; reflexivity. Qed.
Lemma num_restore a : num (restore w a) = num a.
Proof. destruct a; try reflexivity. destruct f; reflexivity. Qed.
Lemma nlt_restore a b : nlt (restore w a) (restore w b) = nlt a b.
Proof. unfold nlt. now rewrite !num_restore. Qed.
Lemma item_restore k d v : item k d = Ok v -> item k (map ren d) = Ok (restore w v).
Proof. unfold item. rewrite dget_restore. destruct (dget _ d); cbn; intros h; inversion h; reflexivity. Qed.
Lemma as_dict_restore v d : as_dict v = Ok d -> as_dict (restore w v) = Ok (map ren d).
Proof. destruct v; cbn; try discriminate. intros h. inversion h. reflexivity. Qed.
Lemma info_end_restore i e : info_end i = Ok e -> info_end (restore w i) = Ok (restore w e).
Proof. unfold info_end. intros h. destruct (as_dict i) as [d|] eqn:Ed; [|discriminate]. cbn [bind] in h. destruct (item "t0" d) as [t|] eqn:Et; [|discriminate]. cbn [bind] in h. destruct (item "duration" d) as [l|] eqn:El; [|discriminate]. cbn [bind] in h.
  rewrite (as_dict_restore _ _ Ed). cbn [bind]. rewrite (item_restore _ _ _ Et). cbn [bind]. rewrite (item_restore _ _ _ El). cbn [bind]. now apply nadd_restore. Qed.
Lemma mapM_restore l es : mapM info_end l = Ok es -> mapM info_end (map (restore w) l) = Ok (map (restore w) es).
Proof. revert es. induction l as [|x l IH]; intros es h; [inversion h; reflexivity|]. cbn [mapM map] in *. destruct (info_end x) eqn:E; [|discriminate]. cbn [bind] in h. destruct (mapM info_end l); [|discriminate]. cbn [bind] in h. inversion h. subst.
  rewrite (info_end_restore _ _ E). cbn [bind]. rewrite (IH _ eq_refl). reflexivity. Qed.
Lemma fold_restore l m r : foldM (fun m x => do b <- nlt m x; Ok (if b : bool then x else m)) l m = Ok r ->
  foldM (fun m x => do b <- nlt m x; Ok (if b : bool then x else m)) (map (restore w) l) (restore w m) = Ok (restore w r).
Proof. revert m. induction l as [|x l IH]; intros m h; [inversion h; reflexivity|]. cbn [foldM map] in *. rewrite nlt_restore. destruct (nlt m x) as [[]|]; cbn [bind] in *; [now apply IH|now apply IH|discriminate]. Qed.
Lemma op_update_restore d u : op_update d = Ok u -> op_update (map ren d) = Ok (restore w u).
Proof. unfold op_update. intros h. destruct (item "pulse_info" d) as [p|] eqn:Ep; [|discriminate]. cbn [bind] in h. destruct (item "acquisition_info" d) as [q|] eqn:Eq; [|discriminate]. cbn [bind] in h.
  rewrite (item_restore _ _ _ Ep). cbn [bind]. rewrite (item_restore _ _ _ Eq). cbn [bind]. destruct p; try discriminate. destruct q; try discriminate. cbn [restore].
  destruct (mapM info_end (l ++ l0)) as [es|] eqn:Em; [|discriminate]. cbn [bind] in h. rewrite <- map_app. rewrite (mapM_restore _ _ Em). cbn [bind].
  destruct es as [|e es]; cbn [map]; [inversion h; reflexivity|now apply fold_restore]. Qed.
Lemma op_legacy_ok d : no_legacy d -> op_legacy d = Ok d.
Proof. unfold no_legacy, op_legacy, dget_none. destruct (dget (VStr "gate_info") d) as [[]|]; try contradiction; try reflexivity. destruct (dget (VStr "qubits") kvs) as [[]|]; try contradiction; reflexivity. Qed.
Lemma no_legacy_restore d : no_legacy d -> no_legacy (map ren d).
Proof. unfold no_legacy. rewrite dget_restore. destruct (dget (VStr "gate_info") d) as [[]|]; cbn; try contradiction; auto. rewrite dget_restore. destruct (dget (VStr "qubits") kvs) as [[]|]; cbn; try contradiction; auto. Qed.
Lemma rt_operation c a : importable w c -> w_kind w c = KOperation -> well_formed w c a -> (forall d, aget "data" a = Some d -> RT d (restore w d)) ->
  RT (VObj c a) (restore w (VObj c a)).
Proof. intros hi hk hw hr. unfold well_formed in hw. rewrite hk in hw. destruct hw as (d & ha & [h hh] & hl & u & hu & hd). cbn [restore]. rewrite hk.
  assert (ep : pick (fields KOperation) (map rea a) = [("data", VDict (map ren d)); ("_duration", restore w u)]).
  { unfold pick. cbn [fields flat_map]. rewrite !aget_map, ha, hd. reflexivity. } rewrite ep.
  apply (rt_try w _ (state2 (VStr (export_path c)) (VDict d))); [reflexivity| |].
  - cbn [default_try]. rewrite hk, hh. cbn [bind]. unfold getstate, attr. rewrite hk, ha. reflexivity.
  - apply (rt_state2 w c _ (VDict (map ren d))); [exact hi|exact (hr _ ha)|]. unfold setstate. rewrite hk.
    change (item "data" _) with (Ok (VDict (map ren d))). cbn [bind as_dict]. rewrite op_legacy_ok by now apply no_legacy_restore. cbn [bind]. rewrite (op_update_restore _ _ hu). reflexivity. Qed.

(** ** Schedules *)
Definition pairs (d : list (val * val)) : val := VList (map (fun p => VTuple [fst p; snd p]) d).
Definition pairs' (d : list (val * val)) : val := VList (map (fun p => VList [restore w (fst p); restore w (snd p)]) d).
Lemma rt_pairs d : Forall (fun p => (exists s, text (fst p) = Some s) /\ RT (snd p) (restore w (snd p))) d -> RT (pairs d) (pairs' d).
Proof. intros h. apply rt_list. unfold pairs, pairs'. induction h as [|p d [[s e] hr] _ IH]; [constructor|]. cbn [map]. constructor; [|exact IH]. apply rt_tuple. constructor; [|constructor; [exact hr|constructor]].
  rewrite (text_restore w _ _ e). destruct (fst p); cbn in e; inversion e; [apply rt_str|apply rt_strenum]. Qed.
Lemma unpack_pairs d : mapM unpack2 (map (fun p => VList [restore w (fst p); restore w (snd p)]) d) = Ok (map ren d).
Proof. induction d as [|p d IH]; [reflexivity|]. cbn [map mapM unpack2 bind]. rewrite IH. reflexivity. Qed.
Lemma dict_from_restore d : string_keys d -> dict_from (map ren d) = Ok (map ren d).
Proof. intros h. unfold dict_from. assert (e : all_b (fun p => hashable_key (fst p)) (map ren d) = true).
  { apply forallb_forall. intros q hq. apply in_map_iff in hq as (p & <- & hp). destruct (string_keys_text _ _ h hp) as [s e]. cbn. now rewrite (text_restore w _ _ e). }
  rewrite e, dict_of_distinct; [reflexivity|]. now apply string_keys_distinct, string_keys_restore. Qed.

(** Entries of a dictionary at place [m], except where the place has its own rules. *)
Lemma entries_any d E : string_keys d -> (forall p s, In p d -> text (fst p) = Some s -> E s \/ RT (snd p) (restore w (snd p))) -> Forall2 (entry_ex w E) d (map ren d).
Proof. intros h hr. apply forall2_map_r. apply Forall_forall. intros p hp. destruct (string_keys_text _ _ h hp) as [s e]. exists s. cbn. split; [exact e|]. split; [now apply text_restore|]. exact (hr p s hp e). Qed.

Lemma dget_in k d v : dget (VStr k) d = Some v -> exists p, In p d /\ text (fst p) = Some k /\ snd p = v.
Proof. induction d as [|[k' v'] d IH]; [discriminate|]. cbn [dget]. destruct (key_eqb k' (VStr k)) eqn:E; intros h.
  - inversion h. subst. exists (k', v). split; [now left|]. split; [|reflexivity]. destruct k'; cbn in E |- *; try discriminate; try (destruct f; discriminate); apply String.eqb_eq in E; now subst.
  - destruct (IH h) as (p & hp & e). exists p. split; [now right|exact e]. Qed.

Lemma string_keys_dput k v d x : dget (VStr k) d = Some x -> string_keys d -> string_keys (dput (VStr k) v d).
Proof. intros h. apply string_keys_fst. symmetry. exact (dput_keys _ _ _ _ h). Qed.

Lemma setstate_schedule_ok c d sd st : string_keys sd -> dget (VStr "schedulables") d = Some (VDict sd) -> dget (VStr "data") st = Some (VDict (dput (VStr "schedulables") (pairs' sd) (map ren d))) ->
  setstate_schedule c st = Ok (VObj c [("data", VDict (map ren d))]).
Proof. intros hs hg hd. unfold setstate_schedule. rewrite hd. cbn [as_dict bind]. unfold item. rewrite dget_dput. cbn [bind]. unfold pairs'. rewrite unpack_pairs. cbn [bind]. rewrite dict_from_restore by exact hs. cbn [bind].
  rewrite dput_dput. do 4 f_equal. rewrite dput_same; [reflexivity|]. rewrite dget_restore, hg. reflexivity. Qed.

Lemma rt_schedule c a d sd : importable w c -> w_kind w c = KSchedule -> aget "data" a = Some (VDict d) -> dget (VStr "schedulables") d = Some (VDict sd) ->
  string_keys d -> (forall p, In p d -> RT (snd p) (restore w (snd p))) -> string_keys sd -> (forall p, In p sd -> RT (snd p) (restore w (snd p))) ->
  RT (VObj c a) (restore w (VObj c a)).
Proof. intros hi hk ha hg hs hr hss hsr. cbn [restore]. rewrite hk. cbn [fields]. rewrite (pick1 _ _ _ ha). cbn [restore].
  apply (rt_try w _ (state2 (VStr (export_path c)) (VDict (dput (VStr "schedulables") (pairs sd) d)))); [reflexivity| |].
  - cbn [default_try]. rewrite hk. cbn [bind]. unfold getstate. rewrite hk. unfold getstate_schedule, attr. rewrite ha. cbn [bind as_dict]. unfold item. rewrite hg. reflexivity.
  - eapply (rt_state2 w c); [exact hi| |].
    + apply (rt_plain_dict w _ (dput (VStr "schedulables") (pairs' sd) (map ren d))).
      * eapply string_keys_dput; [rewrite dget_restore, hg; reflexivity|now apply string_keys_restore].
      * apply (entry_ex_none w _ _ (fun s => False /\ s <> "schedulables")); [intros s []; contradiction|]. apply entries_put.
        -- apply entries_any; auto.
        -- now apply string_keys_distinct.
        -- apply rt_pairs. apply Forall_forall. intros p hp. split; [exact (string_keys_text _ _ hss hp)|auto].
        -- rewrite hg. discriminate.
    + unfold setstate. rewrite hk. apply (setstate_schedule_ok c d sd); [exact hss|exact hg|reflexivity]. Qed.
End W.
