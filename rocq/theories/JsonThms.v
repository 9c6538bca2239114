(** C45: every storable value is read back as [restore] says. *)
From Coq Require Import DecimalString Ascii.
From Verif Require Import Base PathModel JsonModel JsonSpec JsonProps JsonProps2 JsonProps3 JsonProps4.
Open Scope string_scope.
Open Scope list_scope.

Fixpoint vsize (v : val) : nat :=
  match v with
  | VArr l | VList l | VTuple l => S (list_sum (map vsize l))
  | VDict d => S (list_sum (map (fun p => vsize (fst p) + vsize (snd p))%nat d))
  | VObj _ a => S (list_sum (map (fun p => vsize (snd p)) a))
  | _ => 1
  end.
Lemma list_sum_in {A} (f : A -> nat) l x : In x l -> (f x <= list_sum (map f l))%nat.
Proof. induction l as [|y l IH]; [contradiction|]. unfold list_sum in *. cbn. intros [->|h]; [lia|]. specialize (IH h). lia. Qed.
Lemma size_elem l x : In x l -> (vsize x < S (list_sum (map vsize l)))%nat.
Proof. intros h. pose proof (list_sum_in vsize l x h). lia. Qed.
Lemma size_entry d p : In p d -> (vsize (fst p) < vsize (VDict d))%nat /\ (vsize (snd p) < vsize (VDict d))%nat.
Proof. intros h. pose proof (list_sum_in (fun p => vsize (fst p) + vsize (snd p))%nat d p h) as H. cbn [vsize]. cbn beta in H. lia. Qed.
Lemma size_attr c a p : In p a -> (vsize (snd p) < vsize (VObj c a))%nat.
Proof. intros h. pose proof (list_sum_in (fun p => vsize (snd p)) a p h) as H. cbn [vsize]. cbn beta in H. lia. Qed.
Lemma aget_in k a v : aget k a = Some v -> In (k, v) a.
Proof. induction a as [|[k' v'] a IH]; [discriminate|]. cbn. destruct (String.eqb_spec k' k) as [->|]; intros h; [inversion h; now left|right; auto]. Qed.

Section W.
Variable w : world.
Hypothesis hc : complex_text w.
Notation RT := (stored w).

Definition concl (m : place) (v : val) : Prop :=
  match m with
  | AnyValue => RT v (restore w v)
  | CompiledData => True
  | Instructions => ci_ok w v
  | Component => comp_ok w v
  | Channels => exists cd, v = VDict cd /\ Forall (chan_ok w) cd /\ distinct_keys cd /\ Allp (fun p => scalar_key (fst p)) cd
  | Channel => RT v (chan_dict w v) /\ acq_channel_data (chan_dict w v) = Ok (restore w v)
  end.

Lemma rt_complex b re im : cflt re -> cflt im -> RT (VComplex b re im) (VComplex b re im).
Proof. intros h1 h2. apply (rt_try w _ (state3 (type_name (VComplex b re im)) (VStr (w_complex_str w re im)))); [reflexivity|reflexivity|]. unfold state3.
  set (ty := type_name (VComplex b re im)).
  apply (rt_dict w _ [(VStr "deserialization_type", VStr ty); (VStr "mode", VStr "__init__"); (VStr "data", VStr (w_complex_str w re im))]).
  - repeat constructor; apply entry_str, rt_str.
  - cbn. repeat split.
  - unfold decode_dict. match goal with |- match ?x with _ => _ end = _ => change x with (Some (VStr ty)) end. cbn iota beta. subst ty. destruct b; cbn; rewrite hc by assumption; reflexivity. Qed.
Lemma rt_npint b z : RT (VNpInt b z) (VNpInt b z).
Proof. apply (rt_try w _ (state3 (type_name (VNpInt b z)) (VStr (dec_Z z)))); [reflexivity|reflexivity|]. unfold state3.
  set (ty := type_name (VNpInt b z)).
  apply (rt_dict w _ [(VStr "deserialization_type", VStr ty); (VStr "mode", VStr "__init__"); (VStr "data", VStr (dec_Z z))]).
  - repeat constructor; apply entry_str, rt_str.
  - cbn. repeat split.
  - unfold decode_dict. match goal with |- match ?x with _ => _ end = _ => change x with (Some (VStr ty)) end. cbn iota beta. subst ty.
    destruct b; cbn - [Z_of_dec dec_Z]; rewrite dec_round; reflexivity. Qed.

Lemma rt_array l : Forall2 (fun x y => RT x y /\ np_elem y = x) l (map (restore w) l) -> RT (VArr l) (VArr l).
Proof. intros h. apply (rt_try w _ (state3 "ndarray" (VList l))); [reflexivity|reflexivity|]. unfold state3.
  apply (rt_dict w _ [(VStr "deserialization_type", VStr "ndarray"); (VStr "mode", VStr "__init__"); (VStr "data", VList (map (restore w) l))]).
  - repeat constructor; apply entry_str; try apply rt_str. apply rt_list. clear - h. induction h as [|x y l l' [h1 _] _ IH]; constructor; auto.
  - cbn. repeat split.
  - unfold decode_dict. match goal with |- match ?x with _ => _ end = _ => change x with (Some (VStr "ndarray")) end. cbn iota beta.
    match goal with |- ?x = _ => change x with (Ok (VArr (map np_elem (map (restore w) l)))) end. do 2 f_equal. clear - h. induction h as [|x y l l' [_ h2] _ IH]; [reflexivity|]. cbn. now rewrite h2, IH. Qed.
Lemma rt_arr_elem v : arr_ok v -> RT v (restore w v) /\ np_elem (restore w v) = v.
Proof. induction v using val_ind'; cbn; try contradiction.
  - destruct n; [|contradiction]. intros h. split; [apply rt_float|]. destruct f as [| |[|i]]; try reflexivity. contradiction.
  - intros _. split; [apply rt_npint|reflexivity].
  - destruct b; [|contradiction]. intros [h1 h2]. split; [now apply rt_complex|reflexivity].
  - intros h. split; [|reflexivity]. apply rt_array. apply forall2_map_r. rewrite Allp_Forall in h. rewrite Forall_forall in H, h |- *. intros x hx. exact (H x hx (h x hx)). Qed.

Lemma rt_type c : In c DEFAULT_TYPES -> RT (VType c) (VType c).
Proof. intros h. apply (rt_try w _ (VDict [(VStr "deserialization_type", VStr (cname c)); (VStr "mode", VStr "type")])); [reflexivity| |].
  - cbn [default_try]. repeat (destruct h as [<-|h]; [reflexivity|]). contradiction.
  - apply (rt_dict w _ [(VStr "deserialization_type", VStr (cname c)); (VStr "mode", VStr "type")]).
    + repeat constructor; apply entry_str, rt_str.
    + cbn. repeat split.
    + repeat (destruct h as [<-|h]; [reflexivity|]). contradiction. Qed.

Theorem main : forall v m, storable w m v -> concl m v.
Proof.
  intros v. remember (vsize v) as n eqn:En. revert v En. induction n as [n IH] using lt_wf_ind. intros v -> m hs.
  assert (IHa : forall u, (vsize u < vsize v)%nat -> storable w AnyValue u -> RT u (restore w u)) by (intros u hu hh; exact (IH _ hu u eq_refl AnyValue hh)).
  destruct v; cbn [storable] in hs.
  - subst m. apply rt_none.
  - subst m. apply rt_bool.
  - subst m. apply rt_int.
  - subst m. apply rt_float.
  - subst m. apply rt_str.
  - subst m. apply rt_strenum.
  - contradiction.
  - subst m. apply rt_npint.
  - destruct hs as (-> & h1 & h2). now apply rt_complex.
  - contradiction.
  - destruct hs as [-> h]. cbn [concl restore]. apply rt_array. apply forall2_map_r. rewrite Allp_Forall in h. rewrite Forall_forall in h |- *. intros x hx. exact (rt_arr_elem x (h x hx)).
  - destruct hs as [-> h]. now apply rt_type.
  - destruct hs as [-> h]. cbn [concl restore]. apply rt_list. apply forall2_map_r. rewrite Allp_Forall in h. rewrite Forall_forall in h |- *. intros x hx. apply IHa; [now apply size_elem|auto].
  - destruct hs as [-> h]. cbn [concl restore]. apply rt_tuple. apply forall2_map_r. rewrite Allp_Forall in h. rewrite Forall_forall in h |- *. intros x hx. apply IHa; [now apply size_elem|auto].
  - (* dictionaries *)
    destruct m; cbn [concl]; try contradiction.
    + destruct hs as [h1 h2]. cbn [restore]. apply rt_plain_dict; [now apply string_keys_restore|]. apply (entry_ex_none w _ _ (fun _ => False)); [auto|]. apply entries_any; [exact h1|]. intros p s hp ht. right.
      pose proof (Allp_in _ _ _ h2 hp) as h. cbn in h. apply IHa; [now apply size_entry|]. exact h.
    + exact I.
    + destruct hs as [h1 h2]. apply ci_dict_ok; [exact h1|]. intros p hp. pose proof (Allp_in _ _ _ h2 hp) as h. cbn in h. refine (IH _ _ (snd p) eq_refl Component h). now apply size_entry.
    + destruct hs as [h1 h2]. apply component_ok; [exact h1|]. intros p s hp ht. pose proof (Allp_in _ _ _ h2 hp) as h. cbn [inside] in h. rewrite ht in h. destruct (String.eqb_spec s "acq_channels_data").
      * exact (IH _ (proj2 (size_entry _ _ hp)) (snd p) eq_refl Channels h).
      * exact (IHa _ (proj2 (size_entry _ _ hp)) h).
    + destruct hs as [h1 h2]. exists kvs. split; [reflexivity|]. assert (hk : Allp (fun p => scalar_key (fst p)) kvs) by (apply Allp_Forall, Forall_forall; intros p hp; exact (proj1 (Allp_in _ _ _ h2 hp))). split; [|auto].
      apply Forall_forall. intros p hp. destruct (Allp_in _ _ _ h2 hp) as [h3 h4]. destruct (IH _ (proj2 (size_entry _ _ hp)) (snd p) eq_refl Channel h4) as [h5 h6]. split; [|split; assumption].
      apply IHa; [now apply size_entry|]. destruct (fst p); cbn in h3 |- *; try contradiction; reflexivity.
  - (* objects *)
    destruct m; cbn [concl]; try contradiction.
    + destruct hs as (hi & hw & ha). 
      assert (hattr : forall f x, aget f attrs = Some x -> In f (fields (w_kind w c)) -> storable w (attr_place (w_kind w c) f) x) by (intros f x hf hin; exact (Allp_in _ _ _ ha (aget_in _ _ _ hf) hin)).
      assert (hsz : forall f x, aget f attrs = Some x -> (vsize x < vsize (VObj c attrs))%nat) by (intros f x hf; exact (size_attr c _ _ (aget_in _ _ _ hf))).
      destruct (w_kind w c) eqn:hk; unfold well_formed in hw; rewrite hk in hw.
      * apply rt_operation; [exact hi|exact hk|unfold well_formed; now rewrite hk|]. intros d hd. apply IHa; [exact (hsz _ _ hd)|]. exact (hattr _ _ hd (or_introl eq_refl)).
      * destruct hw as (d & hd & sd & hsd). pose proof (hattr _ _ hd (or_introl eq_refl)) as hst. cbn in hst. destruct hst as [h1 h2]. pose proof (hsz _ _ hd) as hlt.
        destruct (dget_in _ _ _ hsd) as (p & hp & ht & ep). pose proof (Allp_in _ _ _ h2 hp) as h3. cbn in h3. rewrite ep in h3. cbn in h3. destruct h3 as [h3 h4].
        assert (hlt2 : (vsize (VDict sd) < vsize (VDict d))%nat) by (rewrite <- ep; now apply size_entry).
        apply (rt_schedule w c attrs d sd); auto.
        -- intros q hq. apply IHa; [pose proof (size_entry _ _ hq); lia|]. exact (Allp_in _ _ _ h2 hq).
        -- intros q hq. apply IHa; [pose proof (size_entry _ _ hq); lia|]. exact (Allp_in _ _ _ h4 hq).
      * destruct hw as (d & ci & hd & (sd & hsd) & hci). pose proof (hattr _ _ hd (or_introl eq_refl)) as hst. cbn [attr_place] in hst. rewrite String.eqb_refl in hst. cbn [storable] in hst. destruct hst as [h1 h2]. pose proof (hsz _ _ hd) as hlt.
        destruct (dget_in _ _ _ hsd) as (p & hp & ht & ep). pose proof (Allp_in _ _ _ h2 hp) as h3. cbn [inside] in h3. rewrite ht, ep in h3. cbn [String.eqb Ascii.eqb Bool.eqb storable] in h3. destruct h3 as [h3 h4].
        assert (hlt2 : (vsize (VDict sd) < vsize (VDict d))%nat) by (rewrite <- ep; now apply size_entry).
        destruct (dget_in _ _ _ hci) as (p2 & hp2 & ht2 & ep2). pose proof (Allp_in _ _ _ h2 hp2) as h5. cbn [inside] in h5. rewrite ht2, ep2, String.eqb_refl in h5.
        assert (hlt3 : (vsize ci < vsize (VDict d))%nat) by (rewrite <- ep2; now apply size_entry).
        apply (rt_compiled w c attrs d sd ci); auto.
        -- intros q s hq hts hne. apply IHa; [pose proof (size_entry _ _ hq); lia|]. pose proof (Allp_in _ _ _ h2 hq) as h. cbn [inside] in h. rewrite hts in h. destruct (String.eqb_spec s "compiled_instructions"); [contradiction|exact h].
        -- refine (IH _ _ ci eq_refl Instructions h5). lia.
        -- intros q hq. apply IHa; [pose proof (size_entry _ _ hq); lia|]. exact (Allp_in _ _ _ h4 hq).
      * destruct hw as (d & hd). cbn [restore]. rewrite hk. cbn [fields]. rewrite (pick1 w _ _ _ hd). apply (rt_data w c attrs d); auto. apply IHa; [exact (hsz _ _ hd)|]. exact (hattr _ _ hd (or_introl eq_refl)).
      * destruct hw as (d & hd). cbn [restore]. rewrite hk. cbn [fields]. rewrite (pick1 w _ _ _ hd). apply (rt_data w c attrs d); auto. apply IHa; [exact (hsz _ _ hd)|]. exact (hattr _ _ hd (or_introl eq_refl)).
      * apply rt_timing; auto. intros p hp hin. apply IHa; [now apply size_attr|]. exact (Allp_in _ _ _ ha hp hin).
      * destruct hw as (v & u & t & -> & ht). assert (hv : aget "value" ([("value", v); ("unit", u)] ++ t) = Some v) by reflexivity. assert (hu : aget "unit" ([("value", v); ("unit", u)] ++ t) = Some u) by reflexivity.
        apply rt_refmag; auto; apply IHa; [exact (hsz _ _ hv)|exact (hattr _ _ hv (or_introl eq_refl))|exact (hsz _ _ hu)|exact (hattr _ _ hu (or_intror (or_introl eq_refl)))].
      * contradiction.
    + destruct hs as (hi & hk & (d & hd) & ha). pose proof (Allp_in _ _ _ ha (aget_in _ _ _ hd) eq_refl) as hst. cbn [fst snd storable] in hst. destruct hst as [h1 h2]. pose proof (size_attr c _ _ (aget_in _ _ _ hd)) as hlt.
      apply (ci_obj_ok w c attrs d); auto. intros p hp. pose proof (Allp_in _ _ _ h2 hp) as h. cbn [inside] in h. refine (IH _ _ (snd p) eq_refl Component h). pose proof (size_entry _ _ hp). cbn [snd] in hlt. lia.
    + destruct hs as (-> & hk & hf & ha). split.
      * apply rt_channel; auto. apply Allp_Forall, Forall_forall. intros p hp. apply IHa; [now apply size_attr|]. exact (Allp_in _ _ _ ha hp).
      * now apply channel_back.
Qed.
End W.

(** Every storable value is read back, as [restore] says. *)
Theorem C45_round_trip_partial : forall w v, complex_text w -> storable w AnyValue v -> stored_as w v (restore w v).
Proof. intros w v hc h. apply stored_stored_as. exact (main w hc v AnyValue h). Qed.

(** The dictionary form: [to_dict] and [from_dict] do the same as [to_json] and [from_json]. *)
Theorem C45_dict_form_partial : forall w v, complex_text w -> storable w AnyValue v ->
  exists N d, forall n, (N <= n)%nat -> to_dict w n v = Ok d /\ from_dict w n d = Ok (restore w v).
Proof. intros w v hc h. destruct (main w hc v AnyValue h) as (N & j & h1 & h2 & h3). exists N, (plain j). intros n hn. unfold to_dict, from_dict. rewrite (h1 n hn), (h3 n hn). split; [reflexivity|exact h2]. Qed.
