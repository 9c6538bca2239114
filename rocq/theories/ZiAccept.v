(** C47: when the corrected table exists. *)
From Verif Require Import Base NumericModel NumericProps ZiModel ZiSpec ZiProps ZiProps2 ZiProps3 ZiClock ZiTable ZiTable2 ZiCorr ZiShift ZiThms1.
From Coq Require Import Permutation Qfield.
Open Scope Z_scope.

Lemma mapM_succeeds {A B} (f : A -> result B) l : (forall x, In x l -> exists y, f x = Ok y) -> exists ys, mapM f l = Ok ys.
Proof. induction l as [|x l IH]; intros h; [exists []; reflexivity|]. destruct (h x (or_introl eq_refl)) as (y & hy). destruct IH as (ys & hys); [intros z hz; apply h; now right|]. exists (y :: ys). cbn [mapM]. rewrite hy. cbn [bind]. rewrite hys. reflexivity. Qed.
Lemma correction_succeeds acqs : forall p q corr, (forall lb, ~ In (lb, None) acqs) -> exists out, correction_loop 600000000 acqs p q corr = Ok out.
Proof. induction acqs as [|[lb s] acqs IH]; intros p q corr h; [eexists; reflexivity|]. cbn [correction_loop]. destruct s as [s|]; [|exfalso; eapply h; left; reflexivity]. destruct (fixpoint_ok (py_round (s + inject_Z q))) as (c & -> & _). cbn [bind]. apply IH. intros lb' hi. eapply h. right. exact hi. Qed.
Definition grid (name : string) (t : Q) : Prop := exists fs m, name_rate name = Ok fs /\ (t * inject_Z fs == inject_Z m)%Q.
Lemma grid_ok ch t : grid (fst ch) t -> exists cs, clock_sample ch t = Ok cs.
Proof. destruct ch as [nm k]. intros (fs & m & h1 & h2). destruct (clock_sample_complete nm k t fs m h1) as (x & h & _); [|eauto]. rewrite h2. apply qabs_le. split; lra. Qed.
Lemma grid_shift nm t c : grid nm t -> c mod 3 = 0 -> grid nm (t + inject_Z c / 1800000000).
Proof. intros (fs & m & h1 & h2) h3. apply Z.mod_divide in h3; [|lia]. destruct h3 as (i & ->). exists fs. destruct (name_rate_pos _ _ h1) as [-> | ->].
  - exists (m + 3 * i). split; [exact h1|]. rewrite inj_add, <- h2, !inj_mul. change (inject_Z 1800000000) with 1800000000%Q. change (inject_Z 3) with 3%Q. field.
  - exists (m + 4 * i). split; [exact h1|]. rewrite inj_add, <- h2, !inj_mul. change (inject_Z 2400000000) with 2400000000%Q. change (inject_Z 3) with 3%Q. change (inject_Z 4) with 4%Q. field. Qed.
Lemma grid_comp nm t u : (t == u)%Q -> grid nm t -> grid nm u.
Proof. intros e (fs & m & h1 & h2). exists fs, m. split; [exact h1|]. now rewrite <- e. Qed.

Lemma placeable_channel devs lat n oc : placeable devs lat oc -> Forall (fun '(key, _) => exists p c, split_dash key = [p; c]) lat -> exists ch, channel_of (port_clock_map devs) (row_of lat n oc) = Ok ch /\ match ch with Some c => grid (fst c) (r_time (row_of lat n oc)) | None => i_is_acq (oc_info oc) = false end.
Proof. unfold placeable, channel_of. change (r_port (row_of lat n oc)) with (i_port (oc_info oc)). change (r_clock (row_of lat n oc)) with (i_clock (oc_info oc)). intros h k. destruct (i_port (oc_info oc)) as [p|]; [|eauto]. destruct (i_clock (oc_info oc)) as [c|]; [|eauto]. destruct h as (ch & fs & m & h1 & h2 & h3). rewrite (connected_get _ _ _ _ h1). exists (Some ch). split; [reflexivity|]. exists fs, m. split; [exact h2|]. rewrite (row_time lat n oc k). exact h3. Qed.

Theorem C47_accepts srt s devs lat : sorts srt ->
  (forall h a, In (h, a) (s_schedulables s) -> a <> None /\ zget (s_operations s) h <> None) -> occurrences s <> [] ->
  Forall (fun '(key, _) => exists p c, split_dash key = [p; c]) lat ->
  Forall (placeable devs lat) (occurrences s) -> exists l, corrected_table srt s devs lat = Ok l.
Proof. intros hs hk hne keys hpl. unfold corrected_table.
  assert (H0 : exists rows, schedule_rows s = Ok rows). { unfold schedule_rows. destruct (mapM_succeeds (fun '(h, a) => match a with None => Err ValueError | Some t => match zget (s_operations s) h with None => Err KeyError | Some o => Ok (operation_rows o t) end end) (s_schedulables s)) as (ys & ->); [|eexists; reflexivity]. intros [h a] hi. destruct (hk h a hi) as [n1 n2]. destruct a as [t|]; [|contradiction]. destruct (zget (s_operations s) h); [eauto|contradiction]. }
  destruct H0 as (rows & H0). pose proof (schedule_rows_occ _ _ H0) as er. assert (H1 : exists t0, timing_table srt s = Ok t0). { unfold timing_table. rewrite H0. cbn [bind]. destruct rows as [|r0 rs]; [|eexists; reflexivity]. exfalso. apply hne. destruct (occurrences s); [reflexivity|discriminate]. }
  destruct H1 as (t0 & H1). rewrite H1. cbn [bind]. destruct (timing_table_occ _ _ _ hs H1) as (los0 & p0 & ->).
  assert (PL : forall x, In x los0 -> placeable devs lat (snd x)). { intros [k oc] hx. apply Permutation_sym in p0. apply (Permutation_in _ p0), combine_seq_in in hx. rewrite Forall_forall in hpl. apply hpl. eapply nth_error_In. apply hx. }
  assert (H2 : exists chs, mapM (channel_of (port_clock_map devs)) (map (fun '(n, oc) => row_of [] n oc) los0) = Ok chs). { apply mapM_succeeds. intros r hr. apply in_map_iff in hr. destruct hr as ([n oc] & <- & hx). destruct (placeable_channel devs lat n oc (PL _ hx) keys) as (ch & hc & _). exists ch. exact hc. }
  destruct H2 as (chs & ->). cbn [bind].
  assert (H3 : forall lat' rows', Forall (fun '(key, _) => exists p c, split_dash key = [p; c]) lat' -> exists t1, apply_latency lat' rows' = Ok t1). { unfold apply_latency. induction lat' as [|[key dt] lat' IH]; intros rows' hk'; [eexists; reflexivity|]. inversion hk' as [|? ? k1 k2]; subst. destruct k1 as (p & c & e). cbn [foldM]. rewrite e. cbn [bind]. apply IH, k2. }
  destruct (H3 lat (map (fun '(n, oc) => row_of [] n oc) los0) keys) as (t1 & H4). rewrite H4. cbn [bind]. cbn zeta. apply (apply_latency_occ lat []) in H4. cbn [app] in H4. subst t1.
  destruct (hs (map (fun '(n, oc) => row_of lat n oc) los0)) as [p1 _]. set (t2 := srt _) in *. clearbody t2. apply Permutation_sym, Permutation_map_inv in p1. destruct p1 as (los & -> & p2).
  assert (PL2 : forall x, In x los -> placeable devs lat (snd x)) by (intros x hx; apply PL; apply Permutation_sym in p2; apply (Permutation_in _ p2 hx)).
  assert (H5 : exists t2c, mapM (fun r => do ch <- channel_of (port_clock_map devs) r; Ok (r, ch)) (map (fun '(n, oc) => row_of lat n oc) los) = Ok t2c). { apply mapM_succeeds. intros r hr. apply in_map_iff in hr. destruct hr as ([n oc] & <- & hx). destruct (placeable_channel devs lat n oc (PL2 _ hx) keys) as (ch & -> & _). cbn [bind]. eauto. }
  destruct H5 as (t2c & H5). rewrite H5. cbn [bind]. apply mapM_channels in H5. apply forall2_map_l in H5.
  (* rows on the grid have a start *)
  assert (ST : forall l : list (row * option chan), (forall r c, In (r, Some c) l -> grid (fst c) (r_time r)) -> exists es, add_starts l = Ok es). { intros l hl. unfold add_starts. apply mapM_succeeds. intros [r [c|]] hi; [|eauto]. destruct (grid_ok c (r_time r) (hl r c hi)) as (cs & ->). cbn [bind]. eauto. }
  assert (G2 : forall r c, In (r, c) t2c -> exists x, In x los /\ r = row_of lat (fst x) (snd x) /\ match c with Some c => grid (fst c) (r_time r) | None => r_is_acq r = false end).
  { intros r c hi. apply In_nth_error in hi. destruct hi as (i & hi). destruct (forall2_nth_r _ _ _ H5 i _ hi) as ([n oc] & hx & (q1 & q2)). cbn [fst snd] in *. exists (n, oc). split; [eapply nth_error_In; eauto|]. split; [exact q1|]. destruct (placeable_channel devs lat n oc (PL2 _ (nth_error_In _ _ hx)) keys) as (ch & hc & g). rewrite hc in q2. injection q2 as ->. rewrite q1. exact g. }
  destruct (ST t2c) as (e0 & H6). { intros r c hi. destruct (G2 r _ hi) as (x & _ & _ & g). exact g. } rewrite H6. cbn [bind]. apply add_starts_ok in H6.
  unfold apply_fixpoint. assert (G0 : forall e, In e e0 -> match e_channel e with Some c => grid (fst c) (r_time (e_row e)) /\ e_start e <> None | None => r_is_acq (e_row e) = false end).
  { intros e he. apply In_nth_error in he. destruct he as (i & hi). destruct (forall2_nth_r _ _ _ H6 i _ hi) as ([r c] & hx & (q1 & q2 & q3)). cbn [fst snd] in *. destruct (G2 r c (nth_error_In _ _ hx)) as (_ & _ & _ & g). rewrite q1, q2. destruct c as [c|]; [|exact g]. split; [exact g|]. destruct q3 as (k & x & -> & _). discriminate. }
  destruct (correction_succeeds (map (fun e => (r_label (e_row e), option_map snd (e_start e))) (filter (fun e => r_is_acq (e_row e)) e0)) 0 0 (map (fun _ => 0) e0)) as (corr & H7).
  { intros lb hi. apply in_map_iff in hi. destruct hi as (e & q & hi). apply filter_In in hi. destruct hi as [hi ha]. specialize (G0 e hi). destruct (e_channel e); [destruct (e_start e); [discriminate|destruct G0; contradiction]|congruence]. }
  rewrite H7. cbn [bind]. pose proof (correction_climbing _ _ _ _ _ H7 (climbing_zeros e0)) as CL.
  destruct (ST (map (fun '(e, c) => (retime (e_row e) (r_time (e_row e) + inject_Z c / 1800000000), e_channel e)) (combine e0 corr))) as (e1 & ->); [|cbn [bind]; eauto].
  intros r c hi. apply in_map_iff in hi. destruct hi as ([e v] & q & hi). injection q as <- q. unfold retime. cbn [r_time]. pose proof (in_combine_l _ _ _ _ hi) as hl. pose proof (in_combine_r _ _ _ _ hi) as hr. specialize (G0 e hl). rewrite q in G0. apply grid_shift; [apply G0|]. apply In_nth_error in hr. destruct hr as (i & hr). destruct (CL i i v v (Nat.le_refl i) hr hr) as [_ m]. exact m. Qed.
