From Verif Require Import Base NumericModel NumericProps ZiModel ZiSpec ZiProps ZiProps2 ZiProps3 ZiClock ZiTable.
From Coq Require Import Permutation Ascii.
Open Scope Q_scope.

(** * From the schedule to the corrected table *)

Definition start_ok (ch : option chan) (t : Q) (st : option (Z * Q)) : Prop :=
  match ch with None => st = None | Some c => exists k s, st = Some (k, s) /\ clock_sample c t = Ok (k, s) end.
Definition ent0 (devs : list device) (lat : list (string * Q)) (x : nat * occurrence) (e : entry) : Prop :=
  e_row e = row_of lat (fst x) (snd x) /\ channel_of (port_clock_map devs) (row_of lat (fst x) (snd x)) = Ok (e_channel e) /\ start_ok (e_channel e) (r_time (e_row e)) (e_start e).
Definition ent (devs : list device) (lat : list (string * Q)) (x : (nat * occurrence) * Z) (e : entry) : Prop :=
  e_row e = (let r := row_of lat (fst (fst x)) (snd (fst x)) in retime r (r_time r + inject_Z (snd x) / 1800000000)) /\ channel_of (port_clock_map devs) (row_of lat (fst (fst x)) (snd (fst x))) = Ok (e_channel e)
  /\ start_ok (e_channel e) (r_time (e_row e)) (e_start e) /\ e_id e = waveform_id (r_wf_op_id (e_row e)) (option_map snd (e_start e)).

Lemma add_starts_ok l : forall es, add_starts l = Ok es -> Forall2 (fun rc e => e_row e = fst rc /\ e_channel e = snd rc /\ start_ok (snd rc) (r_time (fst rc)) (e_start e)) l es.
Proof. unfold add_starts. induction l as [|[r ch] l IH]; intros es h; [injection h as <-; constructor|]. apply mapM_cons_inv in h. destruct h as (y & ys & h1 & h2 & ->). constructor; [|apply IH, h2]. destruct ch as [c|].
  - apply bind_Ok in h1. destruct h1 as ([k s] & h3 & h4). injection h4 as <-. cbn. repeat split. exists k, s. auto.
  - injection h1 as <-. cbn. auto. Qed.
Lemma mapM_channels m l : forall es, mapM (fun r => do ch <- channel_of m r; Ok (r, ch)) l = Ok es -> Forall2 (fun r rc => fst rc = r /\ channel_of m r = Ok (snd rc)) l es.
Proof. induction l as [|r l IH]; intros es h; [injection h as <-; constructor|]. apply mapM_cons_inv in h. destruct h as (y & ys & h1 & h2 & ->). constructor; [|apply IH, h2]. apply bind_Ok in h1. destruct h1 as (ch & h3 & h4). injection h4 as <-. auto. Qed.
Lemma forall2_comp {A B C} (R : A -> B -> Prop) (S : B -> C -> Prop) (T : A -> C -> Prop) : (forall a b c, R a b -> S b c -> T a c) -> forall l1 l2 l3, Forall2 R l1 l2 -> Forall2 S l2 l3 -> Forall2 T l1 l3.
Proof. intros h l1 l2 l3 h1. revert l3. induction h1; intros l3 h2; inversion h2; subst; constructor; eauto. Qed.
Lemma forall2_map_l {A B C} (f : A -> B) (R : B -> C -> Prop) l l' : Forall2 R (map f l) l' <-> Forall2 (fun a => R (f a)) l l'.
Proof. split; revert l'; induction l; intros l' h; inversion h; subst; constructor; auto. Qed.
Lemma forall2_map_r {A B C} (f : B -> C) (R : A -> C -> Prop) l l' : Forall2 R l (map f l') <-> Forall2 (fun a b => R a (f b)) l l'.
Proof. split; revert l; induction l'; intros l h; inversion h; subst; constructor; auto. Qed.
Lemma forall2_length {A B} (R : A -> B -> Prop) l l' : Forall2 R l l' -> List.length l = List.length l'.
Proof. induction 1; cbn; congruence. Qed.
Lemma add_from_length n x l : List.length (add_from n x l) = List.length l.
Proof. revert n. induction l as [|y l IH]; intros n; [reflexivity|]. cbn. destruct n; cbn; now rewrite IH. Qed.
Lemma correction_length com acqs : forall p q corr out, correction_loop com acqs p q corr = Ok out -> List.length out = List.length corr.
Proof. induction acqs as [|[lb [s|]] acqs IH]; intros p q corr out h; cbn [correction_loop] in h; [injection h as <-; reflexivity| |discriminate]. apply bind_Ok in h. destruct h as (c & _ & h). apply IH in h. now rewrite add_from_length in h. Qed.
Lemma forall2_combine {A B C D} (R : A -> B -> Prop) (S : A * C -> D -> Prop) (f : B * C -> D) : (forall a b c, R a b -> S (a, c) (f (b, c))) -> forall l l' k, Forall2 R l l' -> List.length k = List.length l' -> Forall2 S (combine l k) (map f (combine l' k)).
Proof. intros h l l' k h1. revert k. induction h1; intros k hk; [constructor|]. destruct k as [|c k]; [discriminate|]. cbn. constructor; auto. Qed.

Lemma corrected_table_ok srt s devs lat l : sorts srt -> corrected_table srt s devs lat = Ok l -> exists los e0 corr,
  Permutation (combine (seq 0 (List.length (occurrences s))) (occurrences s)) los
  /\ Forall (fun '(key, _) => exists p c, split_dash key = [p; c]) lat
  /\ (forall i j a b, (i < j)%nat -> nth_error los i = Some a -> nth_error los j = Some b -> r_time (row_of lat (fst a) (snd a)) <= r_time (row_of lat (fst b) (snd b)))
  /\ Forall2 (ent0 devs lat) los e0
  /\ correction_loop 600000000 (map (fun e => (r_label (e_row e), option_map snd (e_start e))) (filter (fun e => r_is_acq (e_row e)) e0)) 0 0 (map (fun _ => 0%Z) e0) = Ok corr
  /\ List.length corr = List.length los
  /\ Forall2 (ent devs lat) (combine los corr) l.
Proof.
  intros hs h. unfold corrected_table in h. apply bind_Ok in h. destruct h as (t0 & h0 & h). apply bind_Ok in h. destruct h as (chans & _ & h). apply bind_Ok in h. destruct h as (t1 & h1 & h). cbn zeta in h. apply bind_Ok in h. destruct h as (t2c & h2 & h). apply bind_Ok in h. destruct h as (e0 & h3 & h). apply bind_Ok in h. destruct h as (e1 & h4 & h). injection h as <-.
  destruct (timing_table_occ _ _ _ hs h0) as (lo0 & p0 & ->). pose proof (apply_latency_keys _ _ _ h1) as keys. apply (apply_latency_occ lat []) in h1. cbn [app] in h1. subst t1.
  destruct (hs (map (fun '(n, oc) => row_of lat n oc) lo0)) as [p1 so]. set (t2 := srt _) in *. pose proof p1 as p1'. apply Permutation_sym, Permutation_map_inv in p1'. destruct p1' as (los & e2 & p2).
  assert (ET : t2 = map (fun x => row_of lat (fst x) (snd x)) los) by (rewrite e2; apply map_ext; intros [n oc]; reflexivity). rewrite ET in *. clearbody t2. clear ET e2 p1 t2.
  apply mapM_channels in h2. apply add_starts_ok in h3.
  assert (F0 : Forall2 (ent0 devs lat) los e0).
  { apply forall2_map_l in h2. eapply forall2_comp; [|exact h2|exact h3]. intros x [r ch] e [q1 q2] (q3 & q4 & q5). cbn [fst snd] in *. subst r. unfold ent0. rewrite q3, q4. auto. }
  unfold apply_fixpoint in h4. apply bind_Ok in h4. destruct h4 as (corr & h4 & h5). apply add_starts_ok in h5.
  pose proof (correction_length _ _ _ _ _ _ h4) as len. rewrite map_length in len.
  exists los, e0, corr. split; [eapply perm_trans; eauto|]. split; [exact keys|]. split.
  { intros i j a b hij ha hb. apply (so i j); [exact hij| |]; erewrite map_nth_error; eauto. }
  split; [exact F0|]. split; [exact h4|]. split; [rewrite len; symmetry; eapply forall2_length; eauto|].
  apply forall2_map_r. assert (F1 := forall2_combine (ent0 devs lat) (fun x (rc : row * option chan) => fst rc = (let r := row_of lat (fst (fst x)) (snd (fst x)) in retime r (r_time r + inject_Z (snd x) / 1800000000)) /\ channel_of (port_clock_map devs) (row_of lat (fst (fst x)) (snd (fst x))) = Ok (snd rc)) (fun '(e, c) => (retime (e_row e) (r_time (e_row e) + inject_Z c / 1800000000), e_channel e))).
  assert (F2 := F1 ltac:(intros a b c (q1 & q2 & q3); cbn [fst snd]; rewrite q1; split; [reflexivity|exact q2]) los e0 corr F0 len). clear F1.
  eapply forall2_comp; [|exact F2|exact h5]. intros x [r ch] e [q1 q2] (q3 & q4 & q5). cbn [fst snd] in *. unfold ent. cbn [e_row e_channel e_start e_id]. rewrite q3, q4. rewrite q1 in *. repeat split; auto. Qed.

Lemma ent_stands devs lat x e : Forall (fun '(key, _) => exists p c, split_dash key = [p; c]) lat -> ent devs lat x e -> stands_for devs lat (snd (fst x)) (snd x) e.
Proof. intros k (q1 & q2 & q3 & _). destruct x as [[n oc] c]. cbn [fst snd] in *. unfold stands_for. rewrite q1 in *. cbn zeta. unfold retime in *. cbn zeta in *. cbn [r_operation r_wf_op_id r_port r_clock r_time r_duration r_is_acq r_wf_idx] in *. do 6 (split; [reflexivity|]). split.
  - rewrite (row_time lat n oc k). reflexivity.
  - unfold channel_of in q2. change (r_port (row_of lat n oc)) with (i_port (oc_info oc)) in q2. change (r_clock (row_of lat n oc)) with (i_clock (oc_info oc)) in q2. destruct (i_port (oc_info oc)) as [p|]; [|injection q2 as q2; rewrite <- q2 in *; cbn in q3; auto]. destruct (i_clock (oc_info oc)) as [cl|]; [|injection q2 as q2; rewrite <- q2 in *; cbn in q3; auto].
    destruct (last_get (port_clock_map devs) (p ++ "-" ++ cl)) as [ch|] eqn:lg; [|discriminate]. injection q2 as q2. rewrite <- q2 in *. cbn [start_ok] in q3. destruct q3 as (kk & ss & q3 & q4). exists ch, kk, ss. split; [apply connected_map, lg|]. auto. Qed.
