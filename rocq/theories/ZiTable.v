From Verif Require Import Base NumericModel NumericProps ZiModel ZiSpec ZiProps ZiProps2 ZiProps3 ZiClock.
From Coq Require Import Permutation Ascii.
Open Scope Q_scope.

(** * Rows and occurrences *)

Definition row_of (lat : list (string * Q)) (k : nat) (oc : occurrence) : row :=
  {| r_operation := o_str (oc_operation oc); r_wf_op_id := (o_str (oc_operation oc) ++ "_acq_" ++ JsonModel.dec_Z (Z.of_nat (oc_index oc)))%string; r_port := i_port (oc_info oc); r_clock := i_clock (oc_info oc);
     r_time := fold_left (fun t '(key, dt) => match split_dash key with [p; c] => match i_port (oc_info oc), i_clock (oc_info oc) with Some p', Some c' => if String.eqb p' p && String.eqb c' c then t + dt else t | _, _ => t end | _ => t end) lat (oc_time oc);
     r_duration := i_duration (oc_info oc); r_is_acq := i_is_acq (oc_info oc); r_wf_idx := oc_index oc; r_label := k |}.
Lemma operation_rows_occ o t : operation_rows o t = map (row_of [] 0) (occurrences_of o t).
Proof. unfold operation_rows, occurrences_of. rewrite map_app, !map_map. f_equal; apply map_ext; intros [n i]; reflexivity. Qed.
Lemma schedule_rows_occ s rows : schedule_rows s = Ok rows -> rows = map (row_of [] 0) (occurrences s).
Proof. unfold schedule_rows, occurrences. intros h. apply bind_Ok in h. destruct h as (ls & h & e). injection e as <-. revert ls h. induction (s_schedulables s) as [|[hh a] l IH]; intros ls h; [injection h as <-; reflexivity|].
  apply mapM_cons_inv in h. destruct h as (y & ys & h1 & h2 & ->). destruct a as [t|]; [|discriminate]. destruct (zget (s_operations s) hh) as [o|] eqn:eo; [|discriminate]. injection h1 as <-. cbn [List.concat flat_map]. rewrite eo, map_app, (IH _ h2). f_equal. apply operation_rows_occ. Qed.
Lemma labelled_rows occs : forall b, map (fun '(n, r) => relabel r n) (combine (seq b (List.length (map (row_of [] 0) occs))) (map (row_of [] 0) occs)) = map (fun '(n, oc) => row_of [] n oc) (combine (seq b (List.length occs)) occs).
Proof. rewrite map_length. induction occs as [|oc occs IH]; intros b; [reflexivity|]. cbn [List.length seq map combine]. f_equal. apply IH. Qed.
Lemma timing_table_occ srt s t : sorts srt -> timing_table srt s = Ok t -> exists los, Permutation (combine (seq 0 (List.length (occurrences s))) (occurrences s)) los /\ t = map (fun '(n, oc) => row_of [] n oc) los.
Proof. intros hs h. unfold timing_table in h. apply bind_Ok in h. destruct h as (rows & h & e). apply schedule_rows_occ in h. destruct rows as [|r0 rs] eqn:er; [discriminate|]. rewrite <- er in *. injection e as <-. destruct (hs (map (fun '(n, r) => relabel r n) (combine (seq 0 (List.length rows)) rows))) as [p _]. subst rows. rewrite h in *. rewrite labelled_rows in *. apply Permutation_sym, Permutation_map_inv in p. destruct p as (los & e & p). exists los. split; [exact p|]. symmetry in e. symmetry. exact e. Qed.

Lemma apply_latency_occ lat : forall l0 los t1, apply_latency lat (map (fun '(n, oc) => row_of l0 n oc) los) = Ok t1 -> t1 = map (fun '(n, oc) => row_of (l0 ++ lat) n oc) los.
Proof. unfold apply_latency. induction lat as [|[key dt] lat IH]; intros l0 los t1 h; cbn [foldM] in h; [injection h as <-; now rewrite app_nil_r|]. apply bind_Ok in h. destruct h as (t' & h1 & h). destruct (split_dash key) as [|p [|c [|? ?]]] eqn:es; try discriminate. injection h1 as <-.
  rewrite map_map in h. replace (l0 ++ (key, dt) :: lat) with ((l0 ++ [(key, dt)]) ++ lat) by (rewrite <- app_assoc; reflexivity). apply IH. rewrite <- h. f_equal. apply map_ext. intros [n oc]. unfold row_of. cbn [r_port r_clock]. rewrite fold_left_app. cbn [fold_left]. rewrite es.
  destruct (i_port (oc_info oc)) as [p'|]; [|reflexivity]. destruct (i_clock (oc_info oc)) as [c'|]; [|reflexivity]. destruct (_ && _); reflexivity. Qed.

Lemma split_dash_nonempty s : split_dash s <> []. Proof. destruct s; [discriminate|]. cbn. destruct (Ascii.eqb _ _); [discriminate|]. destruct (split_dash s); discriminate. Qed.
Lemma split_one s x : split_dash s = [x] -> s = x.
Proof. revert x. induction s as [|a s IH]; intros x h; cbn in h; [congruence|]. destruct (Ascii.eqb a "-") ; [injection h as _ h; exfalso; eapply split_dash_nonempty; eauto|]. destruct (split_dash s) as [|y [|? ?]] eqn:e; [exfalso; eapply split_dash_nonempty; eauto|injection h as <-; f_equal; now apply IH|discriminate]. Qed.
Lemma split_two s p c : split_dash s = [p; c] -> s = (p ++ "-" ++ c)%string.
Proof. revert p. induction s as [|a s IH]; intros p h; cbn in h; [discriminate|]. destruct (Ascii.eqb_spec a "-") as [->|_].
  - injection h as <- h. apply split_one in h. subst. reflexivity.
  - destruct (split_dash s) as [|y [|z [|? ?]]] eqn:e; try discriminate. injection h as <- <-. cbn. f_equal. now apply IH. Qed.
Lemma split_dash_app p c : exists x, x <> [] /\ split_dash (p ++ "-" ++ c)%string = x ++ split_dash c /\ (forall y, x = [y] -> y = p).
Proof. induction p as [|a p (x & nx & hx & hy)].
  - exists [EmptyString]. split; [discriminate|]. split; [reflexivity|]. intros y [= <-]. reflexivity.
  - change (String a p ++ "-" ++ c)%string with (String a (p ++ "-" ++ c)%string). set (u := (p ++ "-" ++ c)%string) in *. clearbody u. cbn [split_dash]. rewrite hx. destruct (Ascii.eqb_spec a "-") as [->|n].
    + exists (EmptyString :: x). split; [discriminate|]. split; [reflexivity|]. intros y [= _ e]. contradiction.
    + destruct x as [|x0 x]; [contradiction|]. exists (String a x0 :: x). split; [discriminate|]. split; [reflexivity|]. intros y e. injection e as <- ->. f_equal. apply hy. reflexivity. Qed.
Lemma split_match key p c p' c' : split_dash key = [p; c] -> (String.eqb p' p && String.eqb c' c) = String.eqb key (p' ++ "-" ++ c').
Proof. intros h. pose proof (split_two _ _ _ h) as e. destruct (String.eqb_spec key (p' ++ "-" ++ c')%string) as [q|q].
  - destruct (split_dash_app p' c') as (x & nx & hx & hy). rewrite <- q, h in hx. destruct x as [|x0 [|x1 x]]; [contradiction| |].
    + cbn in hx. injection hx as <- hx. symmetry in hx. apply split_one in hx. specialize (hy p eq_refl). subst. now rewrite !String.eqb_refl.
    + exfalso. cbn in hx. injection hx as _ _ hx. apply (split_dash_nonempty c'). destruct x; [symmetry; exact hx|discriminate].
  - destruct (String.eqb_spec p' p) as [->|]; [|reflexivity]. destruct (String.eqb_spec c' c) as [->|]; [|reflexivity]. congruence. Qed.
Lemma row_time lat k oc : Forall (fun '(key, _) => exists p c, split_dash key = [p; c]) lat -> r_time (row_of lat k oc) == oc_time oc + latency lat (oc_info oc).
Proof. unfold row_of, latency. cbn [r_time]. generalize (oc_time oc) as t. induction lat as [|[key dt] lat IH]; intros t h; cbn [fold_left fold_right].
  - destruct (i_port (oc_info oc)), (i_clock (oc_info oc)); lra.
  - inversion h as [|? ? h1 h2]; subst. cbn beta iota in h1. destruct h1 as (p & c & hp). rewrite hp. destruct (i_port (oc_info oc)) as [p'|]; [|apply (IH t h2)]. destruct (i_clock (oc_info oc)) as [c'|]; [|apply (IH t h2)]. rewrite (split_match key p c p' c' hp). destruct (String.eqb key (p' ++ "-" ++ c')); [rewrite (IH (t + dt) h2); lra|apply (IH t h2)]. Qed.
Lemma apply_latency_keys lat : forall rows t1, apply_latency lat rows = Ok t1 -> Forall (fun '(key, _) => exists p c, split_dash key = [p; c]) lat.
Proof. unfold apply_latency. induction lat as [|[key dt] lat IH]; intros rows t1 h; cbn [foldM] in h; constructor.
  - destruct (split_dash key) as [|p [|c [|? ?]]] eqn:es; try discriminate. eauto.
  - apply bind_Ok in h. destruct h as (t' & _ & h). eapply IH; eauto. Qed.

(** * Channels *)

Lemma last_get_split {A} (d : list (string * A)) k v : last_get d k = Some v -> exists d1 d2, d = d1 ++ (k, v) :: d2 /\ ~ In k (map fst d2).
Proof. induction d as [|[k' v'] d IH]; cbn [last_get]; [discriminate|]. destruct (last_get d k) as [u|] eqn:e.
  - intros [= ->]. destruct (IH eq_refl) as (d1 & d2 & -> & n). exists ((k', v') :: d1), d2. auto.
  - destruct (String.eqb_spec k k') as [->|]; [|discriminate]. intros [= ->]. exists [], d. split; [reflexivity|]. intros hi. clear IH. induction d as [|[k2 v2] d IH]; [destruct hi|]. cbn [last_get] in e. destruct (last_get d k') eqn:e2; [discriminate|]. destruct (String.eqb_spec k' k2) as [|n]; [discriminate|]. destruct hi as [hi|hi]; [cbn in hi; congruence|auto]. Qed.
Lemma flat_map_split {A B} (f : A -> list B) l : forall x1 y x2, flat_map f l = x1 ++ y :: x2 -> exists l1 a l2 z1 z2, l = l1 ++ a :: l2 /\ f a = z1 ++ y :: z2 /\ x2 = z2 ++ flat_map f l2.
Proof. induction l as [|a l IH]; intros x1 y x2 h; cbn in h; [destruct x1; discriminate|]. destruct (Nat.ltb (List.length x1) (List.length (f a))) eqn:e.
  - apply Nat.ltb_lt in e. assert (E : f a = firstn (List.length (f a)) (x1 ++ y :: x2)) by (rewrite <- h, firstn_app, Nat.sub_diag, firstn_all, firstn_O, app_nil_r; reflexivity).
    assert (S : flat_map f l = skipn (List.length (f a)) (x1 ++ y :: x2)) by (rewrite <- h, skipn_app, Nat.sub_diag, skipn_all; reflexivity).
    rewrite firstn_app, (firstn_all2 x1) in E by lia. rewrite skipn_app, (skipn_all2 x1) in S by lia. destruct (List.length (f a) - List.length x1)%nat as [|n] eqn:en; [lia|]. cbn [firstn] in E. cbn [skipn app] in S. exists [], a, l, x1, (firstn n x2). split; [reflexivity|]. split; [exact E|]. rewrite S. symmetry. apply firstn_skipn.
  - apply Nat.ltb_ge in e. assert (S : flat_map f l = skipn (List.length (f a)) (x1 ++ y :: x2)) by (rewrite <- h, skipn_app, Nat.sub_diag, skipn_all; reflexivity).
    rewrite skipn_app in S. replace (List.length (f a) - List.length x1)%nat with 0%nat in S by lia. cbn [skipn] in S. destruct (IH _ _ _ S) as (l1 & b & l2 & z1 & z2 & -> & q & r). exists (a :: l1), b, l2, z1, z2. auto. Qed.
Lemma connected_map devs p c ch : last_get (port_clock_map devs) (p ++ "-" ++ c) = Some ch -> connected devs p c ch.
Proof. intros h. apply last_get_split in h. destruct h as (d1 & d2 & e & n). unfold port_clock_map in e. apply flat_map_split in e. destruct e as (l1 & d & l2 & z1 & z2 & -> & e & ->). rewrite map_app in n.
  assert (M : exists cs1 x cs2, d_channels d = cs1 ++ x :: cs2 /\ (let '(k, o) := x in ((out_port o ++ "-" ++ out_clock o)%string, (d_name d, k))) = ((p ++ "-" ++ c)%string, ch) /\ z2 = map (fun '(k, o) => ((out_port o ++ "-" ++ out_clock o)%string, (d_name d, k))) cs2).
  { apply map_eq_app in e. destruct e as (cs1 & rest & -> & <- & e). destruct rest as [|x cs2]; [discriminate|]. cbn [map] in e. injection e as e1 e2. exists cs1, x, cs2. auto. }
  destruct M as (cs1 & [k o] & cs2 & ec & ex & ez). injection ex as ep <-. exists l1, d, l2, cs1, o, cs2. cbn [fst snd]. split; [reflexivity|]. split; [exact ec|]. split; [reflexivity|]. split; [exact ep|]. split.
  - intros d' n' o' hd ho q. apply n. apply in_or_app. right. rewrite <- q. change (out_port o' ++ "-" ++ out_clock o')%string with (fst ((out_port o' ++ "-" ++ out_clock o')%string, (d_name d', n'))). apply in_map. apply in_flat_map. exists d'. split; [exact hd|]. change ((out_port o' ++ "-" ++ out_clock o')%string, (d_name d', n')) with ((fun '(k0, o0) => ((out_port o0 ++ "-" ++ out_clock o0)%string, (d_name d', k0))) (n', o')). apply in_map, ho.
  - intros n' o' ho q. apply n. apply in_or_app. left. rewrite ez, map_map. apply in_map_iff. exists (n', o'). auto. Qed.

Lemma last_get_mid {A} (d1 d2 : list (string * A)) k v : ~ In k (map fst d2) -> last_get (d1 ++ (k, v) :: d2) k = Some v.
Proof. intros h. rewrite last_get_app. cbn [last_get]. rewrite last_get_none by exact h. now rewrite String.eqb_refl. Qed.
Lemma connected_get devs p c ch : connected devs p c ch -> last_get (port_clock_map devs) (p ++ "-" ++ c) = Some ch.
Proof. intros (devs1 & d & devs2 & cs1 & o & cs2 & -> & e & en & ep & n1 & n2). unfold port_clock_map. rewrite flat_map_app. cbn [flat_map]. rewrite e, map_app. cbn [map]. rewrite <- app_assoc. rewrite ep, en. destruct ch as [nm k]. cbn [fst snd] in *. rewrite app_assoc. rewrite <- app_comm_cons. apply last_get_mid. rewrite map_app. intros hi. apply in_app_or in hi. destruct hi as [hi|hi].
  - apply in_map_iff in hi. destruct hi as ([x y] & q & hi). apply in_map_iff in hi. destruct hi as ([n o'] & q' & hi). injection q' as <- <-. apply (n2 n o' hi). exact q.
  - apply in_map_iff in hi. destruct hi as ([x y] & q & hi). apply in_flat_map in hi. destruct hi as (d' & hd & hi). apply in_map_iff in hi. destruct hi as ([n o'] & q' & hi). injection q' as <- <-. apply (n1 d' n o' hd hi). exact q. Qed.
