(** C53: the component of a Qblox cluster. *)
From Verif Require Import Base PathModel JsonModel QbModel QbSpec QbProps QbSeq QbSeq2 QbPrep QbThms QbCal QbAccept QbQtmSpec QbQtm QbClModel QbClSpec QbClProps.
From Coq Require Import Lia.
Local Open Scope string_scope.
Local Open Scope list_scope.

Lemma n_seq_spec k : n_seq k = sequencers k.
Proof. destruct k; reflexivity. Qed.
Lemma distinct_names (l l' : list (string * module)) : map fst l = map fst l' -> Distinct l -> Distinct l'.
Proof. unfold Distinct. intros ->. auto. Qed.

(** *** prepare *)
Lemma set_cluster_ok cl p v cl1 : set_cluster cl p v = (cl1, Ok tt) -> exists c, set_parameter (cdrv cl) LMod p v (root cl) = (c, Ok tt) /\ cl1 = set_root cl c.
Proof. unfold set_cluster. destruct (set_parameter _ _ _ _ _) as [c [[]|e]]; intros h; [injection h as <-; eauto|discriminate]. Qed.
Lemma prepare_cl_ok p cl cl' : Distinct (c_mods p) -> prepare_cl p cl = (cl', Ok tt) -> exists c, set_parameter (cdrv cl) LMod "reference_source" (VStr (reference p)) (root cl) = (c, Ok tt) /\
  map fst (mods cl') = map fst (mods cl) /\ prog cl' = Some p /\ root cl' = c /\ cdrv cl' = cdrv cl /\ sent cl' = sent cl /\
  (forall n q, In (n, q) (c_mods p) -> exists m c, get_mod n (mods cl) = Some m /\ prepare_mod m (c_data p) q = (c, Ok tt) /\ get_mod n (mods cl') = Some (with_comp m c)) /\
  (forall n, ~ In n (map fst (c_mods p)) -> get_mod n (mods cl') = get_mod n (mods cl)).
Proof. intros nd h. unfold prepare_cl in h. destruct (set_cluster cl "reference_source" (VStr (reference p))) as [cl1 [[]|e]] eqn:E; [|discriminate]. apply set_cluster_ok in E. destruct E as (c & e & ->). exists c. split; [auto|].
  apply prepare_mods_ok in h; [|exact nd]. exact h. Qed.
(** A successful [prepare] has set the reference clock and prepared exactly the modules of the program; the other modules, and what runs, are untouched. *)
Theorem C53_prepare : forall p cl cl', Distinct (c_mods p) -> Distinct (mods cl) -> Fresh (cdrv cl) (root cl) -> prepare_cl p cl = (cl', Ok tt) ->
  Holds (mem (root cl')) LMod "reference_source" (VStr (reference p)) /\ sent cl' = sent cl /\ map fst (mods cl') = map fst (mods cl) /\
  (forall n q, In (n, q) (c_mods p) -> exists m c, In (n, m) (mods cl) /\ prepare_mod m (c_data p) q = (c, Ok tt) /\ In (n, with_comp m c) (mods cl')) /\
  (forall n m, In (n, m) (mods cl) -> ~ In n (map fst (c_mods p)) -> In (n, m) (mods cl')).
Proof. intros p cl cl' d1 d2 fr h. destruct (prepare_cl_ok _ _ _ d1 h) as (c & e & h1 & h2 & h3 & h4 & h5 & h6 & h7). split; [|split; [auto|split; [auto|split]]].
  - rewrite h3. destruct (writes_set (cdrv cl) LMod "reference_source" (VStr (reference p)) _ _ e) as [-> s]. inversion s as [|x l st _]; subst. cbn in st. destruct st as [st|]; [|discriminate]. cbn [fold_left]. now apply wr_holds.
  - intros n q hin. destruct (h6 _ _ hin) as (m & c' & q1 & q2 & q3). exists m, c'. split; [now apply get_in|]. split; [auto|now apply get_in].
  - intros n m hin hn. apply get_in. rewrite h7 by auto. now apply in_get. Qed.

(** *** start *)
Lemma sync_sent s cl cl' r : sync_ext s cl = (cl', r) -> (forall x, r = Ok x -> sent cl' = sent cl ++ [SyncExt (e_slot s) (e_channel s) (e_args s)]) /\ (exists cs, sent cl' = sent cl ++ cs /\ Forall quiet_cmd cs) /\ prog cl' = prog cl /\ cdrv cl' = cdrv cl /\ map fst (mods cl') = map fst (mods cl).
Proof. unfold sync_ext, set_io. assert (K : forall cl0 : cluster, sent cl0 = sent cl -> prog cl0 = prog cl -> cdrv cl0 = cdrv cl -> map fst (mods cl0) = map fst (mods cl) -> forall e : exn, (cl0, Err e) = (cl', r) -> (forall x, r = Ok x -> sent cl' = sent cl ++ [SyncExt (e_slot s) (e_channel s) (e_args s)]) /\ (exists cs, sent cl' = sent cl ++ cs /\ Forall quiet_cmd cs) /\ prog cl' = prog cl /\ cdrv cl' = cdrv cl /\ map fst (mods cl') = map fst (mods cl)).
  { intros cl0 a b c d e h. injection h as <- <-. split; [intros x e1; discriminate|]. split; [exists []; rewrite app_nil_r; auto|auto]. }
  assert (G : forall cl0 : cluster, sent cl0 = sent cl -> prog cl0 = prog cl -> cdrv cl0 = cdrv cl -> map fst (mods cl0) = map fst (mods cl) -> (send cl0 [SyncExt (e_slot s) (e_channel s) (e_args s)], Ok tt) = (cl', r) -> (forall x, r = Ok x -> sent cl' = sent cl ++ [SyncExt (e_slot s) (e_channel s) (e_args s)]) /\ (exists cs, sent cl' = sent cl ++ cs /\ Forall quiet_cmd cs) /\ prog cl' = prog cl /\ cdrv cl' = cdrv cl /\ map fst (mods cl') = map fst (mods cl)).
  { intros cl0 a b c d h. injection h as <- <-. cbn [send sent prog cdrv mods]. rewrite a. split; [auto|]. split; [exists [SyncExt (e_slot s) (e_channel s) (e_args s)]; split; [auto|repeat constructor]|auto]. }
  destruct (Nat.eqb (e_slot s) 0); [now apply G|]. destruct (in_slot (e_slot s) (mods cl)) as [[n m]|]; [|now apply K]. destruct (knd m); try (now apply K). destruct (e_channel s) as [|ch]; [now apply K|].
  destruct (set_parameter _ (LIo ch) "mode" _ (cmp m)) as [c [[]|e]]; [|apply K; try reflexivity; apply put_names]. destruct (e_threshold s) as [t|]; [|apply K; try reflexivity; apply put_names].
  cbn [with_comp drv cmp]. destruct (set_parameter _ (LIo ch) "analog_threshold" _ c) as [c2 [[]|e]]; [apply G|apply K]; try reflexivity; cbn [set_mods mods]; now rewrite !put_names. Qed.
Lemma start_inv cl cl' r : start cl = (cl', r) ->
  (prog cl = None /\ r = Ok tt /\ sent cl' = sent cl ++ [StopAll] /\ mods cl' = mods cl) \/
  (exists p cs, prog cl = Some p /\ sent cl' = sent cl ++ StopAll :: cs ++ (match r with Ok _ => [StartAll] | Err _ => [] end) /\ Forall quiet_cmd cs /\
     (forall x, r = Ok x -> exists ar, arm_all p (mods cl) = (ar, Ok tt) /\ cs = ar ++ match ext p with Some s => [SyncExt (e_slot s) (e_channel s) (e_args s)] | None => [] end)).
Proof. intros H. unfold start in H. cbn [send prog mods] in H. destruct (prog cl) as [p|]; [right|left; injection H as <- <-; auto].
  exists p. destruct (arm_all p (mods cl)) as [ar [[]|e]] eqn:A.
  - assert (Q := arm_all_quiet _ _ _ _ A). destruct (ext p) as [s|].
    + destruct (sync_ext s _) as [cl2 r2] eqn:S. destruct (sync_sent _ _ _ _ S) as (s1 & (cs & s2 & s3) & _). cbn [send sent] in *. destruct r2 as [[]|e]; injection H as <- <-.
      * exists (ar ++ [SyncExt (e_slot s) (e_channel s) (e_args s)]). split; [auto|]. cbn [send sent]. rewrite (s1 _ eq_refl). rewrite <- !app_assoc. cbn [app]. split; [auto|]. split; [apply Forall_app; split; [auto|repeat constructor]|]. intros x _. eauto.
      * exists (ar ++ cs). split; [auto|]. rewrite s2. rewrite <- !app_assoc. cbn [app]. rewrite app_nil_r. split; [auto|]. split; [apply Forall_app; auto|]. intros x e1. discriminate.
    + injection H as <- <-. exists ar. split; [auto|]. cbn [send sent]. rewrite <- !app_assoc. split; [auto|]. split; [auto|]. intros x _. exists ar. split; [auto|]. now rewrite app_nil_r.
  - injection H as <- <-. exists ar. split; [auto|]. cbn [send sent]. rewrite <- app_assoc, app_nil_r. split; [auto|]. split; [eapply arm_all_quiet; eauto|]. intros x e1. discriminate. Qed.
Lemma running_start (cl : cluster) cs tail : Forall quiet_cmd cs -> forall st, exists a, fold_left effect (StopAll :: cs ++ tail) st = fold_left effect tail (a, []) /\ forall n i, In (n, i) a <-> In (Arm n i) cs.
Proof. intros q st. cbn [fold_left]. assert (effect st StopAll = ([], [])) as -> by (destruct st; reflexivity). rewrite fold_left_app. destruct (effect_quiet cs q [] []) as (a & E & h). exists a. split; [exact (f_equal (fold_left effect tail) E)|]. intros n i. rewrite h. cbn. tauto. Qed.
(** After a successful [start] run exactly the sequencers that the modules of the last program were given, whatever ran before. *)
Theorem C53_start : forall cl cl', start cl = (cl', Ok tt) -> forall n i,
  In (n, i) (running cl') <-> exists p m, prog cl = Some p /\ In (n, m) (mods cl) /\ In n (map fst (c_mods p)) /\ (i < sequencers (knd m))%nat /\ In (seq_name i) (names (cmp m)).
Proof. intros cl cl' h n i. unfold running. destruct (start_inv _ _ _ h) as [(e & _ & s & _)|(p & cs & e & s & q & g)]; rewrite s, fold_left_app.
  - cbn. split; [|intros (p & m & e2 & _); congruence]. destruct (fold_left effect (sent cl) ([], [])). cbn. intros [].
  - destruct (running_start cl cs [StartAll] q (fold_left effect (sent cl) ([], []))) as (a & -> & ha). cbn [fold_left effect snd]. rewrite app_nil_r, ha. destruct (g tt eq_refl) as (ar & A & ->). rewrite in_app_iff, (arm_all_in _ _ _ A). split.
    + intros [(m & h1 & h2 & h3 & h4)|h1]; [exists p, m; rewrite <- n_seq_spec; auto|]. exfalso. destruct (ext p); cbn in h1; [destruct h1 as [h1|[]]; discriminate|destruct h1].
    + intros (p' & m & e2 & h1 & h2 & h3 & h4). left. exists m. rewrite n_seq_spec. assert (p' = p) as -> by congruence. auto. Qed.
(** One that raises leaves nothing running *)
Theorem C53_start_fails : forall cl cl' e, start cl = (cl', Err e) -> running cl' = [].
Proof. intros cl cl' e h. unfold running. destruct (start_inv _ _ _ h) as [(_ & x & _)|(p & cs & _ & s & q & _)]; [discriminate|]. rewrite s, fold_left_app. destruct (running_start cl cs [] q (fold_left effect (sent cl) ([], []))) as (a & -> & _). reflexivity. Qed.
(** Before the first [prepare] there is nothing to start *)
Theorem C53_start_unprepared : forall cl cl' r, prog cl = None -> start cl = (cl', r) -> r = Ok tt /\ running cl' = [] /\ sent cl' = sent cl ++ [StopAll].
Proof. intros cl cl' r e h. destruct (start_inv _ _ _ h) as [(_ & x & s & _)|(p & cs & e2 & _)]; [|congruence]. split; [auto|]. split; [|auto]. unfold running. rewrite s, fold_left_app. cbn. destruct (fold_left effect (sent cl) ([], [])). reflexivity. Qed.
(** Before the sequencers of a module are armed, the acquisition data of those that acquire is deleted *)
Theorem C53_cleared : forall cl cl' p n m g k, start cl = (cl', Ok tt) -> Distinct (mods cl) -> prog cl = Some p -> In (n, m) (mods cl) -> In n (map fst (c_mods p)) -> has_inputs (knd m) -> mgr (cmp m) = Some g -> In (seq_name k) (map fst (m_mapping g)) ->
  exists a b, sent cl' = sent cl ++ StopAll :: a ++ Clear n k :: b ++ [StartAll] /\ (forall i, ~ In (Arm n i) a) /\ ~ In StartAll (a ++ b).
Proof. intros cl cl' p n m g k h nd e h1 h2 h3 h4 h5. destruct (start_inv _ _ _ h) as [(e2 & _)|(p' & cs & e2 & s & q & gg)]; [congruence|]. assert (p' = p) as -> by congruence. destruct (gg tt eq_refl) as (ar & A & ->).
  assert (M : manager_of m = Some g) by (unfold manager_of; destruct h3 as [[->|[->| ->]]| ->]; exact h4).
  destruct (arm_all_clear p (mods cl) ar n m g k nd A h1 h2 M h5) as (a & b & -> & ha). exists a, (b ++ match ext p with Some s0 => [SyncExt (e_slot s0) (e_channel s0) (e_args s0)] | None => [] end). split; [rewrite s; now rewrite <- !app_assoc|]. split; [auto|].
  intros hi. rewrite Forall_forall in q. rewrite <- app_assoc in q. apply (q StartAll). rewrite !in_app_iff in *. cbn [app In]. destruct hi as [hi|[hi|hi]]; auto. Qed.

(** *** Starting and stopping changes nothing the component remembers of the programs *)
Definition memo (cl : cluster) : option cprogram * list (string * (kind * (list string * option manager))) := (prog cl, map (fun '(n, m) => (n, (knd m, (names (cmp m), mgr (cmp m))))) (mods cl)).
Definition same_memo (m m' : module) : Prop := knd m' = knd m /\ names (cmp m') = names (cmp m) /\ mgr (cmp m') = mgr (cmp m).
Lemma put_memo n m m' l : get_mod n l = Some m -> same_memo m m' -> map (fun '(n, m) => (n, (knd m, (names (cmp m), mgr (cmp m))))) (put_mod n m' l) = map (fun '(n, m) => (n, (knd m, (names (cmp m), mgr (cmp m))))) l.
Proof. intros h (a & b & c). induction l as [|[k x] l IH]; cbn in *; [auto|]. destruct (String.eqb n k); cbn; [injection h as ->; congruence|f_equal; auto]. Qed.
Lemma kept_nm {A} (m : M A) : (forall X (f : comp -> X), (forall c g, f {| mem := g (mem c); names := names c; nco_changed := nco_changed c; cals := cals c; mgr := mgr c |} = f c) -> Pres (kept X f) m) -> forall c c' r, m c = (c', r) -> names c' = names c /\ mgr c' = mgr c.
Proof. intros h c c' r e. split; [apply (h _ names) in e|apply (h _ mgr) in e]; auto. Qed.
Lemma slot_get s l n m : Distinct l -> in_slot s l = Some (n, m) -> get_mod n l = Some m.
Proof. intros nd h. apply in_get; [auto|]. clear nd. induction l as [|[k x] l IH]; cbn in *; [discriminate|]. destruct (Nat.eqb (slot x) s); [injection h as -> ->; auto|auto]. Qed.
Lemma set_same_memo d l p v m c r : set_parameter d l p v (cmp m) = (c, r) -> same_memo m (with_comp m c).
Proof. intros e. unfold same_memo. cbn. split; [auto|]. revert e. apply kept_nm. intros X f hf. apply kept_set. exact hf. Qed.
Lemma sync_memo s cl cl' r : Distinct (mods cl) -> sync_ext s cl = (cl', r) -> memo cl' = memo cl.
Proof. intros nd. unfold sync_ext, set_io. assert (K : forall cl0 : cluster, memo cl0 = memo cl -> forall (r0 : result unit), (cl0, r0) = (cl', r) -> memo cl' = memo cl) by (intros cl0 h r0 e; injection e as <- _; auto).
  assert (G : forall cl0 : cluster, memo cl0 = memo cl -> forall (r0 : result unit), (send cl0 [SyncExt (e_slot s) (e_channel s) (e_args s)], r0) = (cl', r) -> memo cl' = memo cl) by (intros cl0 h r0 e; injection e as <- _; exact h).
  destruct (Nat.eqb (e_slot s) 0); [now apply G|]. destruct (in_slot (e_slot s) (mods cl)) as [[n m]|] eqn:E; [|now apply K]. apply slot_get in E; [|auto]. destruct (knd m); try (now apply K). destruct (e_channel s) as [|ch]; [now apply K|].
  destruct (set_parameter _ (LIo ch) "mode" _ (cmp m)) as [c r1] eqn:F. assert (S1 := set_same_memo _ _ _ _ _ _ _ F).
  assert (M1 : memo (set_mods cl (put_mod n (with_comp m c) (mods cl))) = memo cl) by (unfold memo; cbn [set_mods prog mods]; f_equal; eapply put_memo; eauto).
  destruct r1 as [[]|e]; [|now apply K]. destruct (e_threshold s) as [t|]; [|now apply K]. cbn [with_comp drv cmp].
  destruct (set_parameter _ (LIo ch) "analog_threshold" _ c) as [c2 r2] eqn:F2. assert (S2 := set_same_memo _ _ _ _ (with_comp m c) _ _ F2).
  assert (M2 : memo (set_mods (set_mods cl (put_mod n (with_comp m c) (mods cl))) (put_mod n (with_comp (with_comp m c) c2) (put_mod n (with_comp m c) (mods cl)))) = memo cl).
  { rewrite <- M1. unfold memo. cbn [set_mods prog mods]. f_equal. eapply put_memo; eauto. eapply QbClProps.get_put; eauto. }
  destruct r2 as [[]|e]; [now eapply G|now eapply K]. Qed.
Lemma start_memo cl cl' r : Distinct (mods cl) -> start cl = (cl', r) -> memo cl' = memo cl.
Proof. intros nd h. unfold start in h. cbn [send prog mods] in h. destruct (prog cl) as [p|] eqn:P; [|injection h as <- _; reflexivity]. destruct (arm_all p (mods cl)) as [ar [[]|e]]; [|injection h as <- _; reflexivity].
  destruct (ext p) as [s|]; [|injection h as <- _; reflexivity]. destruct (sync_ext s _) as [cl2 r2] eqn:S. apply sync_memo in S; [|exact nd]. destruct r2 as [[]|e]; injection h as <- _; exact S. Qed.
Lemma disable_memo l l' r : disable_all l = (l', r) -> map (fun '(n, m) => (n, (knd m, (names (cmp m), mgr (cmp m))))) l' = map (fun '(n, m) => (n, (knd m, (names (cmp m), mgr (cmp m))))) l.
Proof. revert l' r. induction l as [|[n m] l IH]; cbn [disable_all]; intros l' r h; [injection h as <- <-; auto|]. destruct (disable_sync (drv m) (knd m) (cmp m)) as [c res] eqn:E. assert (K : names c = names (cmp m) /\ mgr c = mgr (cmp m)) by (revert E; apply kept_nm; intros X f hf; apply kept_disable; exact hf). destruct K as [k1 k2].
  destruct res as [[]|e]; [|injection h as <- <-; cbn; congruence]. destruct (disable_all l) as [l2 r2]. injection h as <- <-. cbn. rewrite (IH _ _ eq_refl). congruence. Qed.
Lemma stop_memo cl cl' r : stop cl = (cl', r) -> memo cl' = memo cl.
Proof. unfold stop. destruct (disable_all (mods cl)) as [l res] eqn:E. apply disable_memo in E. destruct res as [[]|e]; intros h; injection h as <- _; unfold memo; cbn; now rewrite E. Qed.
Lemma memo_distinct cl cl' : memo cl' = memo cl -> Distinct (mods cl) -> Distinct (mods cl').
Proof. intros h. apply (f_equal snd) in h. unfold memo in h. cbn [snd] in h. apply (f_equal (map fst)) in h. rewrite !map_map in h. unfold Distinct. assert (X : forall l : list (string * module), map (fun x => fst (let '(n, m) := x in (n, (knd m, (names (cmp m), mgr (cmp m)))))) l = map fst l) by (intros l; apply map_ext; intros []; reflexivity). rewrite !X in h. now rewrite h. Qed.

(** All calls but [prepare] *)
Inductive Calls : cluster -> cluster -> Prop :=
  | no_calls : forall cl, Calls cl cl
  | then_start : forall a b c r, Calls a b -> start b = (c, r) -> Calls a c
  | then_stop : forall a b c r, Calls a b -> stop b = (c, r) -> Calls a c.
Lemma calls_memo a b : Calls a b -> Distinct (mods a) -> memo b = memo a.
Proof. intros h nd. induction h as [|a b c r h IH e|a b c r h IH e]; [auto| |]; specialize (IH nd); rewrite <- IH; [eapply start_memo; [eapply memo_distinct; eauto|exact e]|eapply stop_memo; exact e]. Qed.
(** However often the cluster was started and stopped (successfully or not) since a successful [prepare], [start] runs exactly the sequencers of that program. *)
Theorem C53_run : forall p cl cl1 cl2 cl3, Distinct (c_mods p) -> Distinct (mods cl) -> prepare_cl p cl = (cl1, Ok tt) -> Calls cl1 cl2 -> start cl2 = (cl3, Ok tt) -> forall n i,
  In (n, i) (running cl3) <-> exists q, In (n, q) (c_mods p) /\ In (seq_name i) (seq_names q).
Proof. intros p cl cl1 cl2 cl3 d1 d2 h k s n i. rewrite (C53_start _ _ s). destruct (prepare_cl_ok _ _ _ d1 h) as (c0 & _ & h1 & h2 & _ & _ & _ & h6 & h7).
  assert (nd1 : Distinct (mods cl1)) by (eapply distinct_names; [symmetry; exact h1|auto]). assert (E := calls_memo _ _ k nd1). unfold memo in E. injection E as e1 e2.
  assert (T : forall m, In (n, m) (mods cl2) -> exists m1, In (n, m1) (mods cl1) /\ knd m = knd m1 /\ names (cmp m) = names (cmp m1)).
  { intros m hm. assert (I : In (n, (knd m, (names (cmp m), mgr (cmp m)))) (map (fun '(n, m) => (n, (knd m, (names (cmp m), mgr (cmp m))))) (mods cl2))) by (apply in_map_iff; exists (n, m); auto). rewrite e2 in I. apply in_map_iff in I. destruct I as ([n' m1] & e & I). injection e as -> f1 f2 _. exists m1. auto. }
  assert (T' : forall m, In (n, m) (mods cl1) -> exists m1, In (n, m1) (mods cl2) /\ knd m = knd m1 /\ names (cmp m) = names (cmp m1)).
  { intros m hm. assert (I : In (n, (knd m, (names (cmp m), mgr (cmp m)))) (map (fun '(n, m) => (n, (knd m, (names (cmp m), mgr (cmp m))))) (mods cl1))) by (apply in_map_iff; exists (n, m); auto). rewrite <- e2 in I. apply in_map_iff in I. destruct I as ([n' m1] & e & I). injection e as -> f1 f2 _. exists m1. auto. }
  split.
  - intros (p' & m & q1 & q2 & q3 & q4 & q5). assert (p' = p) as -> by congruence. apply in_map_iff in q3. destruct q3 as ([n' q] & e & q3). cbn [fst] in e. subst n'. exists q. split; [auto|]. destruct (h6 _ _ q3) as (m0 & c & g1 & g2 & g3). apply T in q2. destruct q2 as (m1 & i1 & f1 & f2). apply (in_get _ _ _ nd1) in i1. assert (m1 = with_comp m0 c) as -> by congruence. cbn [with_comp cmp] in f2. rewrite <- (mod_names m0 (c_data p) q c (Ok tt) (mod_fits _ _ _ _ g2) g2). congruence.
  - intros (q & q1 & q2). destruct (h6 _ _ q1) as (m0 & c & g1 & g2 & g3). apply QbClProps.get_in in g3. destruct (T' _ g3) as (m1 & i1 & f1 & f2). exists p, m1. split; [congruence|]. split; [auto|]. split; [apply in_map_iff; exists (n, q); auto|]. assert (N := mod_names m0 (c_data p) q c (Ok tt) (mod_fits _ _ _ _ g2) g2). cbn [with_comp cmp knd] in f1, f2. split; [|rewrite <- f2, N; auto].
    rewrite <- f1. pose proof (mod_fits _ _ _ _ g2) as ft. destruct q as [q|q]; cbn [Fits seq_names] in *.
    + rewrite mod_analog in g2 by auto. apply in_map_iff in q2. destruct q2 as ([n' st] & e & q2). cbn [fst] in e. subst n'. destruct (C51_names _ _ _ _ _ _ ft g2 _ _ q2) as (j & e & lt). apply seq_name_inj in e as <-. exact lt.
    + rewrite mod_timetag in g2 by auto. apply in_map_iff in q2. destruct q2 as ([n' st] & e & q2). cbn [fst] in e. subst n'. destruct (C54_qtm_names _ _ _ _ g2 _ _ q2) as (j & e & lt). apply seq_name_inj in e as <-. rewrite ft. exact lt. Qed.
