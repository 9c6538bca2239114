From Verif Require Import Base ZiModel ZiSpec ZiProps ZiProps2.
From Coq Require Import Permutation.
Open Scope Z_scope.

(** * The waveform table *)

Lemma last_get_app {A} (d1 d2 : list (string * A)) k : last_get (d1 ++ d2) k = match last_get d2 k with Some v => Some v | None => last_get d1 k end.
Proof. induction d1 as [|[k' v] d1 IH]; cbn [app last_get]; [now destruct (last_get d2 k)|]. rewrite IH. now destruct (last_get d2 k). Qed.
Lemma last_get_none {A} (d : list (string * A)) k : ~ In k (map fst d) -> last_get d k = None.
Proof. induction d as [|[k' v] d IH]; intros h; [reflexivity|]. cbn [last_get]. rewrite IH by (intros h'; apply h; now right). destruct (String.eqb_spec k k') as [->|_]; [exfalso; apply h; now left|reflexivity]. Qed.
Lemma last_get_in {A} (d : list (string * A)) k v : last_get d k = Some v -> In (k, v) d.
Proof. induction d as [|[k' v'] d IH]; cbn [last_get]; [discriminate|]. destruct (last_get d k) as [u|]; [intros [= ->]; right; auto|]. destruct (String.eqb_spec k k') as [->|]; [intros [= ->]; now left|discriminate]. Qed.

Section T.
Context (f : entry -> result (option wave)).
Let g := fun e => do w <- f e; Ok (match w with Some w => [(e_id e, w)] | None => [] end).
Lemma g_inv e x : g e = Ok x -> exists ow, f e = Ok ow /\ x = match ow with Some w => [(e_id e, w)] | None => [] end.
Proof. unfold g. intros h. apply bind_Ok in h. destruct h as (ow & h1 & h2). injection h2 as <-. eauto. Qed.
Lemma mapM_cons_inv {A B} (k : A -> result B) x l ys : mapM k (x :: l) = Ok ys -> exists y ys', k x = Ok y /\ mapM k l = Ok ys' /\ ys = y :: ys'.
Proof. cbn [mapM]. intros h. apply bind_Ok in h. destruct h as (y & h1 & h). apply bind_Ok in h. destruct h as (ys' & h2 & h). injection h as <-. eauto. Qed.
Lemma table_keys l : forall ws id, mapM g l = Ok ws -> In id (map fst (List.concat ws)) -> In id (map e_id l).
Proof. induction l as [|e l IH]; intros ws id h hi; [injection h as <-; destruct hi|]. apply mapM_cons_inv in h. destruct h as (y & ys & h1 & h2 & ->). cbn [List.concat] in hi. rewrite map_app in hi. apply in_app_or in hi. destruct hi as [hi|hi]; [|right; eapply IH; eauto].
  apply g_inv in h1. destruct h1 as (ow & _ & ->). destruct ow as [w|]; [destruct hi as [hi|[]]; left; exact hi|destruct hi]. Qed.
Lemma table_get l : forall ws, mapM g l = Ok ws -> NoDup (map e_id l) -> forall e, In e l -> exists ow, f e = Ok ow /\ last_get (List.concat ws) (e_id e) = ow.
Proof. induction l as [|x l IH]; intros ws h nd e hi; [destruct hi|]. apply mapM_cons_inv in h. destruct h as (y & ys & h1 & h2 & ->). cbn [map] in nd. inversion nd as [|? ? n1 n2]; subst. cbn [List.concat]. apply g_inv in h1. destruct h1 as (ow & h1 & ->). destruct hi as [->|hi].
  - exists ow. split; [exact h1|]. rewrite last_get_app. rewrite last_get_none; [|intros hh; apply n1; eapply table_keys; eauto]. destruct ow as [w|]; cbn [last_get]; [now rewrite String.eqb_refl|reflexivity].
  - destruct (IH _ h2 n2 e hi) as (ow' & h3 & h4). exists ow'. split; [exact h3|]. rewrite last_get_app, h4. destruct ow' as [w|]; [reflexivity|]. destruct ow as [w|]; [|reflexivity]. cbn [last_get]. destruct (String.eqb_spec (e_id e) (e_id x)) as [q|_]; [|reflexivity]. exfalso. apply n1. rewrite <- q. now apply in_map. Qed.
End T.

Definition has_port (e : entry) : bool := match r_port (e_row e) with Some _ => true | None => false end.
Lemma nodup_filter_map {A B} (g : A -> B) p l : NoDup (map g l) -> NoDup (map g (filter p l)).
Proof. induction l as [|x l IH]; cbn; [constructor|]. intros h. inversion h as [|? ? h1 h2]; subst. destruct (p x); cbn; [constructor; [|auto]|auto]. intros hi. apply h1. apply in_map_iff in hi. destruct hi as (y & e & hy). apply filter_In in hy. rewrite <- e. apply in_map, hy. Qed.
(** What the table holds for the id of an entry is what was computed for the first entry with that id. *)
Lemma waveform_table_get l ops devs wf : waveform_table l ops devs = Ok wf -> forall e e', In e l -> first_with (e_id e) l = Some e' -> has_port e' = true -> exists ow, wave_of ops devs e' = Ok ow /\ last_get wf (e_id e) = ow.
Proof. intros h e e' hi hf hp. unfold waveform_table in h. inv h. injection h as <-. destruct (dd_first l [] e hi (fun x => x)) as (e1 & h1 & h2 & h3). rewrite h1 in hf. injection hf as ->. rewrite <- h3. eapply table_get with (f := wave_of ops devs); [exact H|apply nodup_filter_map, dd_nodup|]. apply filter_In. split; [exact h2|exact hp]. Qed.
Lemma first_with_id id l e : first_with id l = Some e -> e_id e = id /\ In e l.
Proof. unfold first_with. intros h. apply find_some in h. destruct h as [a b]. apply String.eqb_eq in b. auto. Qed.

(** * One AWG of an HDAWG *)

Definition played (wf : list (string * wave)) (i : instruction) : event := match last_get wf (id_of i) with Some w => Plays w | None => Undefined end.
Lemma flat_map_single {A B} (f : A -> list B) (g : A -> B) l : (forall x, In x l -> f x = [g x]) -> flat_map f l = map g l.
Proof. induction l as [|x l IH]; intros h; [reflexivity|]. cbn. rewrite (h x (or_introl eq_refl)). cbn. f_equal. apply IH. intros y hy. apply h. now right. Qed.
Arguments set_trigger_clocks : simpl never.
Lemma trigger_start markers trigger x : (match markers, trigger with
              | _ :: _, _ => do names <- marker_names markers; Ok (SetTrigger (TriggerNames names), set_trigger_clocks (TriggerNames names))
              | [], Some t => if (t =? 1)%Z || (t =? 2)%Z then Ok (WaitDigTrigger t, 0%Z) else Err AssertionErr
              | [], None => let v := TriggerNames ["AWG_MARKER1"; "AWG_MARKER2"]%string in Ok (SetTrigger v, set_trigger_clocks v)
              end = Ok x) ->
  clocks Hdawg (fst x) = snd x /\ (forall nm a, effect nm a (fst x) = []) /\ (forall n, fst x <> Wait n) /\
  snd x = match markers, trigger with _ :: _, _ => Z.min (Z.of_nat (List.length markers)) 3 | [], Some _ => 0 | [], None => 2 end.
Proof. assert (L : forall l names, marker_names l = Ok names -> List.length names = List.length l).
  { induction l as [|y l IH]; intros names h; [injection h as <-; reflexivity|]. unfold marker_names in *. cbn [mapM] in h. inv h. inv h. injection h as <-. cbn. f_equal. now apply IH. }
  destruct markers as [|mk l]; [destruct trigger as [t|]|].
  - destruct (_ || _); [|discriminate]. intros [= <-]. repeat split; discriminate.
  - intros [= <-]. repeat split; discriminate.
  - intros h. inv h. injection h as <-. apply L in H. cbv beta iota delta [fst snd clocks set_trigger_clocks]. rewrite H. assert (1 <= Z.of_nat (List.length (mk :: l))) by (cbn [List.length]; lia). revert H0. generalize (Z.of_nat (List.length (mk :: l))). intros z hz. repeat split; try discriminate; lia. Qed.

Lemma assemble_hdawg_ok is_ ids wf reps dur markers trigger p t idlist nm n : assemble_hdawg is_ ids wf reps dur markers trigger = Ok (p, t) -> ids = idm 0 idlist -> NoDup idlist ->
  let a := {| a_index := n; a_program := p; a_table := t; a_waves := wave_nodes ids wf |} in
  let start := match markers, trigger with _ :: _, _ => Z.min (Z.of_nat (List.length markers)) 3 | [], Some _ => 0 | [], None => 2 end in
  fst (run Hdawg (effect nm a) 0 (p_body p)) = map (fun i => (clock_of i, played wf i)) is_
  /\ well_formed (p_body p) /\ p_repetitions p = reps /\ p_before p = [SetTrigger (TriggerNumber 0)]
  /\ spaced start is_ /\ forallb plays is_ = true
  /\ (trigger = None -> snd (run Hdawg (effect nm a) 0 (p_body p)) = py_int (dur * 300000000) /\ last_clock start is_ + 4 <= py_int (dur * 300000000))
  /\ (trigger <> None -> snd (run Hdawg (effect nm a) 0 (p_body p)) = last_clock start is_ + 1)
  /\ (forall i, In i is_ -> exists w, last_get wf (id_of i) = Some w).
Proof.
  intros h -> nd a start. unfold assemble_hdawg in h. apply bind_Ok in h. destruct h as (lens & hl & h). apply bind_Ok in h. destruct h as (st & hs & h). apply bind_Ok in h. destruct h as ([bd e] & hb & h). cbn [fst snd] in h. apply bind_Ok in h. destruct h as (tl & ht & h). injection h as hp htab. destruct (trigger_start _ _ _ hs) as (c1 & c2 & c3 & c4). fold start in c4.
  destruct (lens_ok wf idlist 0 lens hl) as (ll & lk).
  assert (HW : forall m, effect nm a (Wait m) = []) by reflexivity.
  destruct (hdawg_ok (effect nm a) _ _ _ _ _ hb HW) as (r & el & sp & wfm & pl & fo). rewrite c4 in *.
  assert (E : flat_map (fun i => match sget (idm 0 idlist) (id_of i) with Some n0 => map (fun v => (clock_of i, v)) (effect nm a (ExecuteTableEntry n0)) | None => [] end) is_ = map (fun i => (clock_of i, played wf i)) is_ /\ (forall i, In i is_ -> exists w, last_get wf (id_of i) = Some w)).
  { assert (Q : forall i, In i is_ -> exists w k, sget (idm 0 idlist) (id_of i) = Some k /\ last_get wf (id_of i) = Some w /\ effect nm a (ExecuteTableEntry k) = [Plays w]).
    { intros i hi. rewrite Forall_forall in fo. specialize (fo i hi). destruct (sget (idm 0 idlist) (id_of i)) as [k|] eqn:sg; [|contradiction]. destruct (sget_idm_inv _ _ _ _ sg) as (k' & nk & ->). cbn [Nat.add] in *. destruct (lk k' _ nk) as (w & w1 & w2 & w3). exists w, k'. split; [reflexivity|]. split; [exact w1|]. cbn [effect a a_table a_waves a_program]. rewrite <- htab, <- hp. cbn [p_placeholders]. rewrite (look_table lens 0 k' _ w2 : look _ k' = _). cbn [Nat.add] in *. rewrite (look_nodes wf idlist 0 k' _ w nk w1 : look (wave_nodes (idm 0 idlist) wf) k' = Some w), w3, Z.eqb_refl. reflexivity. }
    split; [|intros i hi; destruct (Q i hi) as (w & k & _ & q & _); eauto]. apply flat_map_single. intros i hi. destruct (Q i hi) as (w & k & q1 & q2 & q3). rewrite q1, q3. unfold played. now rewrite q2. }
  destruct E as [E EL].
  assert (HB : p_body p = fst st :: bd ++ SetTrigger (TriggerNumber 0) :: tl) by (rewrite <- hp; reflexivity).
  assert (R : run Hdawg (effect nm a) 0 (p_body p) = (map (fun i => (clock_of i, played wf i)) is_, e + 1 + fold_right (fun s m => clocks Hdawg s + m) 0 tl)).
  { rewrite HB. cbn [run]. rewrite c1, c2. cbn [map app]. replace (0 + start) with start by lia. rewrite run_app, r. cbn [fst snd]. rewrite E. cbn [run effect map app clocks].
    assert (TL : fst (run Hdawg (effect nm a) (e + 1) tl) = []). { destruct trigger; [injection ht as <-; reflexivity|]. inv ht. injection ht as <-. unfold add_wait_hdawg in H. destruct (_ <? 0); [discriminate|]. destruct (_ <? 0); [discriminate|]. injection H as <-. reflexivity. }
    pose proof (run_snd Hdawg (effect nm a) tl (e + 1)) as RS. destruct (run Hdawg (effect nm a) (e + 1) tl) as [x1 x2]. cbn [fst snd] in *. rewrite TL, app_nil_r. now rewrite RS. }
  rewrite R. cbn [fst snd]. split; [reflexivity|].
  assert (WT : well_formed tl). { destruct trigger; [injection ht as <-; intros m []|]. inv ht. injection ht as <-. unfold add_wait_hdawg in H. destruct (_ <? 0); [discriminate|]. destruct (Z.ltb_spec (py_int (dur * 300000000) - (e + set_trigger_clocks (TriggerNumber 0)) - 3) 0) as [L|L]; [discriminate|]. injection H as <-. intros m [hm|[]]. injection hm as <-. cbn [fst] in *. lia. }
  split; [rewrite HB; intros m [hm|hm]; [exfalso; eapply c3; eauto|]; apply in_app_or in hm; destruct hm as [hm|[hm|hm]]; [apply wfm, hm|discriminate|apply WT, hm]|].
  split; [now rewrite <- hp|]. split; [now rewrite <- hp|]. split; [exact sp|]. split; [exact pl|]. split; [|split; [|exact EL]].
  - intros ->. apply bind_Ok in ht. destruct ht as (w & hw & ht). injection ht as <-. unfold add_wait_hdawg in hw. change (set_trigger_clocks (TriggerNumber 0)) with 1 in hw. destruct (Z.ltb_spec (py_int (dur * 300000000) - (e + 1)) 0) as [L0|L0]; [discriminate|]. destruct (Z.ltb_spec (py_int (dur * 300000000) - (e + 1) - 3) 0) as [L|L]; [discriminate|]. injection hw as <-. cbn [fold_right fst clocks]. subst e. lia.
  - intros nt. destruct trigger; [|contradiction]. injection ht as <-. cbn. subst e. lia. Qed.

Lemma assemble_uhfqa_ok is_ ids wf reps nm trigger p idlist n : assemble_uhfqa is_ ids reps nm trigger = Ok p -> ids = idm 0 idlist -> NoDup idlist ->
  let a := {| a_index := n; a_program := p; a_table := []; a_waves := wave_nodes ids wf |} in
  fst (run Uhfqa (effect nm a) 0 (p_body p)) = map (fun i => (clock_of i, match i with Acquisition _ _ => Acquires | Wave _ _ => played wf i end)) is_
  /\ well_formed (p_body p) /\ p_repetitions p = reps /\ p_before p = [] /\ ready 0 is_ /\ exists t body, trigger = Some t /\ 1 <= t <= 4 /\ p_body p = WaitDigTrigger t :: body /\ Forall (fun s => forall u, s <> WaitDigTrigger u) body.
Proof. intros h -> nd a. unfold assemble_uhfqa in h. destruct trigger as [t|]; [|discriminate]. destruct ((t <? 5)%Z && (0 <? t)%Z) eqn:ht; [cbn [negb] in h|discriminate]. apply bind_Ok in h. destruct h as (body & hb & h). injection h as hp. apply andb_true_iff in ht. destruct ht as [t1 t2]. apply Z.ltb_lt in t1, t2.
  assert (HW : forall m, effect nm a (Wait m) = []) by reflexivity.
  destruct (uhfqa_ok (effect nm a) _ _ _ _ hb HW) as (r & rd & wfm & fo).
  assert (HB : p_body p = WaitDigTrigger t :: body) by (rewrite <- hp; reflexivity).
  split; [|split; [|split; [now rewrite <- hp|split; [now rewrite <- hp|split; [exact rd|]]]]].
  - rewrite HB. cbn [run clocks effect]. replace (0 + 0) with 0 by lia. destruct (run Uhfqa (effect nm a) 0 body) as [x1 x2] eqn:RB. cbn [fst map app] in *. rewrite r. apply flat_map_single. intros i hi. destruct i as [id c|id c]; [reflexivity|]. cbn [id_of clock_of].
    rewrite Forall_forall in fo. specialize (fo _ hi eq_refl). cbn [id_of] in fo. destruct (sget (idm 0 idlist) id) as [k|] eqn:sg; [|contradiction]. destruct (sget_idm_inv _ _ _ _ sg) as (k' & nk & ->). cbn [Nat.add] in *.
    cbn [effect a a_program a_waves]. rewrite <- hp. cbn [p_csv]. rewrite (look_csv nm idlist 0 k' id nk : look _ k' = _). cbn [Nat.add]. rewrite String.eqb_refl. unfold played. cbn [id_of]. destruct (last_get wf id) as [w|] eqn:lw.
    + now rewrite (look_nodes wf idlist 0 k' id w nk lw : look (wave_nodes (idm 0 idlist) wf) k' = Some w).
    + (* no waveform of that index *) assert (NN : forall ids0 b k id0, nth_error ids0 k = Some id0 -> last_get wf id0 = None -> look (wave_nodes (idm b ids0) wf) (b + k) = None).
      { assert (LT : forall ids0 b m, (m < b)%nat -> look (wave_nodes (idm b ids0) wf) m = None).
        { induction ids0 as [|x ids0 IH]; intros b m hm; [reflexivity|]. rewrite idm_cons. unfold wave_nodes. cbn [flat_map]. specialize (IH (S b) m ltac:(lia)). destruct (last_get wf x); cbn [app]; [|exact IH]. rewrite look_cons. cbn [fst]. destruct (Nat.eqb_spec b m); [lia|exact IH]. }
        induction ids0 as [|x ids0 IH]; intros b k id0 hk hn; [destruct k; discriminate|]. rewrite idm_cons. unfold wave_nodes. cbn [flat_map]. destruct k as [|k]; cbn in hk.
        - injection hk as ->. rewrite hn. cbn [app]. apply LT. lia.
        - specialize (IH (S b) k id0 hk hn). replace (b + S k)%nat with (S b + k)%nat by lia. destruct (last_get wf x); cbn [app]; [|exact IH]. rewrite look_cons. cbn [fst]. destruct (Nat.eqb_spec b (S b + k)); [lia|exact IH]. }
      now rewrite (NN idlist 0%nat k' id nk lw : look _ k' = None).
  - rewrite HB. intros m [hm|hm]; [discriminate|apply wfm, hm].
  - exists t, body. split; [reflexivity|]. split; [lia|]. split; [exact HB|]. clear -hb. revert body hb. generalize 0 at 1. induction is_ as [|i is_ IH]; intros z body hb; cbn [uhfqa_instructions] in hb; [injection hb as <-; constructor|]. destruct (_ <? 0) in hb; [discriminate|]. inv hb. unfold add_wait_uhfqa in H. destruct (_ <? 0) in H; [discriminate|]. injection H as <-. destruct i as [id c|id c].
    + inv hb. injection hb as <-. constructor; [discriminate|]. constructor; [discriminate|]. eapply IH; eauto.
    + destruct (sget _ id); [|discriminate]. inv hb. injection hb as <-. constructor; [discriminate|]. constructor; [discriminate|]. eapply IH; eauto. Qed.
