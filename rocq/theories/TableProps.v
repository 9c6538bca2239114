(** C09: the timing table lists every loop iteration exactly once at the right time. *)
From Verif Require Import Base QSort TableModel.
From Coq Require Import List Permutation.
Open Scope Q_scope.

(** ** Specification: executions *)
(** One execution of one pulse or acquisition is identified by a path into the schedule: which schedulable of each (sub-)schedule, which iteration of each loop, which entry of the pulse_info followed by the acquisition_info.
    [execution o t id p]: the row that execution must have if [o] starts at time [t]; None if there is no such execution. *)
Fixpoint execution (o : op) (t : Q) (id : option Z) (p : list nat) {struct o} : option row :=
  match o with
  | Leaf ps qs => match p with
                  | [k] => match nth_error (ps ++ qs) k with
                           | Some x => Some {| abs_time := t + t0 x; r_duration := dur x; r_is_acq := is_acq x; wf_idx := if (k <? length ps)%nat then k else (k - length ps)%nat; operation_hash := id; r_what := what x |}
                           | None => None
                           end
                  | _ => None
                  end
  | Loop b n _ => match p, duration b with
                  | i :: p', Ok d => if (Z.of_nat i <? n)%Z then execution b (t + inject_Z (Z.of_nat i) * d) id p' else None
                  | _, _ => None
                  end
  | Cond b _ _ => execution b t id p
  | Sub items _ _ => match p with
                     | k :: p' => (fix pick (l : list (option Q * Z * op)) (k : nat) : option row :=
                                     match l, k with
                                     | (Some a, h, x) :: _, O => execution x (t + a) (Some h) p'
                                     | _ :: r, S k => pick r k
                                     | _, _ => None
                                     end) items k
                     | [] => None
                     end
  end.

(** ** Induction over nested schedules *)
Lemma op_nested (P : op -> Prop) : (forall ps qs, P (Leaf ps qs)) -> (forall b n t, P b -> P (Loop b n t)) -> (forall b t u, P b -> P (Cond b t u)) ->
  (forall items n c, Forall (fun x => P (snd x)) items -> P (Sub items n c)) -> forall o, P o.
Proof.
  intros H1 H2 H3 H4. fix IH 1. intros [ps qs|b n t|b t u|items n c]; [apply H1|apply H2, IH|apply H3, IH|]. apply H4. induction items as [|x l IHl]; constructor; [apply IH|exact IHl].
Qed.
(** list view of the schedulables of [execution] and [generate] *)
Definition item_execution (t : Q) (items : list (option Q * Z * op)) (k : nat) (p : list nat) : option row :=
  match nth_error items k with Some (Some a, h, x) => execution x (t + a) (Some h) p | _ => None end.
Lemma execution_sub items n c t id p : execution (Sub items n c) t id p = match p with [] => None | k :: p' => item_execution t items k p' end.
Proof.
  cbn [execution]. destruct p as [|k p']; [reflexivity|]. unfold item_execution. revert k. induction items as [|[[a h] x] l IH]; intros k; [destruct k; reflexivity|]. destruct k as [|k]; [destruct a; reflexivity|]. cbn [nth_error]. rewrite <- IH. destruct a; reflexivity.
Qed.
Fixpoint generate_items (t : Q) (l : list (option Q * Z * op)) : result (list row) :=
  match l with [] => Ok [] | (a, h, x) :: r => match a with None => Err ValueError | Some u => do rs <- generate x (t + u) (Some h); do rest <- generate_items t r; Ok (rs ++ rest) end end.
Lemma generate_sub items n c t id : generate (Sub items n c) t id = generate_items t items.
Proof. cbn [generate]. induction items as [|[[a h] x] l IH]; [reflexivity|]. cbn [generate_items]. destruct a as [u|]; [|reflexivity]. rewrite <- IH. reflexivity. Qed.

(** ** Lists of paths *)
Definition lists (f : list nat -> option row) (rs : list row) (ps : list (list nat)) : Prop := NoDup ps /\ (forall p, In p ps <-> exists x, f p = Some x) /\ map f ps = map Some rs.
Lemma combine_paths (f : nat -> list nat -> option row) : forall ks rs, NoDup ks -> Forall2 (fun k r => exists ps, lists (f k) r ps) ks rs ->
  exists ps, NoDup ps /\ (forall p, In p ps <-> exists k p' x, p = k :: p' /\ In k ks /\ f k p' = Some x) /\ map (fun p => match p with k :: p' => f k p' | [] => None end) ps = map Some (List.concat rs).
Proof.
  induction ks as [|k ks IH]; intros rs Hn H; inversion H as [|? r ? rs' Hk Hrs]; subst.
  - exists []. split; [constructor|]. split; [|reflexivity]. intros p. split; [intros []|intros (k & p' & x & _ & [] & _)].
  - inversion Hn as [|? ? Hnot Hn']; subst. destruct (IH rs' Hn' Hrs) as (ps2 & N2 & I2 & M2). destruct Hk as (ps1 & N1 & I1 & M1). exists (map (cons k) ps1 ++ ps2). split; [|split].
    + assert (G : forall l, NoDup l -> NoDup (map (cons k) l)). { induction 1 as [|a l Ha Hl IHl]; cbn; constructor; [|exact IHl]. intros Hi. apply in_map_iff in Hi. destruct Hi as (b & [= ->] & Hb). auto. }
      specialize (G ps1 N1). assert (D : forall p, In p (map (cons k) ps1) -> ~ In p ps2). { intros p Hp Hq. apply in_map_iff in Hp. destruct Hp as (b & <- & _). apply I2 in Hq. destruct Hq as (k' & p' & x & [= <- <-] & Hk & _). auto. }
      clear - G N2 D. induction (map (cons k) ps1) as [|p l IHl]; [exact N2|]. inversion G; subst. cbn. constructor; [rewrite in_app_iff; intros [Hi|Hi]; [auto|eapply D; [left; reflexivity|exact Hi]]|]. apply IHl; [assumption|]. intros q Hq. apply D. right. exact Hq.
    + intros p. rewrite in_app_iff, in_map_iff, I2. split.
      * intros [(b & <- & Hb)|(k' & p' & x & -> & Hi & E)]; [apply I1 in Hb; destruct Hb as [x Hx]; exists k, b, x; repeat split; [left; reflexivity|exact Hx]|exists k', p', x; repeat split; [right; exact Hi|exact E]].
      * intros (k' & p' & x & -> & [<-|Hi] & E); [left; exists p'; split; [reflexivity|]; apply I1; eauto|right; exists k', p', x; auto].
    + rewrite map_app, map_map. cbn beta iota. change (map (fun x : list nat => f k x) ps1) with (map (f k) ps1). rewrite M1, M2. cbn [List.concat]. rewrite map_app. reflexivity.
Qed.
Lemma leaf_rows_nth l t id k : nth_error (leaf_rows l t id) k = match nth_error l k with Some x => Some {| abs_time := t + t0 x; r_duration := dur x; r_is_acq := is_acq x; wf_idx := k; operation_hash := id; r_what := what x |} | None => None end.
Proof.
  unfold leaf_rows. assert (G : forall (l : list info) s k, nth_error (combine (seq s (length l)) l) k = match nth_error l k with Some x => Some ((s + k)%nat, x) | None => None end).
  { clear. induction l as [|x l IH]; intros s k; [destruct k; reflexivity|]. cbn [length seq combine]. destruct k as [|k]; cbn [nth_error]; [rewrite Nat.add_0_r; reflexivity|]. rewrite IH. replace (S s + k)%nat with (s + S k)%nat by lia. reflexivity. }
  rewrite nth_error_map, G. destruct (nth_error l k); reflexivity.
Qed.
Lemma leaf_rows_length l t id : length (leaf_rows l t id) = length l.
Proof. unfold leaf_rows. rewrite map_length, combine_length, seq_length. apply Nat.min_id. Qed.
(** every row of [generate] is one execution, in a fixed order *)
Lemma generate_lists : forall o t id rs, generate o t id = Ok rs -> exists ps, lists (execution o t id) rs ps.
Proof.
  induction o as [ps qs|b n t1 IH|b t1 u IH|items n c IH] using op_nested; intros t id rs E.
  - cbn [generate] in E. injection E as <-. exists (map (fun k => [k]) (seq 0 (length (ps ++ qs)))). split; [|split].
    + generalize 0%nat. induction (length (ps ++ qs)) as [|m IHm]; intros s; cbn; constructor; [|apply IHm]. rewrite in_map_iff. intros (x & [= ->] & Hx). apply in_seq in Hx. lia.
    + intros p. rewrite in_map_iff. split.
      * intros (k & <- & Hk). apply in_seq in Hk. cbn [execution]. destruct (nth_error (ps ++ qs) k) eqn:En; [eauto|]. apply nth_error_None in En. lia.
      * intros (x & Hx). destruct p as [|k [|? ?]]; cbn [execution] in Hx; try discriminate. exists k. split; [reflexivity|]. apply in_seq. split; [lia|]. cbn. apply nth_error_Some. destruct (nth_error (ps ++ qs) k); [discriminate|congruence].
    + rewrite map_map. assert (G : forall k, (k < length (ps ++ qs))%nat -> execution (Leaf ps qs) t id [k] = nth_error (leaf_rows ps t id ++ leaf_rows qs t id) k).
      { intros k Hk. cbn [execution]. destruct (Nat.ltb_spec k (length ps)) as [Hl|Hl].
        - rewrite !nth_error_app1 by (rewrite ?leaf_rows_length; exact Hl). rewrite leaf_rows_nth. destruct (nth_error ps k); reflexivity.
        - rewrite !nth_error_app2 by (rewrite ?leaf_rows_length; exact Hl). rewrite leaf_rows_length, leaf_rows_nth. destruct (nth_error qs (k - length ps)); reflexivity. }
      transitivity (map (nth_error (leaf_rows ps t id ++ leaf_rows qs t id)) (seq 0 (length (ps ++ qs)))). { apply map_ext_in. intros k Hk. apply G. apply in_seq in Hk. lia. }
      replace (length (ps ++ qs)) with (length (leaf_rows ps t id ++ leaf_rows qs t id)) by (rewrite !app_length, !leaf_rows_length; reflexivity). generalize (leaf_rows ps t id ++ leaf_rows qs t id). clear.
      induction l as [|x l IHl]; [reflexivity|]. cbn [length seq map nth_error]. f_equal. rewrite <- IHl, <- seq_shift, map_map. reflexivity.
  - cbn [generate] in E. destruct (mapM _ _) as [ls|e] eqn:Em; [|discriminate]. cbn [bind] in E. injection E as <-.
    assert (Hf : Forall2 (fun i r => exists ps, lists (fun p => execution (Loop b n t1) t id (i :: p)) r ps) (seq 0 (Z.to_nat n)) ls).
    { assert (Hin : forall i, In i (seq 0 (Z.to_nat n)) -> (Z.of_nat i <? n)%Z = true) by (intros i Hi; apply in_seq in Hi; apply Z.ltb_lt; lia). revert ls Em Hin. generalize (seq 0 (Z.to_nat n)). induction l as [|i l IHl]; intros ls Em Hin; cbn [mapM] in Em; [injection Em as <-; constructor|].
      destruct (duration b) as [d|] eqn:Ed; [|discriminate]. cbn [bind] in Em. destruct (generate b _ id) as [r|] eqn:Eg; [|discriminate]. cbn [bind] in Em. destruct (mapM _ l) as [ls'|] eqn:El; [|discriminate]. cbn [bind] in Em. injection Em as <-.
      constructor; [|apply IHl; [reflexivity|intros j Hj; apply Hin; right; exact Hj]]. destruct (IH _ _ _ Eg) as [ps Hps]. exists ps. cbn [execution]. rewrite Ed, (Hin i (or_introl eq_refl)). exact Hps. }
    destruct (combine_paths (fun i p => execution (Loop b n t1) t id (i :: p)) _ _ (seq_NoDup _ _) Hf) as (ps & N & I & M). exists ps. split; [exact N|]. split.
    + intros p. rewrite I. split; [intros (k & p' & x & -> & _ & Hx); eauto|]. intros (x & Hx). destruct p as [|i p']; [discriminate|]. exists i, p', x. split; [reflexivity|]. split; [|exact Hx]. cbn [execution] in Hx. destruct (duration b); [|discriminate]. destruct (Z.ltb_spec (Z.of_nat i) n); [|discriminate]. apply in_seq. lia.
    + rewrite <- M. apply map_ext. intros [|i p]; reflexivity.
  - cbn [generate] in E. destruct (IH _ _ _ E) as [ps Hps]. exists ps. exact Hps.
  - rewrite generate_sub in E.
    assert (Hf : forall s l ls0, skipn s items = l -> Forall (fun x => forall t id rs, generate (snd x) t id = Ok rs -> exists ps, lists (execution (snd x) t id) rs ps) l -> generate_items t l = Ok ls0 ->
      exists ls, List.concat ls = ls0 /\ Forall2 (fun k r => exists ps, lists (item_execution t items k) r ps) (seq s (length l)) ls).
    { clear E rs. intros s l. revert s. induction l as [|[[a h] x] l IHl]; intros s ls0 Es IHf Eg; cbn [generate_items] in Eg; [injection Eg as <-; exists []; split; [reflexivity|constructor]|].
      destruct a as [u|]; [|discriminate]. destruct (generate x (t + u) (Some h)) as [r|] eqn:Ex; [|discriminate]. cbn [bind] in Eg. destruct (generate_items t l) as [rest|] eqn:Er; [|discriminate]. cbn [bind] in Eg. injection Eg as <-. inversion IHf as [|? ? Hx Hl]; subst. cbn [snd] in Hx.
      assert (Es' : skipn (S s) items = l). { clear - Es. revert s Es. induction items as [|y items IHi]; intros s Es; [destruct s; discriminate|]. destruct s; [cbn in Es; injection Es as _ ->; reflexivity|]. cbn [skipn] in Es |- *. apply IHi, Es. }
      destruct (IHl (S s) rest Es' Hl eq_refl) as (ls & Ec & F2). exists (r :: ls). split; [cbn; rewrite Ec; reflexivity|]. cbn [length seq]. constructor; [|exact F2]. destruct (Hx _ _ _ Ex) as [ps Hps]. exists ps.
      assert (En : nth_error items s = Some (Some u, h, x)). { clear - Es. revert s Es. induction items as [|y items IHi]; intros s Es; [destruct s; discriminate|]. destruct s; [cbn in Es; injection Es as -> _; reflexivity|]. cbn. apply IHi, Es. }
      unfold item_execution. rewrite En. exact Hps. }
    destruct (Hf 0%nat items rs eq_refl IH E) as (ls & <- & F2). destruct (combine_paths (item_execution t items) _ _ (seq_NoDup _ _) F2) as (ps & N & I & M). exists ps. split; [exact N|]. split.
    + intros p. rewrite I, execution_sub. split; [intros (k & p' & x & -> & _ & Hx); eauto|]. intros (x & Hx). destruct p as [|k p']; [discriminate|]. exists k, p', x. split; [reflexivity|]. split; [|exact Hx]. apply in_seq. split; [lia|]. cbn. apply nth_error_Some. unfold item_execution in Hx. destruct (nth_error items k); [discriminate|discriminate].
    + rewrite <- M. apply map_ext. intros p. apply execution_sub.
Qed.
Lemma insertq_perm {A} (key : A -> Q) x l : Permutation (insertq key x l) (x :: l).
Proof. induction l as [|y l IH]; cbn [insertq]; [reflexivity|]. destruct (Qle_bool _ _); [reflexivity|]. rewrite IH. apply perm_swap. Qed.
Lemma sortq_perm {A} (key : A -> Q) l : Permutation (sortq key l) l.
Proof. induction l as [|x l IH]; [reflexivity|]. rewrite sortq_cons, insertq_perm, IH. reflexivity. Qed.

(** ** C09. The rows of the table are, ordered by time, exactly one row for each execution, with the time and the contents of that execution. *)
Theorem C09_table : forall o rows, timing_table o = Ok rows ->
  (exists ps, NoDup ps /\ (forall p, In p ps <-> execution o 0 None p <> None) /\ Permutation (map Some rows) (map (execution o 0 None) ps)) /\
  (forall l1 a l2 b l3, rows = l1 ++ a :: l2 ++ b :: l3 -> abs_time a <= abs_time b).
Proof.
  intros o rows E. unfold timing_table in E. destruct (generate o 0 None) as [rs|] eqn:Eg; [|discriminate]. cbn [bind] in E. destruct (generate_lists _ _ _ _ Eg) as (ps & N & I & M). assert (Er : rows = sortq abs_time rs) by (destruct rs; [discriminate|injection E as <-; reflexivity]). clear E. split.
  - exists ps. split; [exact N|]. split; [intros p; rewrite I; destruct (execution o 0 None p); split; [discriminate|eauto|intros [x [=]]|congruence]|]. rewrite M. apply Permutation_map. rewrite Er. apply sortq_perm.
  - intros l1 a l2 b l3 Eq. pose proof (sortq_srt abs_time rs) as S. rewrite <- Er, Eq in S. apply srtq_app in S. destruct S as [_ [S _]]. cbn [srtq] in S. destruct S as [S _]. apply (proj1 (Forall_forall _ _) S). apply in_or_app. right. left. reflexivity.
Qed.

(** The table exists for every schedule in which all reachable schedulables have a time (loops that never run do not count) and something is played; without times it raises ValueError. *)
Fixpoint timed (o : op) : Prop :=
  match o with
  | Leaf _ _ => True
  | Loop b n _ => (0 < n)%Z -> timed b /\ is_ok (duration b)
  | Cond b _ _ => timed b
  | Sub items _ _ => (fix all (l : list (option Q * Z * op)) : Prop := match l with [] => True | (a, _, x) :: r => (exists u, a = Some u) /\ timed x /\ all r end) items
  end.
Lemma timed_generate : forall o t id, timed o -> exists rs, generate o t id = Ok rs.
Proof.
  induction o as [ps qs|b n t1 IH|b t1 u IH|items n c IH] using op_nested; intros t id H.
  - eexists; reflexivity.
  - cbn [timed] in H. cbn [generate]. assert (G : forall l, ((0 < n)%Z \/ l = []) -> exists ls, mapM (fun i => do d <- duration b; generate b (t + inject_Z (Z.of_nat i) * d) id) l = Ok ls).
    { induction l as [|i l IHl]; intros Hn; [eexists; reflexivity|]. destruct Hn as [Hn|[=]]. destruct (H Hn) as [Ht [d Hd]]. cbn [mapM]. destruct (IH (t + inject_Z (Z.of_nat i) * d) id Ht) as [r Hr]. rewrite Hd. cbn [bind]. rewrite Hr. cbn [bind]. destruct (IHl (or_introl Hn)) as [ls Hls]. rewrite Hd in Hls. cbn [bind] in Hls. rewrite Hls. eexists; reflexivity. }
    destruct (G (seq 0 (Z.to_nat n))) as [ls ->]; [destruct (Z.ltb_spec 0 n); [left; assumption|right; replace (Z.to_nat n) with 0%nat by lia; reflexivity]|]. eexists; reflexivity.
  - apply IH, H.
  - rewrite generate_sub. cbn [timed] in H. induction items as [|[[a h] x] l IHl]; [eexists; reflexivity|]. destruct H as ([v ->] & Hx & Hl). inversion IH as [|? ? IHx IHf]; subst. cbn [generate_items]. destruct (IHx (t + v) (Some h) Hx) as [r Hr]. cbn [snd] in Hr. rewrite Hr. cbn [bind]. destruct (IHl IHf Hl) as [rest ->]. eexists; reflexivity.
Qed.
Theorem C09_exists : forall o p, timed o -> execution o 0 None p <> None -> exists rows, timing_table o = Ok rows.
Proof.
  intros o p Ht Hp. unfold timing_table. destruct (timed_generate o 0 None Ht) as [rs E]. rewrite E. cbn [bind]. destruct rs; [|eexists; reflexivity]. exfalso. destruct (generate_lists _ _ _ _ E) as (ps & _ & I & M). destruct ps; [|discriminate].
  destruct (execution o 0 None p) as [x|] eqn:Ex; [|congruence]. apply (proj2 (I p)). eauto.
Qed.
Theorem C09_untimed : forall items1 h x items2 n c, Forall (fun i => (exists u, fst (fst i) = Some u) /\ timed (snd i)) items1 -> timing_table (Sub (items1 ++ (None, h, x) :: items2) n c) = Err ValueError.
Proof.
  intros items1 h x items2 n c H. unfold timing_table. rewrite generate_sub. assert (G : generate_items 0 (items1 ++ (None, h, x) :: items2) = Err ValueError); [|rewrite G; reflexivity]. induction H as [|[[a h'] y] l [[u Hu] Hy] Hl IH]; [reflexivity|]. cbn [fst snd] in *. subst a. cbn [app generate_items]. destruct (timed_generate y (0 + u) (Some h') Hy) as [r ->]. cbn [bind]. rewrite IH. reflexivity.
Qed.

(** ** Everything an operation plays lies within its duration *)
(** schedules as the compiler leaves them: times not before the start of the schedule, durations up to date, positive repetitions *)
Fixpoint compiled (o : op) : Prop :=
  match o with
  | Leaf ps qs => Forall (fun x => 0 <= t0 x /\ 0 <= dur x) (ps ++ qs)
  | Loop b n _ => compiled b /\ (0 <= n)%Z
  | Cond b _ u => compiled b /\ 0 <= u
  | Sub items n c => (exists d, c = Some d /\ get_schedule_duration items n = Ok d) /\ (1 <= n)%Z /\
      (fix all (l : list (option Q * Z * op)) : Prop := match l with [] => True | (a, _, x) :: r => (forall u, a = Some u -> 0 <= u) /\ compiled x /\ all r end) items
  end.
Lemma Qlt_bool_iff a b : Qlt_bool a b = true <-> a < b.
Proof. unfold Qlt_bool. rewrite negb_true_iff. split; [intros H; destruct (Qlt_le_dec a b) as [L|L]; [exact L|apply Qle_bool_iff in L; congruence]|intros H; destruct (Qle_bool b a) eqn:E; [apply Qle_bool_iff in E; lra|reflexivity]]. Qed.
Lemma leaf_duration_ge l : forall x, In x l -> t0 x + dur x <= leaf_duration l.
Proof.
  unfold leaf_duration. intros x Hx. assert (Hm : In (t0 x + dur x) (map (fun i => t0 i + dur i) l)) by (apply in_map_iff; eauto). destruct (map (fun i => t0 i + dur i) l) as [|y r]; [destruct Hm|].
  assert (G : forall r y, y <= fold_left (fun a b => if Qlt_bool a b then b else a) r y /\ forall z, In z r -> z <= fold_left (fun a b => if Qlt_bool a b then b else a) r y).
  { clear. induction r as [|b r IH]; intros y; cbn [fold_left]; [split; [lra|intros ? []]|]. destruct (IH (if Qlt_bool y b then b else y)) as [I1 I2]. destruct (Qlt_bool y b) eqn:E; [apply Qlt_bool_iff in E|assert (b <= y) by (destruct (Qlt_le_dec y b) as [L|L]; [apply Qlt_bool_iff in L; congruence|exact L])]; (split; [lra|]); intros z [<-|Hz]; auto; lra. }
  destruct (G r y) as [G1 G2]. destruct Hm as [<-|Hm]; auto.
Qed.
Lemma get_duration_ge : forall items n d, get_schedule_duration items n = Ok d -> (1 <= n)%Z -> 0 <= d /\ forall a h x, In (a, h, x) items -> exists u e, a = Some u /\ duration x = Ok e /\ u + e <= d.
Proof.
  intros items n d E Hn. unfold get_schedule_duration in E. destruct (foldM _ items 0) as [m|] eqn:Em; [|discriminate]. cbn [bind] in E. injection E as <-.
  assert (G : forall items m0 m, foldM (fun m '(a, _, o) => match a with None => Err KeyError | Some t => do d <- duration o; Ok (if Qlt_bool (t + d) m then m else t + d) end) items m0 = Ok m -> m0 <= m /\ forall a (h : Z) x, In (a, h, x) items -> exists u e, a = Some u /\ duration x = Ok e /\ u + e <= m).
  { clear. induction items as [|[[a h] x] l IH]; intros m0 m; cbn [foldM]; [intros [= <-]; split; [lra|intros ? ? ? []]|]. destruct a as [u|]; [|discriminate]. destruct (duration x) as [e|] eqn:Ed; [|discriminate]. cbn [bind]. intros E. destruct (IH _ _ E) as [I1 I2].
    assert (Hc : m0 <= m /\ u + e <= m). { destruct (Qlt_bool (u + e) m0) eqn:Eb; [apply Qlt_bool_iff in Eb; lra|]. assert (m0 <= u + e) by (destruct (Qlt_le_dec (u + e) m0) as [L|L]; [apply Qlt_bool_iff in L; congruence|exact L]). lra. }
    split; [tauto|]. intros a' h' x' [[= <- <- <-]|Hi]; [exists u, e; tauto|apply I2 with h'; exact Hi]. }
  destruct (G _ _ _ Em) as [G1 G2]. assert (Hn' : 1 <= inject_Z n) by (change 1 with (inject_Z 1); rewrite <- Zle_Qle; exact Hn). assert (Hm : m <= m * inject_Z n) by nra. split; [nra|]. intros a h x Hi. destruct (G2 a h x Hi) as (u & e & -> & Ed & Hle). exists u, e. repeat split; [exact Ed|lra].
Qed.
Lemma compiled_nth : forall items n c, compiled (Sub items n c) -> forall k a h x, nth_error items k = Some (a, h, x) -> (forall u, a = Some u -> 0 <= u) /\ compiled x.
Proof.
  intros items n c (_ & _ & H). induction items as [|[[a0 h0] x0] l IH]; intros k a h x E; [destruct k; discriminate|]. destruct H as (H1 & H2 & H3). destruct k; cbn in E; [injection E as <- <- <-; auto|eapply IH; eassumption].
Qed.
Theorem C09_within : forall o, compiled o -> exists d, duration o = Ok d /\ 0 <= d /\ forall t id p r, execution o t id p = Some r -> t <= abs_time r /\ abs_time r + r_duration r <= t + d.
Proof.
  induction o as [ps qs|b n t1 IH|b t1 u IH|items n c IH] using op_nested; intros H.
  - cbn [compiled duration] in *. eexists. split; [reflexivity|]. split.
    + destruct (ps ++ qs) as [|x l]; [unfold leaf_duration; cbn; lra|]. pose proof (leaf_duration_ge (x :: l) x (or_introl eq_refl)) as G. inversion H as [|? ? [H1 H2] H3]; subst. lra.
    + intros t id p r E. cbn [execution] in E. destruct p as [|k [|? ?]]; try discriminate. destruct (nth_error (ps ++ qs) k) as [x|] eqn:En; [|discriminate]. injection E as <-. cbn [abs_time r_duration]. apply nth_error_In in En. pose proof (leaf_duration_ge _ _ En). apply (proj1 (Forall_forall _ _) H) in En. lra.
  - destruct H as [Hb Hn]. destruct (IH Hb) as (d & Ed & Hd & G). cbn [duration]. rewrite Ed. cbn [bind]. eexists. split; [reflexivity|]. assert (Hn' : 0 <= inject_Z n) by (change 0 with (inject_Z 0); rewrite <- Zle_Qle; exact Hn). split; [nra|].
    intros t id p r E. cbn [execution] in E. destruct p as [|i p']; [discriminate|]. rewrite Ed in E. destruct (Z.ltb_spec (Z.of_nat i) n) as [Hi|]; [|discriminate]. apply G in E.
    assert (Hi0 : 0 <= inject_Z (Z.of_nat i)) by (change 0 with (inject_Z 0); rewrite <- Zle_Qle; lia). assert (Hi1 : inject_Z (Z.of_nat i) + 1 <= inject_Z n) by (change 1 with (inject_Z 1); rewrite <- inject_Z_plus, <- Zle_Qle; lia). split; nra.
  - destruct H as [Hb Hu]. destruct (IH Hb) as (d & Ed & Hd & G). cbn [duration]. rewrite Ed. cbn [bind]. eexists. split; [reflexivity|]. split; [lra|]. intros t id p r E. cbn [execution] in E. apply G in E. lra.
  - pose proof (compiled_nth _ _ _ H) as Hx. destruct H as ((d & -> & Eg) & Hn & _). destruct (get_duration_ge _ _ _ Eg Hn) as [Hd Hge]. cbn [duration]. exists d. split; [reflexivity|]. split; [exact Hd|].
    intros t id p r E. rewrite execution_sub in E. destruct p as [|k p']; [discriminate|]. unfold item_execution in E. destruct (nth_error items k) as [[[a h] x]|] eqn:En; [|discriminate]. destruct a as [v|]; [|discriminate]. destruct (Hx _ _ _ _ En) as [Hv Hc]. specialize (Hv v eq_refl).
    pose proof (nth_error_In _ _ En) as Hin. destruct (Hge _ _ _ Hin) as (u' & e & [= <-] & Ee & Hle). pose proof (proj1 (Forall_forall _ _) IH _ Hin) as IHx. cbn [snd] in IHx. destruct (IHx Hc) as (d' & Ed' & _ & G). rewrite Ee in Ed'. injection Ed' as <-. apply G in E. lra.
Qed.
(** executions in different iterations of a loop do not overlap *)
Theorem C09_iterations_disjoint : forall b n tl t id i j p q r r', compiled b -> (i < j)%nat -> execution (Loop b n tl) t id (i :: p) = Some r -> execution (Loop b n tl) t id (j :: q) = Some r' -> abs_time r + r_duration r <= abs_time r'.
Proof.
  intros b n tl t id i j p q r r' Hc Hij E1 E2. destruct (C09_within b Hc) as (d & Ed & Hd & G). cbn [execution] in E1, E2. rewrite Ed in E1, E2. destruct (Z.of_nat i <? n)%Z; [|discriminate]. destruct (Z.of_nat j <? n)%Z; [|discriminate]. apply G in E1, E2.
  assert (inject_Z (Z.of_nat i) + 1 <= inject_Z (Z.of_nat j)) by (change 1 with (inject_Z 1); rewrite <- inject_Z_plus, <- Zle_Qle; lia). nra.
Qed.

(** get_schedule_duration is the number of repetitions times the time at which the last operation ends (0 for an empty schedule), for the durations of the operations as they are *)
Definition last_end (items : list (option Q * Z * op)) (m : Q) : Prop :=
  (forall a h x, In (a, h, x) items -> exists u d, a = Some u /\ duration x = Ok d /\ u + d <= m) /\ 0 <= m /\ (m == 0 \/ exists u h x d, In (Some u, h, x) items /\ duration x = Ok d /\ u + d == m).
Theorem C09_schedule_duration : forall items n d, get_schedule_duration items n = Ok d -> exists m, last_end items m /\ d == inject_Z n * m.
Proof.
  intros items n d E. unfold get_schedule_duration in E. destruct (foldM _ items 0) as [m|] eqn:Em; [|discriminate]. cbn [bind] in E. injection E as <-. exists m. split; [|ring].
  assert (G : forall items m0 m, 0 <= m0 -> foldM (fun m '(a, _, o) => match a with None => Err KeyError | Some t => do d <- duration o; Ok (if Qlt_bool (t + d) m then m else t + d) end) items m0 = Ok m ->
    (forall a (h : Z) x, In (a, h, x) items -> exists u d, a = Some u /\ duration x = Ok d /\ u + d <= m) /\ m0 <= m /\ (m == m0 \/ exists u h x d, In (Some u, h, x) items /\ duration x = Ok d /\ u + d == m)).
  { clear. induction items as [|[[a h] x] l IH]; intros m0 m H0; cbn [foldM]; [intros [= <-]; split; [intros ? ? ? []|split; [lra|left; reflexivity]]|]. destruct a as [u|]; [|discriminate]. destruct (duration x) as [e|] eqn:Ed; [|discriminate]. cbn [bind]. intros E.
    assert (Hc : 0 <= (if Qlt_bool (u + e) m0 then m0 else u + e) /\ m0 <= (if Qlt_bool (u + e) m0 then m0 else u + e) /\ u + e <= (if Qlt_bool (u + e) m0 then m0 else u + e) /\ ((if Qlt_bool (u + e) m0 then m0 else u + e) == m0 \/ (if Qlt_bool (u + e) m0 then m0 else u + e) == u + e)).
    { destruct (Qlt_bool (u + e) m0) eqn:Eb; [apply Qlt_bool_iff in Eb; split; [lra|split; [lra|split; [lra|left; reflexivity]]]|]. assert (m0 <= u + e) by (destruct (Qlt_le_dec (u + e) m0) as [L|L]; [apply Qlt_bool_iff in L; congruence|exact L]). split; [lra|split; [lra|split; [lra|right; reflexivity]]]. }
    destruct Hc as (C1 & C2 & C3 & C4). destruct (IH _ _ C1 E) as (I1 & I2 & I3). split; [|split; [lra|]].
    - intros a' h' x' [[= <- <- <-]|Hi]; [exists u, e; repeat split; [exact Ed|lra]|eapply I1; exact Hi].
    - destruct I3 as [I3|(u' & h' & x' & d' & Hi & Hd & He)]; [|right; exists u', h', x', d'; split; [right; exact Hi|auto]]. destruct C4 as [C4|C4]; [left; lra|right; exists u, h, x, e; split; [left; reflexivity|split; [exact Ed|lra]]]. }
  destruct (G items 0 m (Qle_refl 0) Em) as (G1 & G2 & G3). split; [exact G1|]. split; [exact G2|exact G3].
Qed.
(** the duration of an operation: a pulse or acquisition operation lasts to the end of its last pulse or acquisition, a loop its body times the repetitions, a conditional its body plus the buffer *)
Theorem C09_operation_duration :
  (forall ps qs, exists d, duration (Leaf ps qs) = Ok d /\ (forall x, In x (ps ++ qs) -> t0 x + dur x <= d) /\ ((ps ++ qs = [] /\ d = 0) \/ exists x, In x (ps ++ qs) /\ d = t0 x + dur x)) /\
  (forall b n t d, duration b = Ok d -> duration (Loop b n t) = Ok (inject_Z n * d)) /\
  (forall b t u d, duration b = Ok d -> duration (Cond b t u) = Ok (d + u)).
Proof.
  split; [|split].
  - intros ps qs. eexists. split; [reflexivity|]. split; [apply leaf_duration_ge|]. unfold leaf_duration. destruct (ps ++ qs) as [|y r]; [left; split; reflexivity|right]. cbn [map].
    assert (G : forall r y, fold_left (fun a b => if Qlt_bool a b then b else a) (map (fun i => t0 i + dur i) r) (t0 y + dur y) = t0 y + dur y \/ exists x, In x r /\ fold_left (fun a b => if Qlt_bool a b then b else a) (map (fun i => t0 i + dur i) r) (t0 y + dur y) = t0 x + dur x).
    { clear. induction r as [|b r IH]; intros y; cbn [map fold_left]; [left; reflexivity|]. destruct (Qlt_bool _ _); [destruct (IH b) as [E|(x & Hx & E)]; right; [exists b; split; [left; reflexivity|exact E]|exists x; split; [right; exact Hx|exact E]]|destruct (IH y) as [E|(x & Hx & E)]; [left; exact E|right; exists x; split; [right; exact Hx|exact E]]]. }
    destruct (G r y) as [E|(x & Hx & E)]; [exists y; split; [left; reflexivity|exact E]|exists x; split; [right; exact Hx|exact E]].
  - intros b n t d E. cbn [duration]. rewrite E. reflexivity.
  - intros b t u d E. cbn [duration]. rewrite E. reflexivity.
Qed.
(** a loop of two iterations of a schedule with a pulse, an acquisition and a loop *)
Definition ex_details (z : Z) : details := {| port := Some "q0:mw"%string; clock := "q0.01"; wave := NoWaveform; tag := z |}.
Definition ex_leaf : op := Leaf [{| t0 := 0; dur := 1; what := ex_details 1; is_acq := false |}] [{| t0 := 1; dur := 2; what := ex_details 2; is_acq := true |}].
Definition ex_sub : op := Sub [(Some 0, 7%Z, ex_leaf); (Some 3, 8%Z, Loop ex_leaf 2 0)] 1 (Some 9).
Definition ex_top : op := Sub [(Some 1, 5%Z, Loop ex_sub 2 0)] 1 (Some 19).
Example C09_ex : timed ex_top /\ exists rows, timing_table ex_top = Ok rows /\ map (fun r => (Qred (abs_time r), tag (r_what r), operation_hash r)) rows =
    [(1, 1%Z, Some 7%Z); (2, 2%Z, Some 7%Z); (4, 1%Z, Some 8%Z); (5, 2%Z, Some 8%Z); (7, 1%Z, Some 8%Z); (8, 2%Z, Some 8%Z); (10, 1%Z, Some 7%Z); (11, 2%Z, Some 7%Z); (13, 1%Z, Some 8%Z); (14, 2%Z, Some 8%Z); (16, 1%Z, Some 8%Z); (17, 2%Z, Some 8%Z)].
Proof. split; [cbn; repeat split; eauto; eexists; reflexivity|]. eexists. split; vm_compute; reflexivity. Qed.
Example C09_within_ex : compiled ex_top.
Proof. cbn [compiled ex_top ex_sub ex_leaf app]. repeat match goal with |- _ /\ _ => split | |- exists _, _ => eexists | |- Forall _ _ => constructor | |- True => exact I | |- (_ <= _)%Z => lia | |- forall u, _ => intros u [= <-]; cbn; lra end; cbn; try reflexivity; try lra. Qed.
Print Assumptions C09_table.
Print Assumptions C09_within.
