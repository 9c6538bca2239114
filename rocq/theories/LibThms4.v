(** C44: two-qubit chevron, AllXY, readout calibration. *)
From Verif Require Import Base TimingModel TimingSpec LibModel LibSpec LibProps LibEngine LibProps2.
Open Scope Q_scope.
Open Scope string_scope.
Open Scope list_scope.

Definition b_chev (lf hf : string) (dur : Q) (port : string) (base i : nat) (amp : Q) : list entry :=
  [ ("Reset " ++ dec i, mk_tc None None 0, ResetGate [lf; hf]); (("X(" ++ lf ++ ") ") ++ dec i, mk_tc None None 0, XGate lf);
    (("X(" ++ hf ++ ") ") ++ dec i, mk_tc (Some (("X(" ++ lf ++ ") ") ++ dec i)) (Some PtStart) 0, XGate hf);
    (("SquarePulse(" ++ port ++ ") ") ++ dec i, mk_tc None None 0, Square dur amp port "cl0.baseband");
    (("Measure(" ++ lf ++ "," ++ hf ++ ") ") ++ dec i, mk_tc None None 0, MeasureGate [lf; hf] None None) ]%string.
Lemma labB_intro p i n : n = (p ++ " " ++ dec i)%string -> not_uuid n -> LabB i n.
Proof. intros -> h. split; auto. exists p; auto. Qed.
Lemma str_cancel a b c : (a ++ c)%string = (b ++ c)%string -> a = b.
Proof. intros h. assert (G : forall s, String.length s = List.length (list_ascii_of_string s)) by (induction s; cbn; auto).
  apply (f_equal list_ascii_of_string) in h. assert (A : forall x y, list_ascii_of_string (x ++ y)%string = list_ascii_of_string x ++ list_ascii_of_string y) by (induction x; cbn; intros; congruence).
  rewrite !A in h. apply app_inv_tail in h. rewrite <- (string_of_list_ascii_of_string a), <- (string_of_list_ascii_of_string b). congruence. Qed.

(** Chevron: both qubits are excited from the same moment, the flux pulse with the i-th amplitude starts when the pi pulse of the
    high-frequency qubit ends, the measurement of both qubits when the flux pulse ends *)
Theorem C44_chevron : forall u gdur gdelay lf hf amps dur port reps,
  Uuids u -> as_array amps <> [] -> OnlyMeasureDelays gdelay -> lf <> hf ->
  let p := match port with Some p => p | None => (hf ++ ":fl")%string end in
  exists s tl, chevron_cz_sched u lf hf amps dur port reps = Ok s /\ l_reps s = reps /\ Timeline gdur gdelay s tl /\ List.length tl = (5 * List.length (as_array amps))%nat /\
    forall i amp, nth_error (as_array amps) i = Some amp ->
    exists n1 n2 n3 n4 n5 t_reset t_lf t_hf t_flux t_meas,
      Segment tl (5 * i) [ (n1, ResetGate [lf; hf], t_reset); (n2, XGate lf, t_lf); (n3, XGate hf, t_hf); (n4, Square dur amp p "cl0.baseband", t_flux); (n5, MeasureGate [lf; hf] None None, t_meas) ]%string /\
      AfterPrevious gdur gdelay tl (5 * i) /\ t_lf == t_reset + gdur (ResetGate [lf; hf]) /\ t_hf == t_lf /\ t_flux == t_hf + gdur (XGate hf) /\ t_meas == t_flux + dur.

Proof. intros u gdur gdelay lf hf amps dur port reps hu hne hd hq p. unfold chevron_cz_sched. set (xs := as_array amps) in *.
  set (b := b_chev lf hf dur p). 
  match goal with |- context [for_enum ?xs ?s0 ?body] => destruct (run_blocks u gdur gdelay (b_chev lf hf dur p) body LabB xs s0 hu eq_refl) as (T & h1 & h2 & h3);
   [ destruct xs; [easy|discriminate] | intros s i x hin h; build_block h | exact labB_uuid | exact labB_inj
   | | | intros base i x; back_label | intros base i x e; cbn; intuition (subst; reflexivity) | ] end.
  { intros base i x. unfold b_chev. cbn [names map e_name fst].
    assert (N : (("X(" ++ lf ++ ") ") ++ dec i)%string <> (("X(" ++ hf ++ ") ") ++ dec i)%string).
    { intros h. apply str_cancel in h. cbn in h. injection h as h. apply str_cancel in h. auto. }
    repeat constructor; cbn [In]; intros hin; repeat (destruct hin as [hin|hin]; [first [discriminate hin | now apply N | now apply N; symmetry]|]); exact hin. }
  { intros base i x n. unfold b_chev. cbn [names map e_name fst In]. intros hin. left.
    destruct hin as [<-|[<-|[<-|[<-|[<-|[]]]]]].
    - apply (labB_intro "Reset"); reflexivity.
    - apply (labB_intro ("X(" ++ lf ++ ")")); [cbn; now rewrite !app_s_assoc|reflexivity].
    - apply (labB_intro ("X(" ++ hf ++ ")")); [cbn; now rewrite !app_s_assoc|reflexivity].
    - apply (labB_intro ("SquarePulse(" ++ p ++ ")")); [cbn; now rewrite !app_s_assoc|reflexivity].
    - apply (labB_intro ("Measure(" ++ lf ++ "," ++ hf ++ ")")); [cbn; rewrite !app_s_assoc; cbn; now rewrite !app_s_assoc|reflexivity]. }
  exists (ext (new reps) (blocks b 0 0 xs)), (tl_of (blocks b 0 0 xs) T). split; [exact h1|]. repeat (split; [reflexivity|]). split; [exact h2|].
  split; [rewrite tl_len; now apply blocks_len|]. intros i amp hi.
  destruct (block_at b xs i amp 5 T (fun _ _ _ => eq_refl) hi) as (hs & _). do 5 eexists; exists (T (5 * i + 0)%nat), (T (5 * i + 1)%nat), (T (5 * i + 2)%nat), (T (5 * i + 3)%nat), (T (5 * i + 4)%nat).
  split; [seg_ok hs|]. split; [lib_first b 5%nat hi h3 hd|]. split; [lib_prev b 5%nat hi h3 hd 0%nat|]. split; [lib_ref b 5%nat hi h3 hd 2%nat 1%nat|]. split; [lib_prev b 5%nat hi h3 hd 2%nat|]. lib_prev b 5%nat hi h3 hd 3%nat. Qed.


(** with equal qubit names the label of the second pi pulse is already taken *)
Lemma add_fail u s l o ref pt rel : In l (names (l_entries s)) -> add u s (Some l) o ref pt rel = Err ValueError.
Proof. intros h. unfold add. now rewrite known_true. Qed.
Theorem C44_chevron_same_qubit : forall u q amps dur port reps, as_array amps <> [] -> chevron_cz_sched u q q amps dur port reps = Err ValueError.
Proof. intros u q amps dur port reps h. unfold chevron_cz_sched, for_enum. destruct (as_array amps) as [|a r]; [easy|]. cbn [List.length seq combine foldM fst snd].
  rewrite add_ok by (cbn [name_of new l_entries names map In]; tauto). cbn [bind fst name_of].
  rewrite add_ok by (cbn [name_of new l_entries names map In ext app e_name fst]; intros [e|[]]; discriminate e). cbn [bind fst name_of].
  rewrite add_fail by (cbn [name_of new l_entries names map In ext app e_name fst]; auto). reflexivity. Qed.

Definition b_allxy (u : nat -> string) (q : string) (base i : nat) (k : Z) : list entry :=
  let c := nth (Z.to_nat k) allxy_combinations ((0, 0), (0, 0)) in
  [ ("Reset " ++ dec i, mk_tc None None 0, ResetGate [q]); (u (base + 1)%nat, mk_tc None None 0, RxyGate (fst (fst c)) (snd (fst c)) q);
    (u (base + 2)%nat, mk_tc None None 0, RxyGate (fst (snd c)) (snd (snd c)) q); ("Measurement " ++ dec i, mk_tc None None 0, MeasureGate [q] None None) ]%string.
(** AllXY: the i-th measurement follows the two rotations of the selected combination *)
Theorem C44_allxy : forall u gdur gdelay q idx reps,
  Uuids u -> idx <> [] -> OnlyMeasureDelays gdelay -> (forall k, In k idx -> (0 <= k < 21)%Z) ->
  exists s tl, allxy_sched u q idx reps = Ok s /\ l_reps s = reps /\ Timeline gdur gdelay s tl /\ List.length tl = (4 * List.length idx)%nat /\
    forall i k, nth_error idx i = Some k ->
    let c := nth (Z.to_nat k) allxy_combinations ((0, 0), (0, 0)) in
    exists n1 n2 t_reset t_a t_b t_meas,
      Segment tl (4 * i) [ ("Reset " ++ dec i, ResetGate [q], t_reset); (n1, RxyGate (fst (fst c)) (snd (fst c)) q, t_a); (n2, RxyGate (fst (snd c)) (snd (snd c)) q, t_b);
                           ("Measurement " ++ dec i, MeasureGate [q] None None, t_meas) ]%string /\
      AfterPrevious gdur gdelay tl (4 * i) /\ t_a == t_reset + gdur (ResetGate [q]) /\ t_b == t_a + gdur (RxyGate (fst (fst c)) (snd (fst c)) q) /\ t_meas == t_b + gdur (RxyGate (fst (snd c)) (snd (snd c)) q).

Proof. intros u gdur gdelay q idx reps hu hne hd hidx. unfold allxy_sched. set (xs := idx) in *.
  set (b := b_allxy u q). 
  match goal with |- context [for_enum ?xs ?s0 ?body] => destruct (run_blocks u gdur gdelay (b_allxy u q) body LabA xs s0 hu eq_refl) as (T & h1 & h2 & h3);
   [ destruct xs; [easy|discriminate] | | exact labA_uuid | exact labA_inj
   | intros base i x; nodup_label hu | intros base i x n; unfold b_allxy; cbv zeta; cbn [names map e_name fst In List.length]; intros hin | intros base i x; unfold b_allxy; cbv zeta; back_label | intros base i x e; cbn; intuition (subst; reflexivity) | ] end.
  { intros s i k hin h. specialize (hidx k hin). change (Z.of_nat (List.length allxy_combinations)) with 21%Z.
    replace ((21 <? k) || (k <? 0))%Z with false by (symmetry; apply orb_false_iff; split; apply Z.ltb_ge; lia).
    unfold b_allxy in *. destruct (nth_error allxy_combinations (Z.to_nat k)) as [((a1, a2), (a3, a4))|] eqn:E.
    - apply (nth_error_nth _ _ ((0, 0), (0, 0))) in E. rewrite E in *. cbn [fst snd] in *. build_block h.
    - apply nth_error_None in E. change (List.length allxy_combinations) with 21%nat in E. lia. }
  { repeat (destruct hin as [<-|hin]; [first [ left; apply labA_intro; reflexivity | right; eexists; split; [|reflexivity]; lia ]|]); destruct hin. }
  exists (ext (new reps) (blocks b 0 0 xs)), (tl_of (blocks b 0 0 xs) T). split; [exact h1|]. repeat (split; [reflexivity|]). split; [exact h2|].
  split; [rewrite tl_len; now apply blocks_len|]. intros i k hi.
  destruct (block_at b xs i k 4 T (fun _ _ _ => eq_refl) hi) as (hs & _). do 2 eexists; exists (T (4 * i + 0)%nat), (T (4 * i + 1)%nat), (T (4 * i + 2)%nat), (T (4 * i + 3)%nat).
  split; [seg_ok hs|]. split; [lib_first b 4%nat hi h3 hd|]. split; [lib_prev b 4%nat hi h3 hd 0%nat|]. split; [lib_prev b 4%nat hi h3 hd 1%nat|]. lib_prev b 4%nat hi h3 hd 2%nat. Qed.


(** the combinations are those of the experiment: the 21 distinct pairs among {I, X180, Y180, X90, Y90} listed in the thesis cited by the code *)
Definition rot_I : Q * Q := (0, 0). Definition rot_X : Q * Q := (180, 0). Definition rot_Y : Q * Q := (180, 90). Definition rot_x : Q * Q := (90, 0). Definition rot_y : Q * Q := (90, 90).
Theorem C44_allxy_table : allxy_combinations =
  [ (rot_I, rot_I); (rot_X, rot_X); (rot_Y, rot_Y); (rot_X, rot_Y); (rot_Y, rot_X);
    (rot_x, rot_I); (rot_y, rot_I); (rot_x, rot_y); (rot_y, rot_x); (rot_x, rot_Y); (rot_y, rot_X); (rot_X, rot_y); (rot_Y, rot_x); (rot_x, rot_X); (rot_X, rot_x); (rot_y, rot_Y); (rot_Y, rot_y);
    (rot_X, rot_I); (rot_Y, rot_I); (rot_x, rot_x); (rot_y, rot_y) ].
Proof. reflexivity. Qed.
(** no other index is accepted ... *)
Theorem C44_allxy_index : forall u q idx reps s, allxy_sched u q idx reps = Ok s -> forall k, In k idx -> (0 <= k < 21)%Z.
Proof. intros u q idx reps s. unfold allxy_sched, for_enum. generalize 0%nat as i, (new reps) as s0. induction idx as [|z idx IH]; intros i s0 h k; [easy|].
  cbn [List.length seq combine foldM fst snd] in h. intros [<-|hin].
  - change (Z.of_nat (List.length allxy_combinations)) with 21%Z in h. destruct ((21 <? z) || (z <? 0))%Z eqn:E; [discriminate|]. apply orb_false_iff in E as (E1 & E2). apply Z.ltb_ge in E1, E2.
    destruct (nth_error allxy_combinations (Z.to_nat z)) eqn:E; [|discriminate]. assert (hz : (Z.to_nat z < List.length allxy_combinations)%nat) by (apply nth_error_Some; congruence). change (List.length allxy_combinations) with 21%nat in hz. lia.
  - match type of h with bind ?m _ = _ => destruct m as [s1|] eqn:E; [|discriminate] end. cbn [bind] in h. exact (IH _ _ h k hin). Qed.
(** ... but 21, which the error message calls valid, raises IndexError instead of the ValueError for invalid indices *)
Theorem C44_allxy_index_refuted : forall u q reps, allxy_sched u q [21%Z] reps = Err IndexError /\ allxy_sched u q [22%Z] reps = Err ValueError.
Proof. intros. split; reflexivity. Qed.
