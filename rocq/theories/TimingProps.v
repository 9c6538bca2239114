(** Theorems for C01-C07 (absolute timing). Statements use TimingModel.v and TimingSpec.v only. *)
From Coq Require Import Permutation Relations.
From Verif Require Import Base TimingModel TimingSpec TimingProofs TimingProofs2 TimingProofs3 TimingProofs4.
Open Scope Q_scope.

(** Example schedules used to show that hypotheses are satisfiable. *)
Definition tc0 : tconstr := {| tc_ref := None; tc_pt := None; tc_ptnew := None; tc_rel := 0 |}.
Definition mk (n : string) (d : Q) (dl : option Q) (tcs : list tconstr) : sch :=
  {| s_name := n; s_dur := d; s_delay := dl; s_tcs := tcs; s_abs := None |}.
Definition tcr (r : string) (p pn : refpt) (q : Q) : tconstr :=
  {| tc_ref := Some r; tc_pt := Some p; tc_ptnew := Some pn; tc_rel := q |}.

(** a (20, delay 4); b after a; c centred on a, 30 earlier, but no earlier than 10 after the start of a. *)
Definition ex1 : list sch :=
  [ mk "a" 20 (Some 4) [tc0];
    mk "b" 40 None [tc0];
    mk "c" 16 None [tcr "a" PtCenter PtCenter (-30); tcr "a" PtStart PtEnd 10] ].
Definition ex_neg : list sch :=
  [ mk "a" 10 None [tc0]; mk "b" 10 None [tcr "a" PtStart PtStart (-20)] ].

Example ex1_compiles : exists out d, determine_level ASAP 3 ex1 = Ok (out, d) /\ d == 198 /\
   map (fun s => Qred (abs_of s)) out = [2; 26; 0].
Proof. eexists _, _. split; [vm_compute; reflexivity|]. split; vm_compute; reflexivity. Qed.

(** *** C01 *)
Theorem C01_timing_constraints_tight : forall st reps l out d,
  keys_ok l -> fresh l -> determine_level st reps l = Ok (out, d) ->
  map s_name out = map s_name l /\
  forall k s, nth_error l k = Some s ->
  exists t, Starts out (s_name s) t /\
    (k <> root_pos st l ->
     (forall j c, nth_error (s_tcs s) j = Some c -> exists q, Implied st l out k j c q /\ q <= t) /\
     (exists j c q, nth_error (s_tcs s) j = Some c /\ Implied st l out k j c q /\ q == t)).
Proof. exact timing_constraints. Qed.

(** ... and for a whole tree of schedules, loops and conditionals. *)
Theorem C01_tree_timed : forall st o o',
  TreeFresh o -> determine st o = Ok o' -> TreeTimed st o o'.
Proof. exact tree_timed. Qed.

Lemma keys_ex1 : keys_ok ex1.
Proof. unfold keys_ok. simpl. repeat constructor; simpl; intuition discriminate. Qed.
Lemma fresh_ex1 : fresh ex1.
Proof. intros s [<-|[<-|[<-|[]]]]; reflexivity. Qed.

Definition ex_tree : op :=
  OSched None None 2
    [ Item "x" [tc0] None (OSched None (Some (-2)) 1 [Item "m" [tc0] None (OLeaf true 10 None)]);
      Item "y" [tc0] None (OLoop 3 (OSched None None 1
          [ Item "p" [tc0] None (OLeaf true 5 None); Item "q" [tc0] None (OLeaf true 7 (Some 1)) ]));
      Item "z" [tcr "y" PtEnd PtStart 4] None (OCond 8 (OLeaf true 6 None)) ].
Example ex_tree_ok : TreeFresh ex_tree /\ exists o', determine ASAP ex_tree = Ok o' /\ op_dur o' = Some (124).
Proof.
  split.
  - constructor; [repeat constructor; simpl; intuition discriminate|].
    intros i [<-|[<-|[<-|[]]]]; (split; [reflexivity|]); cbn [it_op].
    + apply TF_sched; [repeat constructor; simpl; intuition discriminate|]. intros i [<-|[]]; split; [reflexivity | apply TF_leaf].
    + apply TF_loop. apply TF_sched; [repeat constructor; simpl; intuition discriminate|].
      intros i [<-|[<-|[]]]; (split; [reflexivity | apply TF_leaf]).
    + apply TF_cond, TF_leaf.
  - eexists. split; vm_compute; reflexivity.
Qed.

(** *** C02 *)
Theorem C02_order_independent : forall st reps l l1 o,
  keys_ok l -> l <> [] -> make_explicit st l = Ok l1 -> Topological st l o ->
  forall out d,
  (determine_level st reps l = Ok (out, d) <->
   exists F, resolve st o l1 = Ok F /\ out = normalize F /\ d = schedule_duration reps out).
Proof. exact order_independent. Qed.

Theorem C02_any_two_orders : forall st l l1 o1 o2 F,
  keys_ok l -> l <> [] -> make_explicit st l = Ok l1 ->
  Topological st l o1 -> Topological st l o2 ->
  resolve st o1 l1 = Ok F -> resolve st o2 l1 = Ok F.
Proof.
  intros st l l1 o1 o2 F Hk Hne He H1 H2 HF.
  pose proof (proj2 (topoX_iff st l l1 o1 He Hk) H1) as T1.
  pose proof (proj2 (topoX_iff st l l1 o2 He Hk) H2) as T2.
  destruct (topo_head_root st l l1 o1 He Hk Hne T1) as [r1 [R1 Hd1]].
  destruct (topo_head_root st l l1 o2 He Hk Hne T2) as [r2 [R2 Hd2]].
  assert (r2 = r1) by congruence. subst r2.
  pose proof (keys_explicit _ _ _ He Hk) as Hk1.
  apply (solves_resolve st l1 (s_name r1) o2 F Hk1 T2 Hd2).
  exact (resolve_solves st l1 (s_name r1) o1 F Hk1 T1 Hd1 HF).
Qed.

(** two different topological orders of [ex1] *)
Example ex1_orders : exists l1, make_explicit ASAP ex1 = Ok l1 /\
  TopoX l1 ["a"; "b"; "c"]%string /\ TopoX l1 ["a"; "c"; "b"]%string.
Proof.
  eexists. split; [vm_compute; reflexivity|].
  split; (split; [simpl; try apply Permutation_refl; try (constructor; constructor)|]);
  intros pre n post Heq s Hs Hn;
  (destruct pre as [|p1 [|p2 [|p3 [|p4 pre]]]]; simpl in Heq; inversion Heq; subst;
   destruct Hs as [<-|[<-|[<-|[]]]]; simpl in *; try discriminate; intros x Hx; simpl in Hx; intuition (subst; simpl; auto)).
Qed.

(** *** C03 *)
Theorem C03_accepted_only_if_well_founded : forall st reps l out d,
  keys_ok l -> determine_level st reps l = Ok (out, d) -> AllKnown st l /\ ~ Circular st l.
Proof. exact timing_sound_refs. Qed.

Theorem C03_unknown_rejected : forall st reps l,
  (forall s, In s l -> s_tcs s <> []) -> (st = ALAP -> forall s, In s l -> List.length (s_tcs s) = 1%nat) ->
  (exists a b, RefersTo st l a b /\ ~ In a (map s_name l)) -> determine_level st reps l = Err ValueError.
Proof. exact timing_unknown. Qed.

Theorem C03_circular_rejected : forall st reps l,
  keys_ok l ->
  (forall s, In s l -> s_tcs s <> []) -> (st = ALAP -> forall s, In s l -> List.length (s_tcs s) = 1%nat) ->
  AllKnown st l -> Circular st l -> determine_level st reps l = Err TypeError.
Proof. exact timing_circular. Qed.

Theorem C03_well_founded_accepted : forall st reps l,
  keys_ok l -> Servable st l -> AllKnown st l -> ~ Circular st l ->
  exists out d, determine_level st reps l = Ok (out, d).
Proof. exact timing_complete. Qed.

Definition ex_unknown : list sch := [ mk "a" 1 None [tc0]; mk "b" 1 None [tcr "zz" PtEnd PtStart 0] ].
Example ex_unknown_ok : determine_level ASAP 1 ex_unknown = Err ValueError /\
  exists a b, RefersTo ASAP ex_unknown a b /\ ~ In a (map s_name ex_unknown).
Proof.
  split; [vm_compute; reflexivity|]. exists "zz"%string, "b"%string. split.
  - exists 1%nat, 0%nat. eexists _, _. split; [reflexivity|]. split; [reflexivity|]. split; reflexivity.
  - simpl. intuition discriminate.
Qed.
Definition ex_circ : list sch := [ mk "a" 1 None [tcr "b" PtEnd PtStart 0]; mk "b" 1 None [tc0] ].
Example ex_circ_ok : determine_level ASAP 1 ex_circ = Err TypeError /\ Circular ASAP ex_circ.
Proof.
  split; [vm_compute; reflexivity|]. exists "a"%string. apply t_trans with "b"%string; apply t_step.
  - exists 1%nat, 0%nat. eexists _, _. split; [reflexivity|]. split; [reflexivity|]. split; reflexivity.
  - exists 0%nat, 0%nat. eexists _, _. split; [reflexivity|]. split; [reflexivity|]. split; reflexivity.
Qed.

(** *** C04 *)
Theorem C04_normalisation : forall l,
  timed l ->
  map s_name (normalize l) = map s_name l /\
  (forall n t, Starts (normalize l) n t -> 0 <= t) /\
  ((exists n t, Starts l n t /\ t < 0) -> exists n t, Starts (normalize l) n t /\ t == 0) /\
  ((forall n t, Starts l n t -> 0 <= t) -> normalize l = l) /\
  (keys_ok l -> forall n m tn tm tn' tm', Starts l n tn -> Starts l m tm ->
     Starts (normalize l) n tn' -> Starts (normalize l) m tm' -> tn' - tm' == tn - tm).
Proof. exact normalize_correct. Qed.

Theorem C04_earliest_start_is_zero : forall st reps l out d,
  keys_ok l -> determine_level st reps l = Ok (out, d) ->
  (forall n t, Starts out n t -> 0 <= t) /\ (exists n t, Starts out n t /\ t == 0).
Proof. exact earliest_zero. Qed.

Example ex_neg_shifted : exists out d, determine_level ASAP 1 ex_neg = Ok (out, d) /\
  map abs_of out = [20; 0].
Proof. eexists _, _. split; vm_compute; reflexivity. Qed.

(** *** C05 *)
Theorem C05_back_to_back : forall st reps l,
  keys_ok l -> l <> [] -> fresh l -> (forall s, In s l -> Unconstrained s) ->
  exists out d, determine_level st reps l = Ok (out, d) /\
    (forall k s, nth_error l k = Some s ->
       exists t, Starts out (s_name s) t /\ t == sum_Q (map s_dur (firstn k l))) /\
    d == inject_Z reps * sum_Q (map s_dur l).
Proof. exact back_to_back. Qed.

Definition ex_unc : list sch := [ mk "a" 10 None [tc0]; mk "b" 0 None [tc0]; mk "c" 5 None [tc0] ].
Example ex_unc_ok : keys_ok ex_unc /\ fresh ex_unc /\ (forall s, In s ex_unc -> Unconstrained s).
Proof.
  split; [|split].
  - unfold keys_ok. simpl. repeat constructor; simpl; intuition discriminate.
  - intros s [<-|[<-|[<-|[]]]]; reflexivity.
  - intros s [<-|[<-|[<-|[]]]]; (split; [reflexivity|]; split; [reflexivity|]; vm_compute; discriminate).
Qed.

(** *** C06 *)
Theorem C06_duration : forall reps l,
  timed l -> exists D, schedule_duration reps l == inject_Z reps * D /\ 0 <= D /\
    (forall s t, In s l -> s_abs s = Some t -> t + s_dur s <= D) /\
    (D == 0 \/ exists s t, In s l /\ s_abs s = Some t /\ D == t + s_dur s).
Proof. exact duration_correct. Qed.

(** ... and for a whole tree: every execution of every operation, with all loops unrolled, lies within the duration
    of the schedule. *)
Theorem C06_covers_every_execution : forall st o o' t s d,
  TreeFresh o -> Sound o -> determine st o = Ok o' -> Executes o' t s d ->
  exists D, op_dur o' = Some D /\ t <= s /\ s + d <= t + D.
Proof.
  intros st o o' t s d HF HS H HE. pose proof (tree_timed st o o' HF H) as HT.
  assert (HD : exists D, op_dur o' = Some D).
  { clear - H HF HS HT. revert HS HF H. induction HT; intros; cbn [op_dur]; eauto.
    - cbn [determine] in H. apply bind_ok in H as [x [Hx E]]. injection E as ->.
      inversion HS; inversion HF; subst. destruct (IHHT ltac:(assumption) ltac:(assumption) Hx) as [D ->]. eauto.
    - cbn [determine] in H. apply bind_ok in H as [x [Hx E]]. injection E as ->.
      inversion HS; inversion HF; subst. destruct (IHHT ltac:(assumption) ltac:(assumption) Hx) as [D ->]. eauto. }
  destruct HD as [D HD]. exists D. split; [exact HD|]. apply op_dur_lasts in HD.
  destruct (proj1 (timed_covered st) _ _ HT HS D t s d HD HE) as [H1 [H2 _]]. auto.
Qed.

(** the third iteration of the loop in [ex_tree]: the last operation of its body runs from 37 to 44 *)
Example ex_tree_executes : Sound ex_tree /\ exists o', determine ASAP ex_tree = Ok o' /\ exists s d, Executes o' 0 s d /\ s == 37 /\ d == 7.
Proof.
  split.
  - constructor; [lia|]. intros i [<-|[<-|[<-|[]]]]; cbn [it_op].
    + constructor; [lia|]. intros i [<-|[]]; constructor; vm_compute; discriminate.
    + constructor. constructor; [lia|]. intros i [<-|[<-|[]]]; constructor; vm_compute; discriminate.
    + constructor; [vm_compute; discriminate|]. constructor. vm_compute; discriminate.
  - eexists. split; [vm_compute; reflexivity|]. eexists. eexists. split.
    + eapply E_sched; [right; left; reflexivity|reflexivity|]. cbn [it_op].
      eapply E_loop with (k := 2%Z); [constructor|lia|].
      eapply E_sched; [right; left; reflexivity|reflexivity|]. apply E_leaf.
    + split; vm_compute; reflexivity.
Qed.

Example ex_dur : forall out d, determine_level ASAP 3 ex1 = Ok (out, d) -> timed out.
Proof. intros out d. apply determine_timed. exact keys_ex1. Qed.

(** *** C07 *)
(** The full property: timing a timed schedule again leaves its start times unchanged. *)
Definition RetimingStable : Prop := forall st reps l out d,
  keys_ok l -> fresh l -> determine_level st reps l = Ok (out, d) ->
  exists out' d', determine_level st reps out = Ok (out', d') /\
    forall n t, Starts out n t -> exists t', Starts out' n t' /\ t' == t.

(** It is false: after a normalising shift, a second run moves the root back to 0, and the others keep
    their (shifted) times: relative timing is lost.  Here b was 20 before a; after the second run both start at 0. *)
Theorem C07_retiming_refuted : ~ RetimingStable.
Proof.
  intros H.
  destruct (determine_level ASAP 1 ex_neg) as [[out d]|e] eqn:E; [|vm_compute in E; discriminate].
  assert (Hk : keys_ok ex_neg) by (unfold keys_ok; simpl; repeat constructor; simpl; intuition discriminate).
  assert (Hf : fresh ex_neg) by (intros s [<-|[<-|[]]]; reflexivity).
  destruct (H ASAP 1%Z ex_neg out d Hk Hf E) as [out' [d' [E' Hs]]].
  vm_compute in E. injection E as <- <-. vm_compute in E'. injection E' as <- <-.
  destruct (Hs "a"%string (20)) as [t' [Ht Heq]].
  { eexists. split; [left; reflexivity|]. split; vm_compute; reflexivity. }
  destruct Ht as [s [[<-|[<-|[]]] [Hn Ha]]]; simpl in Hn, Ha; try discriminate.
  injection Ha as <-. vm_compute in Heq. discriminate.
Qed.

(** ... also without any shift, when an operation has a [next_operation_delay] (it is added again). *)
Theorem C07_retiming_delay_refuted :
  exists l out d out' d',
    keys_ok l /\ fresh l /\ determine_level ASAP 1 l = Ok (out, d) /\ determine_level ASAP 1 out = Ok (out', d') /\
    map abs_of out = [0; 14] /\ map abs_of out' = [0; 18].
Proof.
  exists [mk "a" 10 (Some 4) [tc0]; mk "b" 10 None [tc0]].
  do 4 eexists. split; [unfold keys_ok; simpl; repeat constructor; simpl; intuition discriminate|].
  split; [intros s [<-|[<-|[]]]; reflexivity|].
  split; [vm_compute; reflexivity|]. split; [vm_compute; reflexivity|]. split; vm_compute; reflexivity.
Qed.

(** What holds: without [next_operation_delay] and when no normalising shift took place
    (the root starts at 0), a second run changes nothing at all. Missing: the shifted case. *)
Theorem C07_retiming_partial : forall st reps l out d root,
  keys_ok l -> (forall s, In s l -> s_delay s = None) ->
  determine_level st reps l = Ok (out, d) ->
  nth_error l (root_pos st l) = Some root -> Starts out (s_name root) 0 ->
  determine_level st reps out = Ok (out, d).
Proof. exact retime_same. Qed.

Example ex_retime : exists out d, determine_level ASAP 2 ex_unc = Ok (out, d) /\
  nth_error ex_unc (root_pos ASAP ex_unc) = Some (mk "a" 10 None [tc0]) /\ Starts out "a" 0.
Proof.
  eexists _, _. split; [vm_compute; reflexivity|]. split; [reflexivity|].
  eexists. split; [left; reflexivity|]. split; reflexivity.
Qed.

Print Assumptions C01_timing_constraints_tight.
Print Assumptions C01_tree_timed.
Print Assumptions C02_order_independent.
Print Assumptions C02_any_two_orders.
Print Assumptions C03_accepted_only_if_well_founded.
Print Assumptions C03_unknown_rejected.
Print Assumptions C03_circular_rejected.
Print Assumptions C03_well_founded_accepted.
Print Assumptions C04_normalisation.
Print Assumptions C04_earliest_start_is_zero.
Print Assumptions C05_back_to_back.
Print Assumptions C06_duration.
Print Assumptions C06_covers_every_execution.
Print Assumptions C07_retiming_refuted.
Print Assumptions C07_retiming_delay_refuted.
Print Assumptions C07_retiming_partial.
