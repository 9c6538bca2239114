(** C61: schedules that meet the hypotheses, names of port-clocks, and overlaps that are missed. *)
From Coq Require Import Permutation Ascii.
From Verif Require Import Base QSort OvModel OvSpec OvProps OvThms.
Local Open Scope Q_scope.
Local Open Scope string_scope.

Definition ns (z : Z) : Q := z # 1000000000.
Definition wave (p : string) (d : Q) : info := {| iport := Some p; iclock := "cl0.baseband"; it0 := 0; idur := d; iwf := true; ioffI := None; ioffQ := false |}.
Definition offset (p : string) (t : Q) : info := {| iport := Some p; iclock := "cl0.baseband"; it0 := t; idur := 0; iwf := false; ioffI := Some (Some (1#2)); ioffQ := true |}.
Definition pulse (p : string) (d : Q) : item := Leaf {| oinfos := [wave p d]; odur := d |}.
(** a long square pulse: an offset that is set and, at the end, reset *)
Definition stitched (p : string) (d : Q) : item := Leaf {| oinfos := [offset p 0; offset p d]; odur := d |}.
Definition idle (d : Q) : item := Leaf {| oinfos := [{| iport := None; iclock := "cl0.baseband"; it0 := 0; idur := d; iwf := false; ioffI := None; ioffQ := false |}]; odur := d |}.

Definition good : item := Sched [(ns 120, pulse "q0:fl" (ns 20)); (0, pulse "q0:fl" (ns 20)); (ns 20, Loop 3 (Sched [(0, stitched "q0:fl" (ns 100))]))].
Example good_passes : validate good = Ok tt. Proof. vm_compute. reflexivity. Qed.
Example good_whole : forall y, In y (collect good 0) -> whole "q0:fl_cl0.baseband" y.
Proof.
  assert (X : Forall (whole "q0:fl_cl0.baseband") (collect good 0)).
  { unfold good. cbn [collect valid_pulse has_voltage_offset oinfos pulse stitched orb app].
    assert (A : forall t d, tol < d -> whole "q0:fl_cl0.baseband" (t, {| oinfos := [wave "q0:fl" d]; odur := d |})).
    { intros t d L. assert (0 < d) by (unfold tol in L; lra). split; [repeat constructor; cbn; lra|]. split; [|exact L].
      unfold extent, op_end. cbn [fst snd oinfos odur]. split; [|split].
      - exists (wave "q0:fl" d). split; [now left|]. split; [now left|]. split; [reflexivity|]. cbn. lra.
      - exists (wave "q0:fl" d). split; [now left|]. split; [now left|]. split; [reflexivity|]. cbn. lra.
      - intros i [<-|[]] _ _. cbn. lra. }
    assert (B : forall t d, tol < d -> whole "q0:fl_cl0.baseband" (t, {| oinfos := [offset "q0:fl" 0; offset "q0:fl" d]; odur := d |})).
    { intros t d L. assert (0 < d) by (unfold tol in L; lra). split; [repeat constructor; cbn; lra|]. split; [|exact L].
      unfold extent, op_end. cbn [fst snd oinfos odur]. split; [|split].
      - exists (offset "q0:fl" 0). split; [now left|]. split; [right; eexists; reflexivity|]. split; [reflexivity|]. cbn. lra.
      - exists (offset "q0:fl" d). split; [right; now left|]. split; [right; eexists; reflexivity|]. split; [reflexivity|]. cbn. lra.
      - intros i [<-|[<-|[]]] _ _; cbn; lra. }
    repeat (apply Forall_cons || apply Forall_nil); (apply A || apply B); reflexivity. }
  now apply Forall_forall.
Qed.
Lemma pairs_fair : forall l, ForallOrdPairs (fun c d => ~ same_times c d /\ (has_voltage_offset (snd c) = false -> has_voltage_offset (snd d) = false -> apart c d)) l -> fair l.
Proof.
  intros l F a b T. set (R := fun c d : Q * oper => ~ same_times c d /\ (has_voltage_offset (snd c) = false -> has_voltage_offset (snd d) = false -> apart c d)) in *.
  assert (X : forall l1 c l2 d l3, l = (l1 ++ c :: l2 ++ d :: l3)%list -> R c d).
  { clear T. induction F as [|x l A F IH]; intros l1 c l2 d l3 E; [destruct l1; discriminate E|]. destruct l1 as [|u l1]; injection E as -> ->.
    - rewrite Forall_forall in A. apply A. apply in_or_app. cbn. auto.
    - eapply IH. reflexivity. }
  destruct (two_order _ _ _ _ T) as [l1 [l2 [l3 [E|E]]]].
  - exact (X _ _ _ _ _ E).
  - destruct (X _ _ _ _ _ E) as [A B]. split; [intros [P Q]; apply A; split; lra|]. intros P Q. destruct (B Q P); [right|left]; assumption.
Qed.
Example good_fair : fair (collect good 0).
Proof.
  apply pairs_fair. unfold good. cbn [collect valid_pulse has_voltage_offset oinfos pulse stitched orb app].
  repeat (apply FOP_cons || apply FOP_nil || apply Forall_cons || apply Forall_nil);
    (split; [intros [A B]; vm_compute in A, B; (discriminate A || discriminate B)
            | intros P Q; first [discriminate P | discriminate Q | left; vm_compute; discriminate | right; vm_compute; discriminate]]).
Qed.
Example bad_raises : validate (Sched [(0, stitched "q0:fl" (ns 100)); (ns 50, pulse "q0:fl" (ns 20))]) = Err RuntimeError. Proof. vm_compute. reflexivity. Qed.

(** The name of a port-clock says which port and clock, if no port has an underscore in its name *)
Fixpoint no_underscore (s : string) : Prop := match s with EmptyString => True | String c r => c <> "_"%char /\ no_underscore r end.
Definition port_name (i : info) : string := match iport i with Some s => s | None => "None" end.
Theorem C61_key_names : forall i j, no_underscore (port_name i) -> no_underscore (port_name j) -> key i = key j -> port_name i = port_name j /\ iclock i = iclock j.
Proof.
  intros i j Ni Nj E. unfold key in E. fold (port_name i) in E. fold (port_name j) in E. revert Ni Nj E. generalize (port_name i) (port_name j).
  induction s as [|c s IH]; intros [|c' s'] Ni Nj E; cbn in *.
  - injection E as E. auto.
  - injection E as E _. destruct Nj as [N _]. congruence.
  - injection E as E _. destruct Ni as [N _]. congruence.
  - injection E as -> E. destruct (IH s' (proj2 Ni) (proj2 Nj) E) as [-> ->]. auto.
Qed.
Theorem C61_key_collision_refuted : exists x, validate x = Err RuntimeError /\ (forall t o i, occurs x 0 t o -> In i (oinfos o) -> iport i = Some "a" /\ iclock i = "b_c" \/ iport i = Some "a_b" /\ iclock i = "c").
Proof.
  exists (Sched [(0, Leaf {| oinfos := [{| iport := Some "a"; iclock := "b_c"; it0 := 0; idur := ns 10; iwf := true; ioffI := None; ioffQ := false |}]; odur := ns 10 |});
                 (ns 5, Leaf {| oinfos := [{| iport := Some "a_b"; iclock := "c"; it0 := 0; idur := 0; iwf := false; ioffI := Some (Some 0); ioffQ := true |}]; odur := 0 |})]).
  split; [vm_compute; reflexivity|]. intros t o i H I. inversion H as [|l s x t0 u o' J K| |]; subst. destruct J as [J|[J|[]]]; injection J as <- <-; inversion K; subst; destruct I as [<-|[]]; auto.
Qed.

(** Overlaps that are missed. *)
Definition missed (x : item) : Prop := validate x = Ok tt /\ exists a b, two (collect x 0) a b /\ with_offset (snd a) /\ overlap_on_a_key a b.
Lemma missed_intro : forall x p q, validate x = Ok tt -> forall a b, nth_error (collect x 0) p = Some a -> nth_error (collect x 0) q = Some b -> (p < q)%nat -> has_voltage_offset (snd a) = true \/ has_voltage_offset (snd b) = true ->
  (exists k s e s' e', lookup k (start_ends (fst a) (snd a)) = Some (s, e) /\ lookup k (start_ends (fst b) (snd b)) = Some (s', e') /\ overlap s e s' e') -> missed x.
Proof.
  intros x p q V a b Ha Hb L O [k [s [e [s' [e' [A [B C]]]]]]]. split; [exact V|].
  assert (T : two (collect x 0) a b).
  { apply nth_error_split in Ha. destruct Ha as [l1 [l2 [E <-]]]. rewrite E in Hb. rewrite nth_error_app2 in Hb by lia.
    destruct (q - List.length l1)%nat as [|n] eqn:Q; [lia|]. cbn in Hb. apply nth_error_split in Hb. destruct Hb as [l3 [l4 [-> _]]]. rewrite E. apply two_split. }
  pose proof (start_ends_spec a k) as Sa. rewrite A in Sa. pose proof (start_ends_spec b k) as Sb. rewrite B in Sb.
  destruct O as [O|O]; apply offset_spec in O; [exists a, b | exists b, a].
  - split; [exact T|]. split; [exact O|]. exists k, s, e, s', e'. auto.
  - split; [now apply two_sym|]. split; [exact O|]. exists k, s', e', s, e. split; [exact Sb|]. split; [exact Sa|]. destruct C as [y [C|C]]; exists y; [right|left]; tauto.
Qed.
Ltac miss p q y := eapply (missed_intro _ p q); [vm_compute; reflexivity | reflexivity | reflexivity | lia | cbn; auto |
  exists "q0:fl_cl0.baseband"; do 4 eexists; split; [reflexivity|]; split; [reflexivity|]; exists y; vm_compute; (left; split; split; congruence) || (right; split; split; congruence)].
(** a shorter pulse on another port, or an idle pulse, hides the pulse before it *)
Theorem C61_other_port_hides_refuted : missed (Sched [(0, pulse "q0:fl" (ns 100)); (ns 10, pulse "q1:fl" (ns 10)); (ns 50, stitched "q0:fl" (ns 100))]).
Proof. miss 0%nat 2%nat (ns 60). Qed.
Theorem C61_idle_hides_refuted : missed (Sched [(0, pulse "q0:fl" (ns 100)); (ns 10, idle (ns 10)); (ns 50, stitched "q0:fl" (ns 100))]).
Proof. miss 0%nat 2%nat (ns 60). Qed.
(** two operations at identical times *)
Theorem C61_identical_times_refuted : missed (Sched [(0, stitched "q0:fl" (ns 100)); (0, pulse "q0:fl" (ns 100))]).
Proof. miss 0%nat 1%nat (ns 60). Qed.
(** an offset of no duration at the start of a pulse hides that pulse *)
Theorem C61_instant_offset_hides_refuted : missed (Sched [(0, pulse "q0:fl" (ns 100)); (0, Leaf {| oinfos := [offset "q0:fl" 0]; odur := 0 |}); (ns 50, stitched "q0:fl" (ns 100))]).
Proof. miss 0%nat 2%nat (ns 60). Qed.
(** later cycles of a loop are not looked at: the second cycle of this loop is from 100 ns to 200 ns *)
Theorem C61_loop_cycles_refuted : validate (Sched [(0, Loop 2 (Sched [(0, stitched "q0:fl" (ns 100))])); (ns 150, pulse "q0:fl" (ns 20))]) = Ok tt /\
  validate (Sched [(0, stitched "q0:fl" (ns 100)); (ns 100, stitched "q0:fl" (ns 100)); (ns 150, pulse "q0:fl" (ns 20))]) = Err RuntimeError.
Proof. split; vm_compute; reflexivity. Qed.
