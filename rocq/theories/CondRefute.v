(** C42: a schedule that meets the hypotheses of the theorems, and what is not guaranteed. *)
From Verif Require Import Base CircModel CircProps CircProps5 QSort NumericModel CondModel CondSpec CondProps3 CondProps5 CondProps6 CondThms.
From Coq Require Import List Lia Lqa Setoid Bool Ascii.
Open Scope string_scope.
Open Scope list_scope.
Open Scope Q_scope.

Definition qrm : portclock -> result module_type := fun _ => Ok QRM.
Fixpoint esc (s : string) : string := match s with EmptyString => EmptyString | String c r => String "a" (String c (esc r)) end.
(** a hash of LatchReset(portclock) *)
Definition hash (p : portclock) : string := ("L" ++ esc (fst p) ++ "b" ++ snd p)%string.
Lemma hash_inj p q : hash p = hash q -> p = q.
Proof.
  destruct p as [a b], q as [c d]. unfold hash. cbn. intros [= H]. revert c H. induction a as [|x a IH]; intros [|y c] H; cbn in H; try discriminate.
  - injection H as ->. reflexivity.
  - injection H as -> H. apply IH in H. congruence.
Qed.
Definition ro : portclock := ("q0:res", "q0.ro").
Definition drive : portclock := ("q1:mw", "q1.01").
Definition plain (p : proto) : acq := {| a_proto := p; a_t0 := 1 # 10000000; a_pc := ro; a_addr := None; a_addrs := [] |}.
Definition measure (p : proto) : cop := KLeaf [plain p] [ro] (1 # 1000000).
Definition pulse : cop := KLeaf [] [drive] (2 # 100000000).
Definition cond (l : string) : cop := KCond l None None None 0 pulse.
Definition us (n : Z) : Q := n # 1000000.
(** an active reset, three times *)
Definition reset : cop := KSched (us 3) [("m", measure (PTrigger (Some "q0") (Some false) 5)); ("x", cond "q0")] [(0, "m"); (us 2, "x")].
Definition program : cop := KSched (us 9) [("rep", KLoop 3 reset)] [(0, "rep")].
Definition compiled : cop := match conditional_playback qrm hash program with Ok o => o | Err _ => program end.
Example compiles : conditional_playback qrm hash program = Ok compiled. Proof. vm_compute. reflexivity. Qed.
Example considered : Considered hash program.
Proof.
  split; [exact hash_inj|]. split; [eexists _, _, _; reflexivity|]. intros x S.
  assert (H : In x [program; KLoop 3 reset; reset; measure (PTrigger (Some "q0") (Some false) 5); cond "q0"]).
  { inversion S as [| |? ? ? k o ? G S1]; subst; [left; reflexivity|]. cbn [get] in G. destruct (String.eqb_spec "rep" k) as [<-|]; [|discriminate]. injection G as <-. inversion S1 as [|? ? ? S2|]; subst; [right; left; reflexivity|]. inversion S2 as [| |? ? ? k2 o2 ? G2 S3]; subst; [do 2 right; left; reflexivity|]. cbn [get] in G2. destruct (String.eqb_spec "m" k2) as [<-|].
    - injection G2 as <-. inversion S3; subst. do 3 right. left. reflexivity.
    - destruct (String.eqb_spec "x" k2) as [<-|]; [|discriminate]. injection G2 as <-. inversion S3; subst. do 4 right. left. reflexivity. }
  destruct H as [<-|[<-|[<-|[<-|[<-|[]]]]]]; cbn [NodeOk program reset measure cond].
  - split; [intros pc; reflexivity|]. intros a id [[= <- <-]|[]]. discriminate.
  - intros l a k lbl B. inversion B.
  - split; [intros pc; reflexivity|]. intros a id [[= <- <-]|[[= <- <-]|[]]]; discriminate.
  - split; [split|].
    + intros a k lbl [<-|[]] L. eexists _, [], k, lbl. split; [reflexivity|exact L].
    + intros a lbl [<-|[]]. discriminate.
    + intros a [<-|[]]. auto.
  - exact I.
Qed.
Lemma compiled_runs t x : Runs compiled 0 t x -> exists u, In (u, x) (match execs compiled 0 with Ok l => l | Err _ => [] end) /\ u == t.
Proof. intros R. destruct (execs compiled 0) as [l|] eqn:E; [|exfalso; vm_compute in E; discriminate]. apply (proj2 (execs_spec _ _ _ E)), R. Qed.
Definition latency : Q := 6 # 10000000.
Lemma compiled_cases t x : Runs compiled 0 t x -> exists n : Z, In n [0; 1; 2]%Z /\ ((exists c n0, x = KLeaf [{| a_proto := PTrigger (Some "q0") c n0; a_t0 := 1 # 10000000; a_pc := ro; a_addr := Some 1%Z; a_addrs := [] |}] [ro] (1 # 1000000) /\ t == us 3 * inject_Z n) \/ ((exists l a i c f b, x = KCond l a i c f b) /\ t == us 3 * inject_Z n + us 2) \/ (x = KLatch drive /\ t == us 3 * inject_Z n + (104 # 1000000000))).
Proof.
  intros R. apply compiled_runs in R. destruct R as (u & H & Eu). vm_compute in H.
  repeat match goal with H : _ \/ _ |- _ => destruct H as [H|H] end; [| | | | | | | | |destruct H]; injection H as Hu Hx; subst x; [exists 0%Z|exists 0%Z|exists 0%Z|exists 1%Z|exists 1%Z|exists 1%Z|exists 2%Z|exists 2%Z|exists 2%Z]; (split; [cbn; auto|]).
  1, 4, 7: left; eexists _, _; split; [reflexivity|rewrite <- Eu, <- Hu; vm_compute; reflexivity].
  1, 3, 5: right; left; split; [eauto 8|rewrite <- Eu, <- Hu; vm_compute; reflexivity].
  all: right; right; split; [reflexivity|rewrite <- Eu, <- Hu; vm_compute; reflexivity].
Qed.
Example waits : Waits compiled latency.
Proof.
  split; [|split].
  - intros ta la p d a k lbl tc x i c f b R Hi L R'. apply compiled_cases in R, R'. destruct R as (n & Hn & [(c0 & n0 & [= -> _ _] & Et)|[((? & ? & ? & ? & ? & ? & H) & _)|[H _]]]); try discriminate. destruct R' as (n' & Hn' & [(? & ? & H & _)|[(_ & Et')|[H _]]]); try discriminate. rewrite Et, Et'. unfold us, latency. cbn in Hn, Hn'. destruct Hn as [<-|[<-|[<-|[]]]], Hn' as [<-|[<-|[<-|[]]]]; ((left; reflexivity) || (right; vm_compute; discriminate)).
  - intros ta la p d a R Hi. apply compiled_cases in R. destruct R as (n & Hn & [(c0 & n0 & [= -> _ _] & Et)|[((? & ? & ? & ? & ? & ? & H) & _)|[H _]]]); try discriminate. destruct Hi as [<-|[]]. cbn. unfold latency. lra.
  - intros ta la p d a k l a' k' l' R Hi Hi' _ _. apply compiled_cases in R. destruct R as (n & Hn & [(c0 & n0 & [= -> _ _] & Et)|[((? & ? & ? & ? & ? & ? & H) & _)|[H _]]]); try discriminate. destruct Hi as [<-|[]], Hi' as [<-|[]]. reflexivity.
Qed.
(** a trigger 500 ns after the start of each of the three measurements *)
Definition triggers : list trigger := map (fun n => {| arrives := us 3 * n + (5 # 10000000); on_address := 1; started := us 3 * n |}) [0; 1; 2].
Example triggered : TriggersOf compiled latency triggers.
Proof.
  assert (X : forall i : Z, (0 <= i < 3)%Z -> Runs compiled 0 (us 3 * inject_Z i) (KLeaf [{| a_proto := PTrigger (Some "q0") (Some false) 5; a_t0 := 1 # 10000000; a_pc := ro; a_addr := Some 1%Z; a_addrs := [] |}] [ro] (1 # 1000000))).
  { intros i Hi. let c := eval vm_compute in compiled in change compiled with c. eapply R_sched; [left; reflexivity|reflexivity|]. eapply R_loop; [exact Hi|]. eapply R_sched; [left; reflexivity|reflexivity|]. constructor. cbn [dur_of]. unfold us. lra. }
  intros r H. apply in_map_iff in H. destruct H as (n & <- & H). assert (E : exists i : Z, (0 <= i < 3)%Z /\ n = inject_Z i). { destruct H as [<-|[<-|[<-|[]]]]; [exists 0%Z|exists 1%Z|exists 2%Z]; (split; [lia|reflexivity]). } destruct E as (i & Hi & ->).
  eexists _, _, _, _, _, None. split; [apply (X i Hi)|]. split; [left; reflexivity|]. split; [reflexivity|]. split; [reflexivity|]. cbn [arrives a_t0 started on_address]. unfold latency. lra.
Qed.
(** the theorem applies: at each conditional the counter has exactly the trigger of its own measurement *)
Example counter_example : forall tc l x i c f b, Runs compiled 0 tc (KCond l x i c f b) -> exists addr ta, x = Some addr /\ forall r, In r triggers -> Uses drive b -> (CountedAt compiled drive addr tc r <-> on_address r = addr /\ started r == ta).
Proof.
  intros tc l x i c f b R. destruct (C42_counter _ _ _ _ _ _ considered compiles triggered waits _ _ _ _ _ _ _ R) as (addr & ta & la & p & d & a & k & Hx & _ & _ & _ & _ & _ & H). exists addr, ta. split; [exact Hx|]. intros r Hr Hd. apply H; assumption.
Qed.

(** ** What is not guaranteed *)
Definition one (ops : list (string * cop)) (items : list (Q * string)) : cop := KSched (us 9) ops items.
(** A weighted thresholded acquisition counts as the acquisition of a conditional but gets no address and no LatchReset: the conditional gets an address nothing sends to. *)
Theorem C42_weighted_refuted : exists o', conditional_playback qrm hash (one [("m", measure (PWeighted (Some "q0"))); ("x", cond "q0")] [(0, "m"); (us 2, "x")]) = Ok o' /\
  Runs o' 0 0 (measure (PWeighted (Some "q0"))) /\ (exists tc i c f b, Runs o' 0 tc (KCond "q0" (Some 1%Z) i c f b)) /\ forall la p d a k z, Sub (KLeaf la p d) o' -> In a la -> ~ SendsTo a k z.
Proof.
  eexists. split; [vm_compute; reflexivity|]. split; [eapply R_sched; [left; reflexivity|reflexivity|constructor; reflexivity]|]. split; [exists (us 2), None, None, 0, pulse; eapply R_sched; [right; left; reflexivity|reflexivity|constructor; reflexivity]|].
  intros la p d a k z S. inversion S as [| |? ? ? k2 o2 ? G2 S3]; subst. cbn [get] in G2. destruct (String.eqb_spec "m" k2) as [<-|].
  - injection G2 as <-. inversion S3; subst. intros [<-|[]]. destruct k as [k|]; cbn; [intros []|discriminate].
  - destruct (String.eqb_spec "x" k2) as [<-|]; [|discriminate]. injection G2 as <-. inversion S3.
Qed.
(** A conditional that is listed before its trigger count has no settings, although it runs after it. *)
Theorem C42_settings_order_refuted : exists o', conditional_playback qrm hash (one [("x", cond "q0"); ("m", measure (PTrigger (Some "q0") (Some true) 5))] [(us 2, "x"); (0, "m")]) = Ok o' /\ Runs o' 0 (us 2) (KCond "q0" (Some 1%Z) None None 0 pulse).
Proof. eexists. split; [vm_compute; reflexivity|]. eapply R_sched; [left; reflexivity|reflexivity|constructor; reflexivity]. Qed.
(** A measurement that is the whole body of a loop has LatchResets for its first repetition only: the second conditional sees the triggers of both repetitions. *)
Definition looped : cop := one [("m", KLoop 2 (KLeaf [plain (PTrigger (Some "q0") (Some false) 5)] [ro] (us 3))); ("x", KLoop 2 (KCond "q0" None None None (us 3) (KLeaf [] [drive] 0)))] [(0, "m"); (us 2, "x")].
Theorem C42_loop_body_refuted : exists o' r1 r2, conditional_playback qrm hash looped = Ok o' /\ TriggersOf o' latency [r1; r2] /\ Waits o' latency /\ started r1 == 0 /\ started r2 == us 3 /\
  Runs o' 0 (us 5) (KCond "q0" (Some 1%Z) (Some false) (Some 5%Z) (us 3) (KLeaf [] [drive] 0)) /\ CountedAt o' drive 1 (us 5) r1 /\ CountedAt o' drive 1 (us 5) r2.
Proof.
  destruct (conditional_playback qrm hash looped) as [o'|] eqn:E; [|exfalso; vm_compute in E; discriminate]. vm_compute in E. injection E as <-. match goal with |- exists _ _ _, Ok ?c = _ /\ _ => set (o' := c) end.
  exists o', {| arrives := 5 # 10000000; on_address := 1; started := 0 |}, {| arrives := us 3 + (5 # 10000000); on_address := 1; started := us 3 |}. split; [reflexivity|].
  destruct (execs o' 0) as [xs|] eqn:X; [|exfalso; vm_compute in X; discriminate]. pose proof (proj2 (execs_spec _ _ _ X)) as Sp. vm_compute in X. injection X as <-.
  assert (A : forall i : Z, (0 <= i < 2)%Z -> exists x, Runs o' 0 (us 3 * inject_Z i) x /\ x = KLeaf [{| a_proto := PTrigger (Some "q0") (Some false) 5; a_t0 := 1 # 10000000; a_pc := ro; a_addr := Some 1%Z; a_addrs := [] |}] [ro] (us 3)).
  { intros i Hi. eexists. split; [|reflexivity]. eapply R_sched; [left; reflexivity|reflexivity|]. eapply R_loop; [exact Hi|]. constructor. cbn [dur_of]. unfold us. lra. }
  assert (K : forall t x, Runs o' 0 t x -> (exists a, x = KLeaf [a] [ro] (us 3) /\ a_t0 a = 1 # 10000000 /\ (t == 0 \/ t == us 3)) \/ ((t == us 2 \/ t == us 5) /\ exists l ad i c f b, x = KCond l ad i c f b) \/ (x = KLatch drive /\ t == 104 # 1000000000)).
  { intros t x R. destruct (Sp _ _ R) as (u & H & Eu). cbn [In] in H. repeat match goal with H : _ \/ _ |- _ => destruct H as [H|H] end; [| | | | |destruct H]; injection H as Hu Hx; subst x.
    1, 2: left; eexists; split; [reflexivity|]; split; [reflexivity|]; rewrite <- Eu, <- Hu; ((left; reflexivity) || (right; reflexivity)).
    1, 2: right; left; split; [rewrite <- Eu, <- Hu; ((left; reflexivity) || (right; reflexivity))|eauto 8].
    right; right. split; [reflexivity|]. rewrite <- Eu, <- Hu. reflexivity. }
  split; [|split; [|split; [reflexivity|split; [reflexivity|split; [|split]]]]].
  - intros r [<-|[<-|[]]]; [destruct (A 0%Z) as (x & R & ->); [lia|]|destruct (A 1%Z) as (x & R & ->); [lia|]]; (eexists _, _, _, _, _, None; split; [exact R|]; split; [left; reflexivity|]; split; [reflexivity|]; split; [reflexivity|]; unfold latency, us; cbn [arrives a_t0]; split; vm_compute; discriminate).
  - split; [|split].
    + intros ta la p d a k lbl tc x i c f b R Hi L R'. destruct (K _ _ R) as [(a0 & _ & _ & Et)|[(_ & (? & ? & ? & ? & ? & ? & H))|[H _]]]; try discriminate. destruct (K _ _ R') as [(a1 & H & _)|[(Et' & _)|[H _]]]; try discriminate. unfold us, latency in *. lra.
    + intros ta la p d a R Hi. destruct (K _ _ R) as [(a0 & [= -> _ _] & E0 & Et)|[(_ & (? & ? & ? & ? & ? & ? & H))|[H _]]]; try discriminate. destruct Hi as [<-|[]]. rewrite E0. unfold latency. lra.
    + intros ta la p d a k l a' k' l' R Hi Hi' _ _. destruct (K _ _ R) as [(a0 & [= -> _ _] & E0 & Et)|[(_ & (? & ? & ? & ? & ? & ? & H))|[H _]]]; try discriminate. destruct Hi as [<-|[]], Hi' as [<-|[]]. reflexivity.
  - eapply R_sched; [right; left; reflexivity|reflexivity|]. apply (R_loop _ _ _ _ _ 1); [lia|]. constructor. vm_compute. reflexivity.
  - split; [reflexivity|]. split; [vm_compute; discriminate|]. intros (t & R & Ht). destruct (K _ _ R) as [(a0 & H & _)|[(_ & (? & ? & ? & ? & ? & ? & H))|[_ Et]]]; try discriminate. cbn [arrives] in Ht. unfold us in *. lra.
  - split; [reflexivity|]. split; [vm_compute; discriminate|]. intros (t & R & Ht). destruct (K _ _ R) as [(a0 & H & _)|[(_ & (? & ? & ? & ? & ? & ? & H))|[_ Et]]]; try discriminate. cbn [arrives] in Ht. unfold us in *. lra.
Qed.
(** The second acquisition of an operation does not count as the acquisition of a conditional: the schedule is refused although the acquisition has the label and runs before. *)
Theorem C42_second_acquisition_refuted : conditional_playback qrm hash (one [("m", KLeaf [plain (PThresholded (Some "a")); plain (PThresholded (Some "b"))] [ro] (us 1)); ("x", cond "a"); ("y", cond "b")] [(0, "m"); (us 2, "x"); (us 3, "y")]) = Err RuntimeError.
Proof. vm_compute. reflexivity. Qed.
(** An acquisition with a label no conditional uses is accepted. *)
Theorem C42_unused_refuted : exists o', conditional_playback qrm hash (one [("m", measure (PThresholded (Some "a")))] [(0, "m")]) = Ok o' /\ forall l x i c f b, ~ Sub (KCond l x i c f b) o'.
Proof.
  eexists. split; [vm_compute; reflexivity|]. intros l x i c f b S. inversion S as [| |? ? ? k2 o2 ? G2 S3]; subst. cbn [get] in G2. destruct (String.eqb_spec "m" k2) as [<-|]; [|discriminate]. injection G2 as <-. inversion S3.
Qed.
(** Fifteen labels are accepted. *)
Example fifteen : is_ok (conditional_playback qrm hash (one (map (fun n => (n, measure (PThresholded (Some n)))) ["a"; "b"; "c"; "d"; "e"; "f"; "g"; "h"; "i"; "j"; "k"; "l"; "m"; "n"; "o"] ++ [("A", cond "a"); ("O", cond "o")]) [(0, "a"); (us 2, "A"); (us 3, "o"); (us 5, "O")])).
Proof. eexists. vm_compute. reflexivity. Qed.
