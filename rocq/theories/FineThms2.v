(** C67: where the check is not enough. *)
From Verif Require Import Base NumericModel NumericProps FineModel FineSpec FineProps FineThms.
From Coq Require Import Lqa.
Local Open Scope Q_scope.

Definition mk (k : kind) (s d f e : Q) : op := {| knd := k; start := s; dur := d; fine_start := f; fine_end := e |}.
Lemma exact_mk k s d f e m n : f == inject_Z m / 128 -> e == inject_Z n / 128 -> exact (mk k s d f e).
Proof. intros H1 H2. split; [exists m|exists n]; assumption. Qed.
Example accepted_example : check [mk Pulse 0 20 (1#2) (1#4); mk Other 5 0 0 0; mk Pulse 30 8 (3#4) (3#4)] = Ok tt /\ executed Pulse [mk Pulse 0 20 (1#2) (1#4); mk Other 5 0 0 0; mk Pulse 30 8 (3#4) (3#4)] = Ok [64; 2592; 3936; 4960]%Z.
Proof. split; vm_compute; reflexivity. Qed.
Example refused_example : check [mk Pulse 0 6 0 (1#2)] = Err OtherErr /\ check [mk Acq 0 20 0 (1#2); mk Acq 24 20 0 0] = Err OtherErr.
Proof. split; vm_compute; reflexivity. Qed.

Lemma not_apart x y : negb ((y - x) mod 128 =? 0)%Z && (y - x <? 896)%Z = true -> ~ apart x y.
Proof.
  intros H [[j D]|D]; apply andb_true_iff in H; destruct H as [H1 H2]; [|apply Z.ltb_lt in H2; lia]. apply negb_true_iff, Z.eqb_neq in H1. apply H1. rewrite D. apply Z.mod_mul. lia.
Qed.

(** An acquisition of 8 ns: the instruction that ends it is executed 4 ns early, 4.5 ns after the one that starts it. *)
Theorem C67_acquisition_refuted : exists l v, exactly l /\ (forall o, In o l -> 0 <= start o /\ 0 <= fine_start o) /\ check l = Ok tt /\ executed Acq l = Ok v /\ neighbours Z.le v /\ ~ pairs apart v.
Proof.
  exists [mk Acq 100 8 0 (1#2)], [12800; 13376]%Z. split; [intros o [<-|[]]; apply (exact_mk _ _ _ _ _ 0 64); reflexivity|]. split; [intros o [<-|[]]; cbn; split; discriminate|]. split; [vm_compute; reflexivity|]. split; [vm_compute; reflexivity|]. split.
  - rewrite !neighbours_cons. split; [intros y r E; injection E as <- _; lia|]. split; [discriminate|apply neighbours_nil].
  - intros H. exact (not_apart 12800 13376 eq_refl (H [] 12800%Z [] 13376%Z [] eq_refl)).
Qed.
(** The operations are checked in the order of the list, which is not the order of time within an operation or between overlapping ones. *)
Theorem C67_order_refuted : exists l v x y, exactly l /\ (forall o, In o l -> 0 <= start o /\ 0 <= fine_start o) /\ check l = Ok tt /\ executed Pulse l = Ok v /\ In x v /\ In y v /\ (x <= y)%Z /\ ~ apart x y.
Proof.
  exists [mk Pulse 0 4 0 0; mk Pulse 200 4 (1#2) (1#2); mk Pulse 204 4 (1#2) (1#2); mk Pulse 8 4 (1#2) (1#2)], [0; 512; 25664; 26176; 26176; 26688; 1088; 1600]%Z, 512%Z, 1088%Z.
  split; [intros o [<-|[<-|[<-|[<-|[]]]]]; [apply (exact_mk _ _ _ _ _ 0 0)|apply (exact_mk _ _ _ _ _ 64 64)|apply (exact_mk _ _ _ _ _ 64 64)|apply (exact_mk _ _ _ _ _ 64 64)]; reflexivity|].
  split; [intros o [<-|[<-|[<-|[<-|[]]]]]; cbn; split; discriminate|]. split; [vm_compute; reflexivity|]. split; [vm_compute; reflexivity|]. split; [cbn; auto|]. split; [cbn; auto 10|]. split; [lia|]. apply not_apart. reflexivity.
Qed.
(** The end of a loop (or repetition) is not checked against its start. *)
Theorem C67_loop_refuted : exists l t, exactly l /\ (forall o, In o l -> 0 <= start o /\ 0 <= fine_start o) /\ check l = Ok tt /\ (forall o, In o l -> start o + dur o <= t) /\ check (l ++ map (again t) l)%list = Err OtherErr.
Proof.
  exists [mk Pulse 0 8 0 (1#2)], 12. split; [intros o [<-|[]]; apply (exact_mk _ _ _ _ _ 0 64); reflexivity|]. split; [intros o [<-|[]]; cbn; split; discriminate|]. split; [vm_compute; reflexivity|]. split; [intros o [<-|[]]; discriminate|]. vm_compute. reflexivity.
Qed.
(** Delays that are equal to the picosecond can be different delays of the hardware. *)
Theorem C67_rounding_refuted : exists l v, (forall o, In o l -> 0 <= start o /\ 0 <= fine_start o) /\ check l = Ok tt /\ executed Pulse l = Ok v /\ neighbours Z.le v /\ ~ pairs apart v.
Proof.
  exists [mk Pulse 0 4 (36#10000) (44#10000)], [0; 513]%Z. split; [intros o [<-|[]]; cbn; split; discriminate|]. split; [vm_compute; reflexivity|]. split; [vm_compute; reflexivity|]. split.
  - rewrite !neighbours_cons. split; [intros y r E; injection E as <- _; lia|]. split; [discriminate|apply neighbours_nil].
  - intros H. exact (not_apart 0 513 eq_refl (H [] 0%Z [] 513%Z [] eq_refl)).
Qed.
(** A delay is executed if it is at most 15.99 ns, and refused otherwise. *)
Theorem C67_range : forall x k, x == inject_Z k / 128 -> (to_int x = Ok k <-> 0 <= x /\ x <= 2047 # 128).
Proof.
  intros x k H. unfold to_int. fold (fine x). rewrite (fine_of x k H). unfold MAX_INT. rewrite H.
  assert (A : (0 <= k)%Z <-> 0 <= inject_Z k / 128) by (rewrite Zle_Qle; change (inject_Z 0) with 0; split; intros G; [apply Qle_shift_div_l; [reflexivity|lra]|assert (E : inject_Z k == inject_Z k / 128 * 128) by field; rewrite E; lra]).
  assert (B : (k <= 2047)%Z <-> inject_Z k / 128 <= 2047 # 128) by (rewrite Zle_Qle; change (inject_Z 2047) with 2047; split; intros G; [apply Qle_shift_div_r; [reflexivity|lra]|assert (E : inject_Z k == inject_Z k / 128 * 128) by field; rewrite E; lra]).
  rewrite <- A, <- B. destruct (0 <=? k)%Z eqn:E1; [apply Z.leb_le in E1|apply Z.leb_gt in E1; split; [discriminate|lia]]. destruct (k <=? 2047)%Z eqn:E2; [apply Z.leb_le in E2|apply Z.leb_gt in E2; split; [discriminate|lia]]. cbn [andb]. tauto.
Qed.
