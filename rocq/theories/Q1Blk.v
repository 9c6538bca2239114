(** Execution of code blocks on the Q1 machine. *)
From Coq Require Import Permutation Arith.
From Verif Require Import Base Q1Model Q1Machine Q1Spec.
Open Scope Z_scope.

Lemma steps_trans env p s1 e1 s2 e2 s3 :
  steps env p s1 e1 s2 -> steps env p s2 e2 s3 -> steps env p s1 (e1 ++ e2) s3.
Proof.
  induction 1 as [s|s s' s'' e e' Hs _ IH]; intros H2; [exact H2|].
  rewrite <- app_assoc. eapply steps_cons; eauto.
Qed.

Lemma steps_one env p s e s' : step env p s = Some (e, s') -> steps env p s e s'.
Proof. intros H. rewrite <- (app_nil_r e). eapply steps_cons; [exact H | constructor]. Qed.

(** label positions; [S0] is the position of the label of the repetition loop *)
Definition LabAt (S0 : nat) (l : label) (i : nat) : Prop :=
  match l with LStart => i = S0 | LLoop n => i = S n | LWait n => i = S n end.

Definition LabelsOK S0 (p : list instr) : Prop :=
  forall i l, nth_error p i = Some (ILabel l) -> LabAt S0 l i.

Lemma LabAt_unique S0 l i j : LabAt S0 l i -> LabAt S0 l j -> i = j.
Proof. destruct l; simpl; congruence. Qed.

Lemma label_eqb_eq a b : label_eqb a b = true <-> a = b.
Proof.
  destruct a, b; simpl; split; intros H; try discriminate; try reflexivity;
    try (apply Nat.eqb_eq in H; congruence); injection H as ->; apply Nat.eqb_refl.
Qed.

Lemma find_label_spec S0 l : forall p k0 k,
  (forall i l', nth_error p i = Some (ILabel l') -> LabAt S0 l' (k0 + i)) ->
  nth_error p k = Some (ILabel l) -> find_label l p k0 = Some (k0 + k)%nat.
Proof.
  induction p as [|x r IH]; intros k0 k HL Hk; [destruct k; discriminate|].
  assert (Hr : forall k', k = S k' -> find_label l r (S k0) = Some (k0 + k)%nat).
  { intros k' ->. rewrite (IH (S k0) k').
    - f_equal. lia.
    - intros i l' Hi. replace (S k0 + i)%nat with (k0 + S i)%nat by lia. apply HL. exact Hi.
    - exact Hk. }
  destruct k as [|k'].
  - simpl in Hk. injection Hk as ->. simpl. rewrite (proj2 (label_eqb_eq l l) eq_refl). f_equal. lia.
  - assert (Hx : forall l', x = ILabel l' -> label_eqb l l' = false).
    { intros l' ->. destruct (label_eqb l l') eqn:E; [|reflexivity]. apply label_eqb_eq in E. subst l'.
      pose proof (HL 0%nat l eq_refl) as H0. pose proof (HL (S k') l Hk) as H1.
      pose proof (LabAt_unique _ _ _ _ H0 H1). lia. }
    destruct x; cbn [find_label]; try (apply (Hr k' eq_refl)).
    rewrite (Hx _ eq_refl). apply (Hr k' eq_refl).
Qed.

Definition active (c : option (bool * Z)) : Prop := match c with Some (false, _) => False | _ => True end.

Definition bfun := (nat -> bool) -> Z -> sst -> list (Z * event) * sst.

Section Blk.
Variable S0 : nat.

(** [Blk c c' B cl pos code D f]: running [code], placed at [pos], in condition mode [c], takes [D] ns, ends in mode [c'],
    behaves as [f], and changes only registers in [cl] (clobbered) or [B] (tracked by the spec state). *)
Definition Blk (c c' : option (bool * Z)) (cl : list nat) (B : nat -> Prop) (pos : nat) (code : list instr)
    (env : nat -> nat -> bool) (D : Z) (f : Z -> sst -> list (Z * event) * sst) (P : sst -> Prop) : Prop :=
  forall pre post s st,
    List.length pre = pos -> LabelsOK S0 (pre ++ code ++ post) ->
    pc st = pos -> cnd st = c -> kc st = kcond s -> (forall r, B r -> rg st r = bins s r) -> P s ->
    exists st', steps env (pre ++ code ++ post) st (fst (f (tm st) s)) st' /\
      pc st' = (pos + List.length code)%nat /\ tm st' = tm st + D /\ cnd st' = c' /\
      kc st' = kcond (snd (f (tm st) s)) /\ (forall r, B r -> rg st' r = bins (snd (f (tm st) s)) r) /\
      (forall r, ~ B r -> ~ In r cl -> rg st' r = rg st r).

Definition any : sst -> Prop := fun _ => True.
Definition keep : Z -> sst -> list (Z * event) * sst := fun _ s => ([], s).
Definition then_ (D : Z) (f g : Z -> sst -> list (Z * event) * sst) : Z -> sst -> list (Z * event) * sst :=
  fun t s => let '(e1, s1) := f t s in let '(e2, s2) := g (t + D) s1 in (e1 ++ e2, s2).

Lemma blk_nil c cl B pos env P : Blk c c cl B pos [] env 0 keep P.
Proof.
  intros pre post s st Hp HL Hpc Hc Hk Hb _. exists st. simpl. split; [constructor|].
  split; [lia|]. split; [lia|]. auto.
Qed.

Lemma blk_app c c1 c2 cl B pos code1 code2 env D1 D2 f g (P Q : sst -> Prop) :
  (forall t s, P s -> Q (snd (f t s))) ->
  Blk c c1 cl B pos code1 env D1 f P -> Blk c1 c2 cl B (pos + List.length code1) code2 env D2 g Q ->
  Blk c c2 cl B pos (code1 ++ code2) env (D1 + D2) (then_ D1 f g) P.
Proof.
  intros HPQ H1 H2 pre post s st Hp HL Hpc Hc Hk Hb HP.
  rewrite <- app_assoc in HL |- *.
  destruct (H1 pre (code2 ++ post) s st Hp HL Hpc Hc Hk Hb HP) as [s1 [E1 [P1 [T1 [C1 [K1 [B1 F1]]]]]]].
  assert (HL2 : LabelsOK S0 ((pre ++ code1) ++ code2 ++ post)) by (rewrite <- app_assoc; exact HL).
  destruct (H2 (pre ++ code1) post (snd (f (tm st) s)) s1) as [s2 [E2 [P2 [T2 [C2 [K2 [B2 F2]]]]]]]; auto.
  { rewrite app_length. lia. }
  exists s2. unfold then_. rewrite T1 in *. destruct (f (tm st) s) as [e1 sp1]. cbn [fst snd] in *.
  destruct (g (tm st + D1) sp1) as [e2 sp2]. cbn [fst snd] in *.
  rewrite <- app_assoc in E2. split; [eapply steps_trans; eauto|]. rewrite app_length.
  split; [lia|]. split; [lia|]. split; [exact C2|]. split; [exact K2|]. split; [exact B2|].
  intros r Hr Hcl. rewrite F2, F1; auto.
Qed.

Lemma blk_weaken c c' cl cl' B pos code env D f P : incl cl cl' -> Blk c c' cl B pos code env D f P -> Blk c c' cl' B pos code env D f P.
Proof.
  intros Hi H pre post s st Hp HL Hpc Hc Hk Hb HP.
  destruct (H pre post s st Hp HL Hpc Hc Hk Hb HP) as [s1 [E1 [P1 [T1 [C1 [K1 [B1 F1]]]]]]].
  exists s1. repeat (split; [assumption|]). intros r Hr Hcl. apply F1; [exact Hr|]. intros Hx. apply Hcl, Hi, Hx.
Qed.

Lemma blk_ext c c' cl (B : nat -> Prop) pos code env D f g (P P' : sst -> Prop) :
  (forall s, P' s -> P s) ->
  (forall t s, P' s -> fst (f t s) = fst (g t s) /\ kcond (snd (f t s)) = kcond (snd (g t s)) /\
                forall r, B r -> bins (snd (f t s)) r = bins (snd (g t s)) r) ->
  Blk c c' cl B pos code env D f P -> Blk c c' cl B pos code env D g P'.
Proof.
  intros HP He H pre post s st Hp HL Hpc Hc Hk Hb HPs.
  destruct (H pre post s st Hp HL Hpc Hc Hk Hb (HP s HPs)) as [s1 [E1 [P1 [T1 [C1 [K1 [B1 F1]]]]]]].
  destruct (He (tm st) s HPs) as [E [K Bs]]. exists s1. rewrite <- E, <- K.
  repeat (split; [assumption|]). split; [|exact F1]. intros r Hr. rewrite B1 by exact Hr. apply Bs; exact Hr.
Qed.

Lemma nth_mid {A} (pre : list A) x post k : k = List.length pre -> nth_error (pre ++ [x] ++ post) k = Some x.
Proof. intros ->. rewrite nth_error_app2 by lia. rewrite Nat.sub_diag. reflexivity. Qed.

(** *** single instructions *)
Ltac one_instr Hp Hpc :=
  eexists; split; [apply steps_one; unfold step; rewrite (nth_mid _ _ _ _ (eq_trans Hpc (eq_sym Hp)))|].

Lemma blk_newline c cl B pos env P : Blk c c cl B pos [INewline] env 0 keep P.
Proof.
  intros pre post s st Hp HL Hpc Hc Hk Hb _. one_instr Hp Hpc; [reflexivity|].
  simpl. split; [lia|]. split; [lia|]. auto.
Qed.

Definition rt_fun (o : rtop) : Z -> sst -> list (Z * event) * sst :=
  fun t s => (map (pair t) (rt_event (bins s) o), s).

Definition opnd_in (B : nat -> Prop) (o : opnd) : Prop := match o with Imm _ => True | Reg r => B r end.
Definition rt_regs (B : nat -> Prop) (o : rtop) : Prop :=
  match o with
  | RAcquire _ b => opnd_in B b
  | RAcqW _ b x y => opnd_in B b /\ opnd_in B x /\ opnd_in B y
  | RAcqTTL _ b _ => opnd_in B b
  | RAcqTags _ b _ x => opnd_in B b /\ opnd_in B x
  | _ => True
  end.

Lemma val_in (B : nat -> Prop) f g o : (forall r, B r -> f r = g r) -> opnd_in B o -> val f o = val g o.
Proof. intros H. destruct o; simpl; auto. Qed.

Lemma rt_event_in (B : nat -> Prop) f g o : (forall r, B r -> f r = g r) -> rt_regs B o -> rt_event f o = rt_event g o.
Proof.
  intros H. destruct o; simpl; intros HR; try reflexivity.
  - rewrite (val_in B f g bin H HR). reflexivity.
  - destruct HR as [H1 [H2 H3]]. rewrite (val_in B f g bin H H1), (val_in B f g i0 H H2), (val_in B f g i1 H H3). reflexivity.
  - rewrite (val_in B f g bin H HR). reflexivity.
  - destruct HR as [H1 H2]. rewrite (val_in B f g bin H H1), (val_in B f g fine H H2). reflexivity.
Qed.

Lemma blk_rt c cl B pos o d env P : active c -> rt_regs B o -> Blk c c cl B pos [IRT o d] env d (rt_fun o) P.
Proof.
  intros Ha HR pre post s st Hp HL Hpc Hc Hk Hb _.
  assert (He : rt_event (rg st) o = rt_event (bins s) o) by (eapply rt_event_in; eauto).
  one_instr Hp Hpc.
  { rewrite Hc. unfold rt_fun. cbn [fst]. rewrite <- He. destruct c as [[[] e]|]; [reflexivity|contradiction|reflexivity]. }
  simpl. split; [lia|]. auto.
Qed.

Lemma blk_rt_skip cl B pos o d e env P : Blk (Some (false, e)) (Some (false, e)) cl B pos [IRT o d] env e keep P.
Proof.
  intros pre post s st Hp HL Hpc Hc Hk Hb _. one_instr Hp Hpc.
  { rewrite Hc. reflexivity. }
  simpl. split; [lia|]. auto.
Qed.

Definition param_fun (p : param) : Z -> sst -> list (Z * event) * sst := fun t s => ([(t, EParam p)], s).

Lemma blk_param c cl B pos q env P : active c -> Blk c c cl B pos [IParam q] env 0 (param_fun q) P.
Proof.
  intros Ha pre post s st Hp HL Hpc Hc Hk Hb _. one_instr Hp Hpc.
  { rewrite Hc. destruct c as [[[] e]|]; [reflexivity|contradiction|reflexivity]. }
  simpl. split; [lia|]. split; [lia|]. auto.
Qed.

Lemma blk_param_skip cl B pos q e env P : Blk (Some (false, e)) (Some (false, e)) cl B pos [IParam q] env 0 keep P.
Proof.
  intros pre post s st Hp HL Hpc Hc Hk Hb _. one_instr Hp Hpc.
  { rewrite Hc. reflexivity. }
  simpl. split; [lia|]. split; [lia|]. auto.
Qed.

Definition bump_fun (r : nat) : Z -> sst -> list (Z * event) * sst := fun _ s => ([], bump_bin (BReg r) s).

Lemma blk_add c cl (B : nat -> Prop) pos r env P : B r -> Blk c c cl B pos [IAdd r 1 r] env 0 (bump_fun r) P.
Proof.
  intros HB pre post s st Hp HL Hpc Hc Hk Hb _. one_instr Hp Hpc; [reflexivity|].
  simpl. split; [lia|]. split; [lia|]. split; [exact Hc|]. split; [exact Hk|]. split.
  - intros x Hx. unfold upd. destruct (Nat.eqb x r) eqn:E; [|apply Hb; exact Hx].
    rewrite Hb by exact HB. reflexivity.
  - intros x Hx _. unfold upd. destruct (Nat.eqb x r) eqn:E; [|reflexivity].
    apply Nat.eqb_eq in E. subst x. contradiction.
Qed.

Definition set_bin (r : nat) (z : Z) (s : sst) : sst := {| bins := upd (bins s) r z; kcond := kcond s |}.

(** initialise a tracked register *)
Lemma blk_move c cl (B : nat -> Prop) pos r z env P :
  B r -> 0 <= z < M32 -> Blk c c cl B pos [IMove z r] env 0 (fun _ s => ([], set_bin r z s)) P.
Proof.
  intros HB Hz pre post s st Hp HL Hpc Hc Hk Hb _. one_instr Hp Hpc; [reflexivity|].
  simpl. split; [lia|]. split; [lia|]. split; [exact Hc|]. split; [exact Hk|]. split.
  - intros x Hx. unfold upd. destruct (Nat.eqb x r) eqn:E; [|apply Hb; exact Hx].
    rewrite Z.mod_small by lia. reflexivity.
  - intros x Hx _. unfold upd. destruct (Nat.eqb x r) eqn:E; [|reflexivity].
    apply Nat.eqb_eq in E. subst x. contradiction.
Qed.

(** a scratch register tracked only during the block *)
Lemma blk_scratch c c' cl (B : nat -> Prop) pos r code env D f (P : sst -> Prop) :
  ~ B r -> In r cl ->
  Blk c c' cl (fun x => B x \/ x = r) pos code env D f P ->
  (forall s, P s -> forall z, P (set_bin r z s)) ->
  (forall t s z, P s -> fst (f t (set_bin r z s)) = fst (f t s) /\ kcond (snd (f t (set_bin r z s))) = kcond (snd (f t s)) /\
                 forall x, B x -> bins (snd (f t (set_bin r z s))) x = bins (snd (f t s)) x) ->
  Blk c c' cl B pos code env D f P.
Proof.
  intros HB Hcl H HPs Hf pre post s st Hp HL Hpc Hc Hk Hb HP.
  destruct (H pre post (set_bin r (rg st r) s) st Hp HL Hpc Hc) as [s1 [E1 [P1 [T1 [C1 [K1 [B1 F1]]]]]]].
  - exact Hk.
  - intros x [Hx| ->]; simpl; unfold upd.
    + destruct (Nat.eqb x r) eqn:E; [apply Nat.eqb_eq in E; subst; reflexivity | apply Hb; exact Hx].
    + rewrite Nat.eqb_refl. reflexivity.
  - apply HPs; exact HP.
  - destruct (Hf (tm st) s (rg st r) HP) as [Q1 [Q2 Q3]]. exists s1. rewrite <- Q1, <- Q2.
    repeat (split; [assumption|]). split.
    + intros x Hx. rewrite B1 by (left; exact Hx). apply Q3; exact Hx.
    + intros x Hx Hnc. apply F1; [|exact Hnc]. intros [H'| ->]; [apply Hx; exact H' | apply Hnc; exact Hcl].
Qed.

(** conditional markers *)
Lemma eval_cond_mask a o latch : (1 <= a <= 15)%nat -> eval_trig o (selected (cond_mask a) latch) = eval_op o (latch a).
Proof.
  intros H. assert (E : selected (cond_mask a) latch = [latch a]).
  { do 16 (destruct a as [|a]; [try lia; reflexivity|]). lia. }
  rewrite E. destruct o, (latch a); reflexivity.
Qed.

Lemma blk_setcond c cl B pos a o e env b : (1 <= a <= 15)%nat ->
  Blk c (Some (eval_op o b, e)) cl B pos [ISetCond (cond_mask a) o e] env 0 keep (fun s => env (kcond s) a = b).
Proof.
  intros Ha pre post s st Hp HL Hpc Hc Hk Hb HP. one_instr Hp Hpc; [reflexivity|].
  simpl. split; [lia|]. split; [lia|]. rewrite eval_cond_mask, Hk, HP by exact Ha. auto.
Qed.

Lemma blk_condoff c cl B pos env P :
  Blk c None cl B pos [ISetCondOff] env 0 (fun _ s => ([], {| bins := bins s; kcond := S (kcond s) |})) P.
Proof.
  intros pre post s st Hp HL Hpc Hc Hk Hb HP. one_instr Hp Hpc; [reflexivity|].
  simpl. split; [lia|]. split; [lia|]. split; [reflexivity|]. split; [congruence|]. auto.
Qed.

(** *** loops *)
Lemma loop_iter (c : option (bool * Z)) (cl : list nat) (B : nat -> Prop) pos r lab body env D f p pre post :
  ~ In r cl -> ~ B r ->
  Blk c c cl B (pos + 2) body env D f any ->
  p = pre ++ ([IMove 0 r] ++ [ILabel lab] ++ body ++ [ILoop r lab]) ++ post \/ True ->
  forall (n0 : Z),
  p = pre ++ (IMove n0 r :: ILabel lab :: body ++ [ILoop r lab]) ++ post ->
  List.length pre = pos -> LabelsOK S0 p ->
  forall (m : nat) st s,
    Z.of_nat (S m) < M32 ->
    pc st = (pos + 1)%nat -> cnd st = c -> kc st = kcond s -> (forall x, B x -> rg st x = bins s x) ->
    rg st r = Z.of_nat (S m) ->
    exists st', steps env p st (fst (iterate f (S m) (tm st) D s)) st' /\
      pc st' = (pos + 3 + List.length body)%nat /\ tm st' = tm st + D * Z.of_nat (S m) /\ cnd st' = c /\
      kc st' = kcond (snd (iterate f (S m) (tm st) D s)) /\
      (forall x, B x -> rg st' x = bins (snd (iterate f (S m) (tm st) D s)) x) /\
      (forall x, ~ B x -> x <> r -> ~ In x cl -> rg st' x = rg st x).
Proof.
  intros Hrc HrB Hbody _ n0 Hp Hlen HL.
  set (pre1 := pre ++ [IMove n0 r; ILabel lab]).
  assert (Hp1 : p = pre1 ++ body ++ ([ILoop r lab] ++ post)).
  { rewrite Hp. unfold pre1. cbn [app]. repeat (rewrite <- !app_assoc; cbn [app]). reflexivity. }
  assert (Hlab : nth_error p (pos + 1) = Some (ILabel lab)).
  { rewrite Hp. rewrite nth_error_app2 by lia. replace (pos + 1 - List.length pre)%nat with 1%nat by lia. reflexivity. }
  assert (Hloop : nth_error p (pos + 2 + List.length body) = Some (ILoop r lab)).
  { rewrite Hp1. rewrite app_assoc. rewrite nth_error_app2; rewrite app_length; unfold pre1; rewrite app_length; cbn [List.length]; [|lia].
    match goal with |- nth_error _ ?k = _ => replace k with 0%nat by lia end. reflexivity. }
  assert (Hfind : find_label lab p 0 = Some (pos + 1)%nat).
  { rewrite (find_label_spec S0 lab p 0 (pos + 1)); [f_equal; lia | exact HL | exact Hlab]. }
  induction m as [|m IH]; intros st s Hm Hpc Hc Hk Hb Hr.
  - (* last iteration *)
    destruct st as [pc0 rg0 tm0 c0 k0]. cbn [pc cnd kc rg tm] in *.
    assert (Hs1 : step env p {| pc := pc0; rg := rg0; tm := tm0; cnd := c0; kc := k0 |}
                  = Some ([], {| pc := S pc0; rg := rg0; tm := tm0; cnd := c0; kc := k0 |})).
    { unfold step. cbn [pc]. rewrite Hpc, Hlab. reflexivity. }
    destruct (Hbody pre1 ([ILoop r lab] ++ post) s {| pc := S pc0; rg := rg0; tm := tm0; cnd := c0; kc := k0 |})
      as [s1 [E1 [P1 [T1 [C1 [K1 [B1 F1]]]]]]]; cbn [pc cnd kc rg tm]; auto; try (unfold pre1; rewrite app_length; cbn [List.length]; lia); try lia.
    { rewrite <- Hp1. exact HL. }
    { exact I. }
    cbn [tm rg] in *. rewrite <- Hp1 in E1.
    assert (Hv : rg s1 r = 1) by (rewrite F1; auto).
    eexists. split.
    + cbn [iterate]. destruct (f tm0 s) as [e1 sp1] eqn:Ef. cbn [fst snd app] in *. rewrite app_nil_r.
      change e1 with ([] ++ e1). eapply steps_cons; [exact Hs1|].
      rewrite <- (app_nil_r e1). eapply steps_trans; [exact E1|]. apply steps_one.
      unfold step. rewrite P1, Hloop, Hv. change ((1 - 1) mod M32) with 0. cbn [Z.eqb]. reflexivity.
    + cbn [iterate]. destruct (f tm0 s) as [e1 sp1] eqn:Ef. cbn [fst snd app] in *.
      cbn [pc tm cnd kc rg]. split; [lia|]. split; [lia|]. split; [exact C1|]. split; [exact K1|]. split.
      * intros x Hx. unfold upd. destruct (Nat.eqb x r) eqn:E; [apply Nat.eqb_eq in E; subst; contradiction | apply B1; exact Hx].
      * intros x Hx Hxr Hxc. unfold upd. destruct (Nat.eqb x r) eqn:E; [apply Nat.eqb_eq in E; contradiction | apply F1; auto].
  - destruct st as [pc0 rg0 tm0 c0 k0]. cbn [pc cnd kc rg tm] in *.
    assert (Hs1 : step env p {| pc := pc0; rg := rg0; tm := tm0; cnd := c0; kc := k0 |}
                  = Some ([], {| pc := S pc0; rg := rg0; tm := tm0; cnd := c0; kc := k0 |})).
    { unfold step. cbn [pc]. rewrite Hpc, Hlab. reflexivity. }
    destruct (Hbody pre1 ([ILoop r lab] ++ post) s {| pc := S pc0; rg := rg0; tm := tm0; cnd := c0; kc := k0 |})
      as [s1 [E1 [P1 [T1 [C1 [K1 [B1 F1]]]]]]]; cbn [pc cnd kc rg tm]; auto; try (unfold pre1; rewrite app_length; cbn [List.length]; lia); try lia.
    { rewrite <- Hp1. exact HL. }
    { exact I. }
    cbn [tm rg] in *. rewrite <- Hp1 in E1.
    assert (Hv : rg s1 r = Z.of_nat (S (S m))) by (rewrite F1; auto).
    assert (Hs2 : step env p s1 = Some ([], {| pc := (pos + 1)%nat; rg := upd (rg s1) r (Z.of_nat (S m)); tm := tm s1; cnd := cnd s1; kc := kc s1 |})).
    { unfold step. rewrite P1, Hloop, Hv. replace ((Z.of_nat (S (S m)) - 1) mod M32) with (Z.of_nat (S m)).
      2:{ rewrite Z.mod_small; lia. }
      destruct (Z.of_nat (S m) =? 0) eqn:E; [apply Z.eqb_eq in E; lia|]. rewrite Hfind. reflexivity. }
    destruct (IH {| pc := (pos + 1)%nat; rg := upd (rg s1) r (Z.of_nat (S m)); tm := tm s1; cnd := cnd s1; kc := kc s1 |} (snd (f tm0 s)))
      as [s2 [E2 [P2 [T2 [C2 [K2 [B2 F2]]]]]]]; cbn [pc cnd kc rg tm]; auto; try lia.
    { intros x Hx. unfold upd. destruct (Nat.eqb x r) eqn:E; [apply Nat.eqb_eq in E; subst; contradiction | apply B1; exact Hx]. }
    { unfold upd. rewrite Nat.eqb_refl. reflexivity. }
    cbn [tm rg] in *. rewrite T1 in *.
    exists s2. change (S (S m)) with (S (S m)) at 1.
    remember (S m) as sm. cbn [iterate]. destruct (f tm0 s) as [e1 sp1] eqn:Ef. cbn [fst snd] in *.
    destruct (iterate f sm (tm0 + D) D sp1) as [e2 sp2] eqn:Ei. cbn [fst snd] in *.
    split.
    + change (e1 ++ e2) with ([] ++ e1 ++ e2). eapply steps_cons; [exact Hs1|]. eapply steps_trans; [exact E1|].
      change e2 with ([] ++ e2). eapply steps_cons; [exact Hs2 | exact E2].
    + split; [exact P2|]. split; [lia|]. split; [exact C2|]. split; [exact K2|]. split; [exact B2|].
      intros x Hx Hxr Hxc. rewrite F2 by auto. unfold upd.
      destruct (Nat.eqb x r) eqn:E; [apply Nat.eqb_eq in E; contradiction | apply F1; auto].
Qed.

Lemma blk_loop c cl cl' (B : nat -> Prop) pos r lab body env D f (n : Z) :
  In r cl -> ~ In r cl' -> incl cl' cl -> ~ B r -> 1 <= n < M32 ->
  Blk c c cl' B (pos + 2) body env D f any ->
  Blk c c cl B pos (IMove n r :: ILabel lab :: body ++ [ILoop r lab]) env (D * n)
      (fun t s => iterate f (Z.to_nat n) t D s) any.
Proof.
  intros Hrc Hrc' Hincl HrB Hn Hbody pre post s st Hp HL Hpc Hc Hk Hb _.
  set (p := pre ++ (IMove n r :: ILabel lab :: body ++ [ILoop r lab]) ++ post) in *.
  assert (Hmv : nth_error p pos = Some (IMove n r)).
  { unfold p. rewrite nth_error_app2 by lia. replace (pos - List.length pre)%nat with 0%nat by lia. reflexivity. }
  destruct st as [pc0 rg0 tm0 c0 k0]. cbn [pc cnd kc rg tm] in *.
  assert (Hs1 : step env p {| pc := pc0; rg := rg0; tm := tm0; cnd := c0; kc := k0 |}
                = Some ([], {| pc := S pc0; rg := upd rg0 r (n mod M32); tm := tm0; cnd := c0; kc := k0 |})).
  { unfold step. cbn [pc]. rewrite Hpc, Hmv. reflexivity. }
  rewrite Z.mod_small in Hs1 by lia.
  destruct (Z.to_nat n) as [|m] eqn:Em; [lia|].
  destruct (loop_iter c cl' B pos r lab body env D f p pre post Hrc' HrB Hbody (or_intror I) n eq_refl Hp HL m
              {| pc := S pc0; rg := upd rg0 r n; tm := tm0; cnd := c0; kc := k0 |} s)
    as [s2 [E2 [P2 [T2 [C2 [K2 [B2 F2]]]]]]]; cbn [pc cnd kc rg tm]; auto; try lia.
  { intros x Hx. unfold upd. destruct (Nat.eqb x r) eqn:E; [apply Nat.eqb_eq in E; subst; contradiction | apply Hb; exact Hx]. }
  { unfold upd. rewrite Nat.eqb_refl. lia. }
  cbn [tm rg] in *. exists s2. split.
  - match goal with |- steps _ _ _ ?e _ => change e with ([] ++ e) end. eapply steps_cons; [exact Hs1|exact E2].
  - split.
    + rewrite P2. cbn [List.length]. rewrite app_length. cbn [List.length]. lia.
    + split; [rewrite T2; f_equal; lia|]. split; [exact C2|]. split; [exact K2|]. split; [exact B2|].
      intros x Hx Hxc. rewrite F2; auto.
      * unfold upd. destruct (Nat.eqb x r) eqn:E; [apply Nat.eqb_eq in E; subst; contradiction|reflexivity].
      * intros ->. contradiction.
Qed.

End Blk.
