(** C57: a function that meets the contract of nx.shortest_path, concrete compilations, and what keep_original_schedule=False costs *)
From Verif Require Import Base PipeModel PipeSpec PipeThms.

Section Search.
  Variable g : list (nat * nat).
  Fixpoint first_some {A B} (f : A -> option B) (l : list A) : option B := match l with [] => None | x :: r => match f x with Some y => Some y | None => first_some f r end end.
  (* a path with [k] edges *)
  Fixpoint of_length (k a b : nat) : option (list nat) :=
    match k with
    | O => if Nat.eqb a b then Some [a] else None
    | S k => first_some (fun '(x, y) => if Nat.eqb x a then option_map (cons a) (of_length k y b) else None) g
    end.
  Definition search (a b : nat) : result (list nat) := match first_some (fun k => of_length k a b) (List.seq 0 (S (List.length g))) with Some p => Ok p | None => Err OtherErr end.
  Lemma first_some_in {A B} (f : A -> option B) l y : first_some f l = Some y -> exists l1 x l2, l = l1 ++ x :: l2 /\ f x = Some y /\ forall z, In z l1 -> f z = None.
  Proof.
    induction l as [|x l IH]; cbn [first_some]; [discriminate|]. destruct (f x) eqn:E; [intros [= ->]; exists [], x, l; repeat split; [exact E|intros z []]|]. intros H. destruct (IH H) as (l1 & x' & l2 & -> & H1 & H2). exists (x :: l1), x', l2. repeat split; [exact H1|]. intros z [<-|Hz]; auto.
  Qed.
  Lemma first_some_none {A B} (f : A -> option B) l : first_some f l = None -> forall x, In x l -> f x = None.
  Proof. induction l as [|x l IH]; cbn [first_some]; [intros _ ? []|]. destruct (f x) eqn:E; [discriminate|]. intros H z [<-|Hz]; auto. Qed.
  Lemma last_cons (y : nat) p d d' : last (y :: p) d = last (y :: p) d'.
  Proof. revert y. induction p as [|q p IH]; intros y; [reflexivity|]. apply (IH q). Qed.
  Lemma of_length_path k : forall a b p, of_length k a b = Some p -> path_between g a b p /\ List.length p = S k.
  Proof.
    induction k as [|k IH]; intros a b p; cbn [of_length].
    - destruct (Nat.eqb_spec a b) as [->|]; [|discriminate]. intros [= <-]. repeat split. discriminate.
    - intros H. apply first_some_in in H. destruct H as (l1 & [x y] & l2 & E & H & _). destruct (Nat.eqb_spec x a) as [->|]; [|discriminate H]. destruct (of_length k y b) as [q|] eqn:Eq; [|discriminate H]. injection H as <-. apply IH in Eq. destruct Eq as [(Q1 & Q2 & Q3 & Q4) Q5].
      destruct q as [|z q]; [congruence|]. injection Q2 as ->. repeat split; [rewrite E; apply in_or_app; right; left; reflexivity|exact Q1|change (last (y :: q) a = b); rewrite (last_cons y q a y); exact Q3|discriminate|cbn in *; lia].
  Qed.
  Lemma of_length_none k : forall a b, of_length k a b = None -> forall p, path_between g a b p -> List.length p <> S k.
  Proof.
    induction k as [|k IH]; intros a b; cbn [of_length].
    - destruct (Nat.eqb_spec a b) as [->|Hab]; [discriminate|]. intros _ p (P1 & P2 & P3 & P4) Hl. destruct p as [|x [|y p]]; cbn in Hl; try lia. injection P2 as ->. cbn in P3. congruence.
    - intros H p (P1 & P2 & P3 & P4) Hl. destruct p as [|x [|y p]]; cbn in Hl; try lia. injection P2 as ->. destruct P1 as [P1 P1']. pose proof (first_some_none _ _ H (a, y) P1) as H'. cbn in H'. rewrite Nat.eqb_refl in H'. destruct (of_length k y b) eqn:E; [discriminate H'|]. apply (IH y b E (y :: p)); [|cbn; lia]. repeat split; [exact P1'|rewrite (last_cons y p y a); exact P3|discriminate].
  Qed.
  Lemma repeated (l : list nat) : NoDup l \/ exists x l1 l2 l3, l = l1 ++ x :: l2 ++ x :: l3.
  Proof.
    induction l as [|a l [IH|(x & l1 & l2 & l3 & ->)]]; [left; constructor| |right; exists x, (a :: l1), l2, l3; reflexivity]. destruct (in_dec Nat.eq_dec a l) as [Hi|Hi]; [|left; constructor; assumption]. apply in_split in Hi. destruct Hi as (l1 & l2 & ->). right. exists a, [], l1, l2. reflexivity.
  Qed.
  Lemma path_app p q x : is_path g (p ++ x :: q) <-> is_path g (p ++ [x]) /\ is_path g (x :: q).
  Proof.
    induction p as [|a p IH]; [cbn; tauto|]. destruct p as [|b p]; [cbn; tauto|]. change (is_path g ((a :: b :: p) ++ x :: q)) with (In (a, b) g /\ is_path g ((b :: p) ++ x :: q)). change (is_path g ((a :: b :: p) ++ [x])) with (In (a, b) g /\ is_path g ((b :: p) ++ [x])). tauto.
  Qed.
  Lemma starts_incl p x : is_path g (p ++ [x]) -> incl p (map fst g).
  Proof.
    induction p as [|a p IH]; [intros _ z []|]. destruct p as [|b p].
    - cbn. intros [H _] z [<-|[]]. apply in_map_iff. exists (a, x). auto.
    - intros H. change (In (a, b) g /\ is_path g ((b :: p) ++ [x])) in H. destruct H as [H1 H2]. intros z [<-|Hz]; [apply in_map_iff; exists (a, b); auto|]. apply IH; assumption.
  Qed.
  Lemma last_app (p : list nat) x d : last (p ++ [x]) d = x.
  Proof. apply last_last. Qed.
  Lemma short_path : forall n a b p, (List.length p <= n)%nat -> path_between g a b p -> exists q, path_between g a b q /\ (List.length q <= S (List.length g))%nat.
  Proof.
    induction n as [|n IH]; intros a b p Hn (P1 & P2 & P3 & P4); [destruct p; [congruence|cbn in Hn; lia]|].
    destruct (exists_last P4) as (q & x & ->). destruct (repeated q) as [Hd|(y & l1 & l2 & l3 & ->)].
    - exists (q ++ [x]). split; [repeat split; assumption|]. pose proof (NoDup_incl_length Hd (starts_incl q x P1)) as H. rewrite map_length in H. rewrite app_length. cbn. lia.
    - apply (IH a b (l1 ++ y :: l3 ++ [x])).
      + rewrite !app_length in *. cbn in *. rewrite !app_length in *. cbn in *. rewrite ?app_length in *. cbn in *. lia.
      + rewrite last_app in P3. subst b. repeat split.
        * rewrite <- app_assoc in P1. cbn [app] in P1. rewrite <- app_assoc in P1. cbn [app] in P1. apply path_app in P1. destruct P1 as [P1 P1']. apply (path_app (y :: l2) (l3 ++ [x]) y) in P1'. apply path_app. tauto.
        * destruct l1; cbn in *; exact P2.
        * change (y :: l3 ++ [x]) with ((y :: l3) ++ [x]). rewrite app_assoc. apply last_app.
        * destruct l1; discriminate.
  Qed.
End Search.
Theorem search_contract : shortest_path_contract search.
Proof.
  intros g a b. unfold search. destruct (first_some _ _) as [p|] eqn:E.
  - apply first_some_in in E. destruct E as (l1 & k & l2 & El & Hk & Hl). apply of_length_path in Hk. destruct Hk as [Hp Hlen]. split; [exact Hp|]. intros q Hq. rewrite Hlen.
    destruct (le_lt_dec (S k) (List.length q)) as [H|H]; [exact H|exfalso]. assert (Hq0 : List.length q <> 0%nat) by (destruct Hq as (_ & _ & _ & Hq); destruct q; [congruence|discriminate]).
    apply (of_length_none g (List.length q - 1) a b) with (p := q); [|exact Hq|lia]. apply Hl. assert (Hl1 : l1 = List.seq 0 k).
    { assert (Hlen1 : (List.length l1 < S (List.length g))%nat) by (rewrite <- (seq_length (S (List.length g)) 0), El, app_length; cbn; lia). assert (Hnth : nth_error (List.seq 0 (S (List.length g))) (List.length l1) = Some k) by (rewrite El, nth_error_app2, Nat.sub_diag by lia; reflexivity).
      rewrite nth_error_nth' with (d := 0%nat) in Hnth by (rewrite seq_length; exact Hlen1). rewrite seq_nth in Hnth by exact Hlen1. injection Hnth as Hnth. cbn in Hnth. replace (S (List.length g)) with (List.length l1 + (S (List.length g) - List.length l1))%nat in El by lia. rewrite seq_app in El. apply (f_equal (firstn (List.length l1))) in El.
      rewrite !firstn_app, seq_length, Nat.sub_diag, !firstn_O, !app_nil_r, firstn_all, firstn_all2 in El by (rewrite seq_length; lia). subst k. symmetry. exact El. }
    rewrite Hl1. apply in_seq. lia.
  - intros (_ & _ & p & Hp). destruct (short_path g (List.length p) a b p (le_n _) Hp) as (q & Hq & Hlen). assert (Hq0 : List.length q <> 0%nat) by (destruct Hq as (_ & _ & _ & Hq); destruct q; [congruence|discriminate]).
    apply (of_length_none g (List.length q - 1) a b) with (p := q); [|exact Hq|lia]. apply (first_some_none _ _ E). apply in_seq. lia.
Qed.

(** Passes on numbers: one that adds in place, one that doubles into a new object, one that raises after emptying the schedule, one that writes the compiled instructions *)
Definition plus (n : Z) : pass Z := fun o s => ({| data := data o + n + s; instructions := instructions o; is_compiled := is_compiled o |}, Same)%Z.
Definition double : pass Z := fun o _ => (o, New {| data := 2 * data o; instructions := instructions o; is_compiled := is_compiled o |})%Z.
Definition fail : pass Z := fun o _ => ({| data := 0; instructions := instructions o; is_compiled := is_compiled o |}, Raises ValueError)%Z.
Definition emit : pass Z := fun o _ => ({| data := data o; instructions := data o; is_compiled := is_compiled o |}, Same)%Z.
Definition cfg (keep : bool) (dev hw : list (pass Z)) : config Z := {| keep_original_schedule := keep; device_passes := Some dev; hardware_passes := Some hw; others := 0%Z |}.
Definition sched1 : sobj := {| data := 5; instructions := 0; is_compiled := false |}.
Definition old : sobj := {| data := 5; instructions := 77; is_compiled := true |}.

Example C57_case : let '(c, h) := session Z search (new_compiler Z None) [sched1; old] [(0%nat, Some (cfg true [double; double] [])); (0%nat, Some (cfg true [fail] []))] in
  compile Z search c h 0%nat (Some (cfg true [plus 1; double] [plus 3; emit])) = (fst (fst (compile Z search c h 0%nat (Some (cfg true [plus 1; double] [plus 3; emit])))), snd (fst (compile Z search c h 0%nat (Some (cfg true [plus 1; double] [plus 3; emit])))), Ok 9%nat) /\
  nth_error (snd (fst (compile Z search c h 0%nat (Some (cfg true [plus 1; double] [plus 3; emit]))))) 9%nat = Some {| data := 15; instructions := 15; is_compiled := true |} /\
  compilation Z [plus 1; double] [plus 3; emit] 0%Z sched1 = Ok {| data := 15; instructions := 15; is_compiled := true |}.
Proof. vm_compute. repeat split. Qed.
(** with keep_original_schedule=False a compilation that fails has destroyed the compiled instructions of the schedule it was given *)
Theorem C57_not_kept_refuted : let '(c, h, r) := compile Z search (new_compiler Z None) [old] 0%nat (Some (cfg false [fail] [])) in r = Err ValueError /\ h = [{| data := 0; instructions := 0; is_compiled := true |}].
Proof. vm_compute. split; reflexivity. Qed.
