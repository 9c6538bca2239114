(** Lemmas for C60: one pulse, and the pulses of one operation. *)
From Verif Require Import Base DcModel DcSpec.
Local Open Scope string_scope.

Lemma bindE : forall A B (x : result A) (f : A -> result B) b, bind x f = Ok b -> exists a, x = Ok a /\ f a = Ok b.
Proof. intros A B [a|e] f b H; cbn in H; [eauto | discriminate H]. Qed.
Ltac inv H := apply bindE in H; let a := fresh "a" in let E := fresh "E" in destruct H as [a [E H]].

Lemma set_nth_same : forall A n (a : A) l, (n < List.length l)%nat -> nth_error (set_nth n a l) n = Some a.
Proof. induction n; intros a [|x l] H; cbn in *; try lia; [reflexivity | apply IHn; lia]. Qed.
Lemma set_nth_other : forall A n m (a : A) l, n <> m -> nth_error (set_nth n a l) m = nth_error l m.
Proof. induction n; intros [|m] a [|x l] H; cbn; try easy; try congruence. apply IHn. lia. Qed.
Lemma set_nth_length : forall A n (a : A) l, List.length (set_nth n a l) = List.length l.
Proof. induction n; intros a [|x l]; cbn; auto. Qed.
Lemma set_nth_app : forall A (l : list A) x r a, set_nth (List.length l) a (l ++ x :: r) = (l ++ a :: r)%list.
Proof. induction l; cbn; intros; [easy|]. now rewrite IHl. Qed.
Lemma nth_error_lt : forall A (l : list A) n a, nth_error l n = Some a -> (n < List.length l)%nat.
Proof. intros A l n a H. apply nth_error_Some. congruence. Qed.

(** ** One pulse *)
Lemma linspace_length : forall d n, List.length (linspace d n) = n.
Proof. intros d [|[|n]]; try reflexivity. unfold linspace. rewrite app_length, map_length, seq_length. cbn. lia. Qed.
Lemma inject_pos : forall m, ~ inject_Z (Z.of_nat (S m)) == 0.
Proof. intros m H. unfold Qeq in H. cbn in H. lia. Qed.
Lemma linspace_even : forall d n, (2 <= n)%nat -> evenly_spaced d (linspace d n).
Proof.
  intros d n Hn i x H. rewrite linspace_length. destruct n as [|[|n]]; try lia. replace (S (S n) - 1)%nat with (S n) by lia.
  pose proof (nth_error_lt _ _ _ _ H) as Hi. rewrite linspace_length in Hi. unfold linspace in H.
  destruct (Nat.eq_dec i (S n)) as [->|Ne].
  - rewrite nth_error_app2 in H; rewrite map_length, seq_length in *; [|lia]. replace (S n - S n)%nat with 0%nat in H by lia. cbn in H. injection H as <-. apply Qmult_comm.
  - rewrite nth_error_app1 in H by (rewrite map_length, seq_length; lia). rewrite nth_error_map in H.
    destruct (nth_error (seq 0 (S n)) i) as [j|] eqn:E; [|discriminate H]. cbn [option_map] in H. injection H as <-.
    assert (j = i). { apply nth_error_nth with (d := 0%nat) in E. rewrite seq_nth in E by lia. lia. } subst j. pose proof (inject_pos n) as NZ.
    change (Z.pos (Pos.of_succ_nat n)) with (Z.of_nat (S n)). revert NZ. generalize (inject_Z (Z.of_nat (S n))). intros m NZ. generalize (inject_Z (Z.of_nat i)). intros k. field. exact NZ.
Qed.
Lemma last_snoc : forall A (l : list A) x d, last (l ++ [x]) d = x.
Proof. induction l as [|a l IH]; intros x d; [easy|]. cbn [app last]. destruct (l ++ [x])%list eqn:E; [now destruct l | rewrite <- E; apply IH]. Qed.
Lemma linspace_ends : forall d n, (2 <= n)%nat -> exists f r, linspace d n = f :: r /\ f == 0 /\ last (linspace d n) 0 = d.
Proof.
  intros d [|[|n]] H; try lia. unfold linspace. rewrite last_snoc. cbn [seq map app]. do 2 eexists. split; [reflexivity|]. split; [|easy]. unfold inject_Z. cbn. apply Qmult_0_l.
Qed.
Lemma clip_spec : forall lo hi x, lo <= hi -> (lo <= x <= hi -> clip lo hi x == x) /\ (x <= lo -> clip lo hi x == lo) /\ (hi <= x -> clip lo hi x == hi).
Proof.
  intros lo hi x H. unfold clip. repeat split.
  - intros [A B]. rewrite Q.max_l by assumption. now apply Q.min_l.
  - intros A. rewrite Q.max_r by assumption. now apply Q.min_l.
  - intros A. apply Q.min_r. apply Qle_trans with x; [assumption | apply Q.le_max_l].
Qed.

Section P.
  Variable sample : pulse -> Q -> result (list Q).
  Variable run_filter : nat -> list Q -> result (list Q).
  Variable corrections : list (string * correction).
  Let has_correction := has_correction corrections.
  Let no_software := no_software corrections.
  Let corrected_as := corrected_as sample run_filter.
  Let pulse_after := pulse_after sample run_filter corrections.
  Let first_corrected := first_corrected corrections.

  Lemma correct_spec : forall p c q, distortion_correct_pulse sample run_filter p c = Ok q -> corrected_as p c q.
  Proof.
    intros p c q H. unfold distortion_correct_pulse in H. inv H. inv H. set (v := match clipping_values c with Some [lo; hi] => map (clip lo hi) a0 | _ => a0 end) in H.
    assert (Lv : List.length v = List.length a0) by (unfold v; destruct (clipping_values c) as [[|lo [|hi [|? ?]]]|]; try rewrite map_length; reflexivity).
    assert (Cv : forall i x, nth_error a0 i = Some x -> exists y, nth_error v i = Some y /\
       match clipping_values c with Some [lo; hi] => (lo <= hi -> (lo <= x <= hi -> y == x) /\ (x <= lo -> y == lo) /\ (hi <= x -> y == hi)) | _ => y = x end).
    { intros i x Hx. unfold v. destruct (clipping_values c) as [[|lo [|hi [|? ?]]]|]; try (exists x; split; [exact Hx | reflexivity]).
      exists (clip lo hi x). split; [rewrite nth_error_map, Hx; reflexivity|]. intros L. now apply clip_spec. }
    clearbody v.
    set (s := match v with [x] => [x; x] | _ => v end) in H. unfold numerical_pulse in H.
    destruct (linspace (pdur p) (List.length s)) as [|f r] eqn:E1; [discriminate H|].
    assert (L2 : (2 <= List.length s)%nat).
    { assert (L := linspace_length (pdur p) (List.length s)). rewrite E1 in L. unfold s in *. destruct v as [|x [|y l]]; cbn in L |- *; lia. }
    destruct (linspace_ends (pdur p) (List.length s) L2) as [f' [r' [Ef [F0 Fl]]]]. rewrite E1 in Ef. injection Ef as <- <-. rewrite E1 in Fl.
    injection H as <-. exists a, a0, s, (f :: r). cbn [pwave pport pclock pt0 pdur poffset]. repeat (split; [first [assumption | reflexivity]|]). split.
    { rewrite <- E1. apply linspace_length. }
    split; [exact L2|]. split; [rewrite <- E1; now apply linspace_even|]. split.
    { intros i x Hx. destruct (Cv i x Hx) as [y [Hy Q]]. exists y. split; [|exact Q]. unfold s. destruct v as [|y0 [|y1 l]]; auto. destruct i as [|i]; [exact Hy|]. destruct i; discriminate Hy. }
    split.
    { rewrite <- Lv. unfold s. destruct v as [|y0 [|y1 l]]; auto. right. split; [reflexivity | exists y0; reflexivity]. }
    repeat split. change (last (f :: r) 0 - f == pdur p). rewrite Fl, F0. unfold Qminus. ring.
  Qed.

  Lemma corrected_keeps : forall p c q, corrected_as p c q -> pport q = pport p /\ pclock q = pclock p /\ pt0 q = pt0 p /\ pdur q == pdur p /\ poffset q = false.
  Proof. intros p c q [w [v [s [t [_ [_ [_ [_ [_ [_ [_ [_ H]]]]]]]]]]]]. exact H. Qed.
  Lemma exclusive : forall p c, has_correction p c -> no_software p -> False.
  Proof.
    intros p c [H|[ty [H T]]] [N|[N|[ty' [c' [N T']]]]]; try congruence. rewrite H in N. injection N as -> _. destruct T as [T|T]; congruence.
  Qed.
  Lemma offset_test : forall ps, existsb poffset ps = true <-> has_offset ps.
  Proof. intros ps. unfold has_offset. now rewrite existsb_exists. Qed.
  Lemma no_offset : forall ps, existsb poffset ps = false <-> ~ has_offset ps.
  Proof. intros ps. rewrite <- offset_test. destruct (existsb poffset ps); intuition congruence. Qed.

  (** ** The pulses of one operation *)
  Definition sub_of (o : oper) (q : pulse) : oper := {| oname := "NumericalPulse"; opulses := opulses o; oacqs := []; orest := 0; odur := pt0 q + pdur q |}.
  Lemma round : forall l o h sub i ps p h' sub', one_pulse sample run_filter corrections l o (h, sub) i = Ok (h', sub') ->
    nth_error (lists h) (opulses o) = Some ps -> nth_error ps i = Some p ->
    (lists h' = lists h /\ objs h' = objs h /\ sub' = sub /\ (no_software p \/ has_offset ps)) \/
    (exists c q, has_correction p c /\ ~ has_offset ps /\ corrected_as p c q /\ h' = set_list h (opulses o) (set_nth i q ps) /\
       sub' = if Nat.eqb i 0 then Some (sub_of o q) else sub).
  Proof.
    intros l o h sub i ps p h' sub' H Hp Hi. unfold one_pulse in H. rewrite Hp, Hi in H. unfold has_correction, no_software, DcSpec.has_correction, DcSpec.no_software.
    destruct (lookup (portclock p) corrections) as [[c| |ty rc]|] eqn:L.
    - destruct (correctable ps) eqn:C; cbn [negb] in H.
      + right. inv H. injection H as <- <-. assert (O : ~ has_offset ps).
        { apply no_offset. unfold correctable in C. destruct ps; [discriminate C|]. now apply negb_true_iff in C. }
        exists c, a. repeat split; auto. now apply correct_spec.
      + injection H as <- <-. left. repeat split; auto. right. apply offset_test. unfold correctable in C. destruct ps; [destruct i; discriminate Hi|]. now apply negb_false_iff in C.
    - injection H as <- <-. left. repeat split; auto. 
    - destruct (correctable ps) eqn:C; cbn [negb] in H.
      + assert (O : ~ has_offset ps). { apply no_offset. unfold correctable in C. destruct ps; [discriminate C|]. now apply negb_true_iff in C. }
        destruct (match ty with Some t => t =? "software" | None => true end) eqn:T.
        * right. inv H. subst rc. inv H. injection H as <- <-. exists a, a0. repeat split; auto; [|now apply correct_spec]. right. exists ty. split; [easy|]. destruct ty; [|auto].
          apply String.eqb_eq in T. subst. auto.
        * injection H as <- <-. left. repeat split; auto. left. right. right. destruct ty as [t|]; [|discriminate T]. exists t, rc. split; [easy|]. now apply String.eqb_neq.
      + injection H as <- <-. left. repeat split; auto. right. apply offset_test. unfold correctable in C. destruct ps; [destruct i; discriminate Hi|]. now apply negb_false_iff in C.
    - injection H as <- <-. left. repeat split; auto.
  Qed.

  Lemma pulses_loop : forall l o ps0 rest qs h sub h' sub',
    nth_error (lists h) (opulses o) = Some (qs ++ rest)%list -> existsb poffset (qs ++ rest) = existsb poffset ps0 ->
    foldM (one_pulse sample run_filter corrections l o) (seq (List.length qs) (List.length rest)) (h, sub) = Ok (h', sub') ->
    exists rs, Forall2 (pulse_after ps0) rest rs /\ nth_error (lists h') (opulses o) = Some (qs ++ rs)%list /\ objs h' = objs h /\ List.length (lists h') = List.length (lists h) /\
      (forall x, x <> opulses o -> nth_error (lists h') x = nth_error (lists h) x) /\
      (qs <> [] -> sub' = sub) /\
      (qs = [] -> sub = None -> forall p r, rest = p :: r ->
         (exists c q, has_correction p c /\ ~ has_offset ps0 /\ corrected_as p c q /\ sub' = Some (sub_of o q)) \/ ((no_software p \/ has_offset ps0) /\ sub' = None)).
  Proof.
    intros l o ps0. induction rest as [|p rest IH]; intros qs h sub h' sub' Hl Ho H.
    - cbn in H. injection H as <- <-. exists []. repeat split; auto. intros _ _ p r Q. discriminate Q.
    - cbn [List.length seq foldM] in H. inv H. destruct a as [h1 sub1].
      assert (Hi : nth_error (qs ++ p :: rest) (List.length qs) = Some p) by (rewrite nth_error_app2 by lia; replace (List.length qs - List.length qs)%nat with 0%nat by lia; reflexivity).
      destruct (round _ _ _ _ _ _ _ _ _ E Hl Hi) as [[El [Eo [Es N]]]|[c [q [Hc [No [Hq [Eh Es]]]]]]].
      + assert (Hl1 : nth_error (lists h1) (opulses o) = Some ((qs ++ [p]) ++ rest)%list) by (rewrite El, <- app_assoc; exact Hl).
        assert (Len : S (List.length qs) = List.length (qs ++ [p])) by (rewrite app_length; cbn; lia). rewrite Len in H.
        destruct (IH (qs ++ [p])%list h1 sub1 h' sub' Hl1) as [rs [A [B [C [D [F [G _]]]]]]]; [rewrite <- app_assoc; exact Ho | exact H|].
        assert (G' : sub' = sub1) by (apply G; destruct qs; discriminate). exists (p :: rs). rewrite <- app_assoc in B. rewrite C, D, Eo, El in *.
        assert (N' : no_software p \/ has_offset ps0) by (destruct N as [N|N]; [now left | right; apply offset_test; rewrite <- Ho; now apply offset_test]).
        refine (conj _ (conj B (conj eq_refl (conj eq_refl (conj _ (conj _ _)))))).
        * constructor; [|exact A]. destruct N' as [N'|N']; [left|right; left]; auto.
        * intros x Hx. rewrite F by exact Hx. reflexivity.
        * intros _. congruence.
        * intros _ Q p' r' R. injection R as <- <-. right. split; [exact N' | congruence].
      + pose proof (nth_error_lt _ _ _ _ Hl) as Hlt.
        assert (Hl1 : nth_error (lists h1) (opulses o) = Some ((qs ++ [q]) ++ rest)%list).
        { subst h1. cbn [set_list lists]. rewrite set_nth_same by exact Hlt. rewrite set_nth_app, <- app_assoc. reflexivity. }
        assert (No0 : ~ has_offset ps0) by (apply no_offset; rewrite <- Ho; now apply no_offset).
        assert (Ho1 : existsb poffset ((qs ++ [q]) ++ rest) = existsb poffset ps0).
        { rewrite <- Ho. apply no_offset in No. rewrite No. rewrite existsb_app in No. cbn in No. apply orb_false_iff in No. destruct No as [N1 N2]. apply orb_false_iff in N2. destruct N2 as [_ N2].
          rewrite <- app_assoc, existsb_app. cbn. rewrite N1, N2. destruct (corrected_keeps _ _ _ Hq) as [_ [_ [_ [_ ->]]]]. reflexivity. }
        assert (Len : S (List.length qs) = List.length (qs ++ [q])) by (rewrite app_length; cbn; lia). rewrite Len in H.
        destruct (IH (qs ++ [q])%list h1 sub1 h' sub' Hl1 Ho1 H) as [rs [A [B [C [D [F [G _]]]]]]].
        assert (G' : sub' = sub1) by (apply G; destruct qs; discriminate). exists (q :: rs). rewrite <- app_assoc in B. subst h1. cbn [set_list lists objs] in *. rewrite set_nth_length in D.
        refine (conj _ (conj B (conj C (conj D (conj _ (conj _ _)))))).
        * constructor; [|exact A]. right. right. split; [exact No0 | exists c; split; assumption].
        * intros x Hx. rewrite F by exact Hx. apply set_nth_other. congruence.
        * intros Nq. rewrite G', Es. destruct qs; [congruence | reflexivity].
        * intros Q _ p' r' R. injection R as <- <-. left. exists c, q. rewrite G', Es, Q. repeat (split; [assumption|]). reflexivity.
  Qed.

  Lemma first_not : forall p r, no_software p \/ has_offset (p :: r) -> ~ first_corrected (p :: r).
  Proof. intros p r N [p' [r' [c [E [Hc No]]]]]. injection E as <- <-. destruct N as [N|N]; [exact (exclusive _ _ Hc N) | exact (No N)]. Qed.

  (** one operation *)
  Lemma one_op : forall n h l o ps h' r, apply sample run_filter corrections (S n) h l = Ok (h', r) -> nth_error (objs h) l = Some (Op o) -> nth_error (lists h) (opulses o) = Some ps ->
    exists b, leaf_after sample run_filter corrections {| lname := oname o; lpulses := ps; lacqs := oacqs o; lrest := orest o; ldur := odur o |} b /\
      List.length (lists h') = List.length (lists h) /\ (forall x, x <> opulses o -> nth_error (lists h') x = nth_error (lists h) x) /\
      match r with
      | None => objs h' = objs h /\ stores h' l (TOp b) [PObj l; PList (opulses o)]
      | Some m => m = List.length (objs h) /\ (exists x, objs h' = objs h ++ [x])%list /\ stores h' m (TOp b) [PObj m; PList (opulses o)]
      end.
  Proof.
    intros n h l o ps h' r H Ho Hp. cbn [apply] in H. rewrite Ho, Hp in H. inv H. destruct a as [h1 sub].
    destruct (pulses_loop l o ps ps [] h None h1 sub Hp eq_refl E) as [rs [A [B [C [D [F [_ G]]]]]]]. cbn [app] in B.
    assert (S1 : (sub = None /\ ~ first_corrected ps) \/ (exists p r0 c q, ps = p :: r0 /\ has_correction p c /\ ~ has_offset ps /\ corrected_as p c q /\ sub = Some (sub_of o q))).
    { destruct ps as [|p r0]; [left|].
      - cbn in E. injection E as _ <-. split; [easy|]. intros [p [r0 [c [Q _]]]]. discriminate Q.
      - destruct (G eq_refl eq_refl p r0 eq_refl) as [[c [q [Q1 [Q2 [Q3 Q4]]]]]|[Q1 Q2]]; [right; exists p, r0, c, q; auto | left; split; [exact Q2 | now apply first_not]]. }
    destruct S1 as [[-> Nf]|[p [r0 [c [q [Ep [Hc [No [Hq ->]]]]]]]]].
    - injection H as <- <-. exists {| lname := oname o; lpulses := rs; lacqs := oacqs o; lrest := orest o; ldur := odur o |}. split; [|split; [exact D|split; [exact F|]]].
      + split; [exact A|]. cbn. split; [intros Q; destruct (Nf Q) | auto].
      + split; [exact C|]. apply stores_op; [rewrite C; exact Ho | exact B].
    - cbn in H. injection H as <- <-. exists {| lname := "NumericalPulse"; lpulses := rs; lacqs := []; lrest := 0; ldur := pt0 q + pdur q |}. split; [|split; [exact D|split; [exact F|]]].
      + split; [exact A|]. cbn. split.
        * intros _. split; [easy|]. exists p, r0. split; [exact Ep|]. destruct (corrected_keeps _ _ _ Hq) as [_ [_ [-> [-> _]]]]. reflexivity.
        * intros Q. destruct Q. exists p, r0, c. auto.
      + cbn [objs]. rewrite C. split; [easy|]. split; [eauto|].
        change {| lname := "NumericalPulse"; lpulses := rs; lacqs := []; lrest := 0; ldur := pt0 q + pdur q |}
          with {| lname := oname (sub_of o q); lpulses := rs; lacqs := oacqs (sub_of o q); lrest := orest (sub_of o q); ldur := odur (sub_of o q) |}.
        change (opulses o) with (opulses (sub_of o q)). apply stores_op; cbn [objs lists opulses sub_of]; [|exact B].
        rewrite nth_error_app2 by lia. replace (List.length (objs h) - List.length (objs h))%nat with 0%nat by lia. reflexivity.
  Qed.
End P.
