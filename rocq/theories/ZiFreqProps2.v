From Verif Require Import Base DevModel DevProps ZiFreqModel ZiFreqSpec ZiFreqProps.
Local Open Scope string_scope.

Definition val (v : option (option Q)) : Q := match v with Some (Some q) => q | _ => 0 end.
Lemma parse_ifs_spec : forall v cs r, mapM parse_if (Ifs v cs) = Ok r -> r = map (fun ch => (ch, Some (val (v ch)))) cs /\ forall ch, In ch cs -> v ch <> Some None.
Proof.
  induction cs as [|ch cs IH]; intros r H; cbn [Ifs map mapM] in H.
  - injection H as <-. split; [reflexivity | easy].
  - apply bindE in H as [x [E H]]. apply bindE in H as [y [Y H]]. injection H as <-. destruct (IH _ Y) as [-> N]. unfold parse_if in E. cbn [snd fst] in E. destruct (v ch) as [[q|]|] eqn:V; try discriminate E; injection E as <-;
      (split; [cbn [map]; rewrite V; reflexivity | intros c [<-|I]; [rewrite V; discriminate | auto]]).
Qed.
Lemma parse_los_spec : forall w os r, parse_los (Los w os) = Ok r -> r = map (fun o => (lname o, (o, w o))) os /\ NoDup (map lname os).
Proof.
  induction os as [|o os IH]; intros r H; cbn [Los map parse_los] in H.
  - injection H as <-. split; [reflexivity | constructor].
  - apply bindE in H as [x [E H]]. cbn [fst] in H. destruct (mem (lname o) (map fst x)) eqn:M; [discriminate H|]. injection H as <-. destruct (IH _ E) as [-> N]. split; [reflexivity|]. cbn [map]. constructor; [|exact N].
    apply mem_not in M. rewrite map_map in M. cbn in M. exact M.
Qed.
Lemma regroup_spec : forall A (g : channel -> A) ds, regroup ds (map g (chans ds)) = map (fun d => (fst d, map g (snd d))) ds.
Proof.
  induction ds as [|[n cs] ds IH]; [reflexivity|]. unfold chans in *. cbn [regroup flat_map map fst snd]. rewrite map_app. f_equal.
  - f_equal. rewrite <- (map_length g cs), firstn_app, Nat.sub_diag, firstn_O, app_nil_r, firstn_all. reflexivity.
  - rewrite <- (map_length g cs), skipn_app, Nat.sub_diag, skipn_all. cbn [app skipn]. exact IH.
Qed.
Definition used (n : string) (x : channel * option Q) : bool := match clo (fst x) with Some n' => n' =? n | None => false end.
Definition eff (res : list (string * Q)) (n : string) (x : channel * option Q) : option Q :=
  if used n x then match lookup (cclock (fst x)) res, snd x with Some rf, Some i => Some (rf - i) | _, _ => None end else None.
Fixpoint first_eff (res : list (string * Q)) (n : string) (l : list (channel * option Q)) : option Q :=
  match l with [] => None | x :: r => match eff res n x with Some f => Some f | None => first_eff res n r end end.
Lemma first_eff_app : forall res n a b, first_eff res n (a ++ b)%list = match first_eff res n a with Some f => Some f | None => first_eff res n b end.
Proof. induction a as [|x a IH]; intros b; [reflexivity|]. cbn. destruct (eff res n x); auto. Qed.
Definition WF (oscs : list losc) (st : state) : Prop :=
  (forall n l x, lookup n (freqs st) = Some (l, x) -> In l oscs /\ lname l = n) /\ lookup "generic" (configs st) <> Some EDev.
Definition P (res : list (string * Q)) (l : losc) (steps : list (channel * option Q)) (st st' : state) : Prop :=
  forall x, lookup (lname l) (freqs st) = Some (l, x) ->
  match x with
  | Some (Some f) => lookup (lname l) (freqs st') = Some (l, x) /\ settings st' (key l) = if existsb (used (lname l)) steps then Some (Some f) else settings st (key l)
  | Some None => match first_eff res (lname l) steps with Some f => lookup (lname l) (freqs st') = Some (l, Some (Some f)) /\ settings st' (key l) = Some (Some f)
                 | None => lookup (lname l) (freqs st') = Some (l, x) /\ settings st' (key l) = settings st (key l) end
  | None => existsb (used (lname l)) steps = false /\ lookup (lname l) (freqs st') = Some (l, x) /\ settings st' (key l) = settings st (key l)
  end.
Lemma P_nil : forall res l st, P res l [] st st.
Proof. intros res l st [[f|]|] H; cbn; auto. Qed.
Lemma P_app : forall res l a b st st1 st2, P res l a st st1 -> P res l b st1 st2 -> P res l (a ++ b)%list st st2.
Proof.
  intros res l a b st st1 st2 A B x H. specialize (A x H). destruct x as [[f|]|].
  - destruct A as [A1 A2]. destruct (B _ A1) as [B1 B2]. split; auto. rewrite B2, A2, existsb_app. destruct (existsb _ a), (existsb _ b); reflexivity.
  - rewrite first_eff_app. destruct (first_eff res (lname l) a) as [f|].
    + destruct A as [A1 A2]. destruct (B _ A1) as [B1 B2]. split; auto. rewrite B2, A2. destruct (existsb _ b); reflexivity.
    + destruct A as [A1 A2]. specialize (B _ A1). cbn in B. destruct (first_eff res (lname l) b); [exact B|]. rewrite <- A2. exact B.
  - destruct A as [A0 [A1 A2]]. destruct (B _ A1) as [B0 [B1 B2]]. rewrite existsb_app, A0, B0, <- A2. auto.
Qed.
Lemma dev_step : forall res oscs l st n, n <> "generic" -> WF oscs st -> let st' := {| freqs := freqs st; chs := chs st; configs := insert n EDev (configs st) |} in
  WF oscs st' /\ P res l [] st st' /\ chs st' = chs st.
Proof.
  intros res oscs l st n N [W1 W2] st'. apply String.eqb_neq in N. rewrite String.eqb_sym in N.
  assert (S0 : forall k, settings st' k = settings st k) by (intros k; unfold settings, st'; cbn [configs]; now rewrite lookup_insert, N).
  split; [split; [exact W1|]; unfold st'; cbn [configs]; now rewrite lookup_insert, N|]. split; [|reflexivity].
  intros x H. unfold st' at 1 3 5. destruct x as [[f|]|]; cbn; rewrite ?S0; auto.
Qed.
(** what one step does when the settings are written *)
Lemma written : forall oscs st l0 l f fr s, separate oscs -> In l0 oscs -> In l oscs ->
  settings {| freqs := fr; chs := chs st; configs := insert "generic" (ESet (insert (power_key l0) (lpower l0) (insert (key l0) (Some f) s))) (configs st) |} (key l) = if lname l0 =? lname l then Some (Some f) else lookup (key l) s.
Proof.
  intros oscs st l0 l f fr s [N Se] I0 I. unfold settings. cbn [configs]. rewrite lookup_insert, String.eqb_refl. rewrite !lookup_insert.
  destruct (Se l l0 I I0) as [A B]. apply String.eqb_neq in A. rewrite A. destruct (lname l0 =? lname l) eqn:E.
  - apply String.eqb_eq in E. assert (l0 = l) as ->; [|now rewrite String.eqb_refl]. clear - N E I0 I. induction oscs as [|o r IH]; [easy|]. inversion N as [|? ? N1 N2]; subst.
    destruct I0 as [->|I0], I as [->|I]; auto; exfalso; apply N1; [rewrite E | rewrite <- E]; now apply in_map.
  - destruct (key l =? key l0) eqn:K; [|reflexivity]. apply String.eqb_eq in K. apply B in K. subst l0. rewrite String.eqb_refl in E. discriminate E.
Qed.
Lemma chan_step : forall res oscs st ch i st', separate oscs -> WF oscs st -> add_lo_config res st (ch, Some i) = Ok st' ->
  WF oscs st' /\ chs st' = chs st /\ forall l, In l oscs -> P res l [(ch, Some i)] st st'.
Proof.
  intros res oscs st ch i st' Se [W1 W2] H. unfold add_lo_config in H. destruct (clo ch) as [n|] eqn:C.
  2: { injection H as <-. split; [split; auto|]. split; [reflexivity|]. intros l I x X. cbn. unfold eff, used. cbn. rewrite C. destruct x as [[f|]|]; auto. }
  destruct (lookup n (freqs st)) as [[l0 [lo|]]|] eqn:L; try discriminate H. destruct (W1 _ _ _ L) as [I0 N0].
  assert (Key : forall f fr, (forall k, k <> n -> lookup k fr = lookup k (freqs st)) -> lookup n fr = Some (l0, Some (Some f)) -> (lo = Some f \/ (lo = None /\ eff res n (ch, Some i) = Some f)) ->
    (do _ <- (match lookup n (configs st) with None => Ok tt | Some EDev => Err OtherErr | Some (ESet s) => match lookup "frequency" s with Some v => if same v (Some f) then Ok tt else Err ValueError | None => Err ValueError end end);
     let add s := insert (linstr l0 ++ "." ++ lpower_param l0) (lpower l0) (insert (linstr l0 ++ "." ++ lparam l0) (Some f) s) in
     match lookup default_icc (configs st) with
     | Some EDev => Err OtherErr
     | Some (ESet s) => Ok {| freqs := fr; chs := chs st; configs := insert default_icc (ESet (add s)) (configs st) |}
     | None => Ok {| freqs := fr; chs := chs st; configs := insert default_icc (ESet (add [])) (configs st) |}
     end) = Ok st' -> WF oscs st' /\ chs st' = chs st /\ forall l, In l oscs -> P res l [(ch, Some i)] st st').
  { clear H. intros f fr Fo Fn Lo H. apply bindE in H as [u0 [_ H]]. clear u0. cbv zeta in H. fold (key l0) (power_key l0) in H. change default_icc with "generic" in H.
    assert (exists s, st' = {| freqs := fr; chs := chs st; configs := insert "generic" (ESet (insert (power_key l0) (lpower l0) (insert (key l0) (Some f) s))) (configs st) |} /\ forall k, settings st k = lookup k s) as [s [-> Ss]].
    { unfold settings. destruct (lookup "generic" (configs st)) as [[|s]|]; try discriminate H; injection H as <-; [exists s | exists []]; split; reflexivity. }
    split; [|split; [reflexivity|]].
    - split; cbn [freqs configs].
      + intros k l x K. destruct (String.eqb_spec k n) as [->|Nk]; [rewrite Fn in K; injection K as <- <-; auto | rewrite Fo in K by auto; eauto].
      + rewrite lookup_insert. discriminate.
    - intros l I x X. rewrite (written oscs st l0 l f fr s Se I0 I), <- Ss.
      cbn [existsb first_eff orb freqs]. unfold used. cbn [fst]. rewrite C, orb_false_r, N0.
      destruct (n =? lname l) eqn:E.
      + apply String.eqb_eq in E. rewrite <- E in *. rewrite L in X. injection X as -> <-. destruct Lo as [-> | [-> Ef]]; [auto | rewrite Ef; auto].
      + assert (Ne : eff res (lname l) (ch, Some i) = None) by (unfold eff, used; cbn [fst]; now rewrite C, E). rewrite Ne. apply String.eqb_neq in E. rewrite Fo by congruence. rewrite X. destruct x as [[g|]|]; auto. }
  destruct lo as [f|].
  - apply Key with (f := f) (fr := freqs st); auto.
  - destruct (lookup (cclock ch) res) as [rf|] eqn:R.
    + apply Key with (f := rf - i) (fr := insert n (l0, Some (Some (rf - i))) (freqs st)); auto.
      * intros k Nk. rewrite lookup_insert. apply String.eqb_neq in Nk. now rewrite Nk.
      * rewrite lookup_insert, String.eqb_refl. reflexivity.
      * right. split; auto. unfold eff, used. cbn. now rewrite C, String.eqb_refl, R.
    + injection H as <-. split; [split; auto|]. split; [reflexivity|]. intros l I x X. cbn. unfold eff, used. cbn. rewrite C, R, orb_false_r. destruct (n =? lname l) eqn:E; [|destruct x as [[f|]|]; auto].
      apply String.eqb_eq in E. rewrite <- E in *. rewrite L in X. injection X as -> <-. auto.
Qed.
