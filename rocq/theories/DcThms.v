(** C60: the corrections of a whole schedule. *)
From Verif Require Import Base DcModel DcSpec DcProps.
Local Open Scope string_scope.

Scheme stores_ind2 := Minimality for stores Sort Prop with stores_all_ind2 := Minimality for stores_all Sort Prop.
Combined Scheme stores_mutual from stores_ind2, stores_all_ind2.

Lemma stores_kept_both : forall h h',
  (forall l t fp, stores h l t fp -> (forall x, In x fp -> same_at h h' x) -> stores h' l t fp) /\
  (forall ks ts fp, stores_all h ks ts fp -> (forall x, In x fp -> same_at h h' x) -> stores_all h' ks ts fp).
Proof.
  intros h h'. apply stores_mutual.
  - intros l o ps Ho Hp S. constructor; [rewrite <- Ho; apply (S (PObj l)); now left | rewrite <- Hp; apply (S (PList (opulses o))); right; now left].
  - intros l b t fp Ho _ IH S. econstructor; [rewrite <- Ho; apply (S (PObj l)); now left | apply IH; intros; apply S; now right].
  - intros l ks ts fp Ho N _ IH S. econstructor; [rewrite <- Ho; apply (S (PObj l)); now left | exact N | apply IH; intros; apply S; now right].
  - constructor.
  - intros k l ks t ts fp fps _ IH _ IHs S. constructor; [apply IH | apply IHs]; intros; apply S; apply in_or_app; auto.
Qed.
Lemma stores_kept : forall h h' l t fp, stores h l t fp -> (forall x, In x fp -> same_at h h' x) -> stores h' l t fp.
Proof. intros h h'. apply stores_kept_both. Qed.
Lemma stores_all_kept : forall h h' ks ts fp, stores_all h ks ts fp -> (forall x, In x fp -> same_at h h' x) -> stores_all h' ks ts fp.
Proof. intros h h'. apply stores_kept_both. Qed.
Lemma allocated_both : forall h,
  (forall l t fp, stores h l t fp -> forall x, In x fp -> ~ fresh_for h x) /\ (forall ks ts fp, stores_all h ks ts fp -> forall x, In x fp -> ~ fresh_for h x).
Proof.
  intros h. assert (A : forall l o, nth_error (objs h) l = Some o -> ~ fresh_for h (PObj l)) by (intros l o H; apply nth_error_lt in H; cbn; lia).
  apply stores_mutual.
  - intros l o ps Ho Hp x [<-|[<-|[]]]; [eauto|]. apply nth_error_lt in Hp. cbn. lia.
  - intros l b t fp Ho _ IH x [<-|H]; eauto.
  - intros l ks ts fp Ho N _ IH x [<-|H]; eauto.
  - intros x [].
  - intros k l ks t ts fp fps _ IH _ IHs x H. apply in_app_or in H. destruct H; auto.
Qed.
Lemma allocated : forall h l t fp, stores h l t fp -> forall x, In x fp -> ~ fresh_for h x.
Proof. intros h. apply allocated_both. Qed.
Lemma allocated_all : forall h ks ts fp, stores_all h ks ts fp -> forall x, In x fp -> ~ fresh_for h x.
Proof. intros h. apply allocated_both. Qed.
Lemma stores_here : forall h l t fp, stores h l t fp -> In (PObj l) fp.
Proof. intros h l t fp []; now left. Qed.

(** what a call leaves: nothing else is changed, and nothing becomes shared *)
Definition leaves (h h' : heap) (fp fp' : list part) : Prop :=
  NoDup fp' /\ (forall x, In x fp' -> In x fp \/ fresh_for h x) /\ (forall x, ~ In x fp -> ~ fresh_for h x -> same_at h h' x) /\
  (List.length (objs h) <= List.length (objs h'))%nat /\ (List.length (lists h) <= List.length (lists h'))%nat.

Lemma nodup_app3 : forall A (l m : list A), NoDup (l ++ m) <-> NoDup l /\ NoDup m /\ (forall a, In a l -> ~ In a m).
Proof.
  induction l as [|a l IH]; cbn; intros m.
  - split; [intros H; repeat split; auto; constructor | tauto].
  - rewrite !NoDup_cons_iff, IH, in_app_iff. split.
    + intros [N [H1 [H2 H3]]]. repeat split; auto. intros b [<-|Hb]; auto.
    + intros [[N H1] [H2 H3]]. repeat split; auto. intros [Q|Q]; [auto | apply (H3 a); auto].
Qed.
Lemma lookup_mid : forall (ds : list (string * loc)) k m todo, NoDup (map fst (ds ++ (k, m) :: todo)) -> lookup k (ds ++ (k, m) :: todo) = Some m.
Proof.
  induction ds as [|[k' v] ds IH]; cbn [app lookup map]; intros k m todo N; [now rewrite String.eqb_refl|]. cbn [fst] in N. inversion N as [|a b Na Nb]; subst.
  destruct (String.eqb_spec k k') as [->|]; [|apply IH; exact Nb]. exfalso. apply Na. rewrite map_app. apply in_or_app. right. now left.
Qed.
Lemma insert_mid : forall (ds : list (string * loc)) k m m' todo, NoDup (map fst (ds ++ (k, m) :: todo)) -> insert k m' (ds ++ (k, m) :: todo) = (ds ++ (k, m') :: todo)%list.
Proof.
  induction ds as [|[k' v] ds IH]; cbn [app insert map]; intros k m m' todo N; [now rewrite String.eqb_refl|]. cbn [fst] in N. inversion N as [|a b Na Nb]; subst.
  destruct (String.eqb_spec k k') as [->|]; [|f_equal; apply IH; exact Nb]. exfalso. apply Na. rewrite map_app. apply in_or_app. right. now left.
Qed.
Lemma stores_all_app : forall h ks ts fp k l t f, stores_all h ks ts fp -> stores h l t f -> stores_all h (ks ++ [(k, l)]) (ts ++ [(k, t)]) (fp ++ f).
Proof.
  induction 1; cbn; intros H'.
  - rewrite <- (app_nil_r f). constructor; [exact H' | constructor].
  - rewrite <- app_assoc. constructor; auto.
Qed.

Section P.
  Variable sample : pulse -> Q -> result (list Q).
  Variable run_filter : nat -> list Q -> result (list Q).
  Variable corrections : list (string * correction).
  Let tree_after := tree_after sample run_filter corrections.
  Let trees_after := trees_after sample run_filter corrections.
  Let apply := apply sample run_filter corrections.

  Lemma trees_app : forall ts us k t u, trees_after ts us -> tree_after t u -> trees_after (ts ++ [(k, t)]) (us ++ [(k, u)]).
  Proof. induction 1; cbn; intros T; apply after_cons; try assumption; [constructor | now apply IHtrees_after]. Qed.

  Definition returned (l : loc) (r : option loc) : loc := match r with Some m => m | None => l end.
  Definition good (n : nat) : Prop := forall h l t fp h' r, stores h l t fp -> NoDup fp -> apply n h l = Ok (h', r) ->
    exists u fp', stores h' (returned l r) u fp' /\ tree_after t u /\ leaves h h' fp fp'.

  (** the loop over the operations of a schedule *)
  Lemma operations_loop : forall n l, good n -> forall todo ts done us h fpd fpt h',
    nth_error (objs h) l = Some (Sched (done ++ todo)) -> NoDup (map fst (done ++ todo)) ->
    stores_all h done us fpd -> stores_all h todo ts fpt -> NoDup (PObj l :: fpd ++ fpt) ->
    foldM (fun h k =>
                      match nth_error (objs h) l with
                      | Some (Sched ops) =>
                          match lookup k ops with
                          | None => Err KeyError
                          | Some m =>
                              do hr <- apply n h m;
                              let '(h, r) := hr in
                              match r with
                              | None => Ok h
                              | Some m' => match nth_error (objs h) l with Some (Sched ops) => Ok (set_obj h l (Sched (insert k m' ops))) | _ => Err OtherErr end
                              end
                          end
                      | _ => Err OtherErr
                      end) (map fst todo) h = Ok h' ->
    exists done' us' fp', nth_error (objs h') l = Some (Sched done') /\ map fst done' = map fst (done ++ todo) /\
      stores_all h' done' (us ++ us') (fpd ++ fp') /\ trees_after ts us' /\ NoDup (PObj l :: fpd ++ fp') /\
      (forall x, In x fp' -> In x fpt \/ fresh_for h x) /\ (forall x, x <> PObj l -> ~ In x fpt -> ~ fresh_for h x -> same_at h h' x) /\
      (List.length (objs h) <= List.length (objs h'))%nat /\ (List.length (lists h) <= List.length (lists h'))%nat.
  Proof.
    intros n l G. induction todo as [|[k m] todo IH]; intros ts dn us h fpd fpt h' Ho Nk Sd St N H.
    - cbn in H. injection H as <-. inversion St; subst. exists dn, [], []. rewrite !app_nil_r in *. 
      refine (conj Ho (conj eq_refl (conj Sd (conj (after_nil _ _ _) (conj N (conj _ (conj _ (conj (le_n _) (le_n _))))))))).
      + intros x [].
      + intros x _ _ _. destruct x; reflexivity.
    - cbn [map fst foldM] in H. inv H. rewrite Ho in E. rewrite (lookup_mid _ _ _ _ Nk) in E. inv E. destruct a0 as [h1 r].
      inversion St as [|k0 l0 ks0 t ts0 f fs Hm Hs]; subst. rewrite NoDup_cons_iff, !nodup_app3, !in_app_iff in N.
      destruct N as [Nl [Nd [[Nf [Nfs Dfs]] Dd]]].
      destruct (G _ _ _ _ _ _ Hm Nf E0) as [u [f' [Su [Tu [Nf' [In' [Fr [L1 L2]]]]]]]].
      assert (Al : ~ fresh_for h (PObj l)) by (apply nth_error_lt in Ho; cbn; lia).
      assert (Sl : same_at h h1 (PObj l)) by (apply Fr; auto). cbn in Sl.
      assert (Ks : forall x, In x fpd \/ In x fs -> same_at h h1 x).
      { intros x [Hx|Hx]; apply Fr; [intros Q; apply (Dd x Hx); apply in_or_app; now left | exact (allocated_all _ _ _ _ Sd x Hx) | intros Q; exact (Dfs x Q Hx) | exact (allocated_all _ _ _ _ Hs x Hx)]. }
      (* the heap after the assignment *)
      assert (HH : exists h2 m2, a = h2 /\ nth_error (objs h2) l = Some (Sched ((dn ++ [(k, m2)]) ++ todo)) /\ m2 = returned m r /\ lists h2 = lists h1 /\
        List.length (objs h2) = List.length (objs h1) /\ (forall x, x <> l -> nth_error (objs h2) x = nth_error (objs h1) x)).
      { destruct r as [m'|]; cbn [returned].
        - rewrite Sl, Ho in E. injection E as <-. eexists _, m'. split; [reflexivity|]. cbn [set_obj objs lists]. apply nth_error_lt in Ho.
          rewrite set_nth_same by lia. rewrite (insert_mid _ _ _ _ _ Nk), <- app_assoc. repeat (split; [reflexivity|]). split; [apply set_nth_length|]. intros x Hx. apply set_nth_other. congruence.
        - injection E as <-. exists h1, m. rewrite <- app_assoc. rewrite Sl. auto 10. }
      destruct HH as [h2 [m2 [-> [Ho2 [Em2 [El [Len Oo]]]]]]].
      assert (K2 : forall x, x <> PObj l -> same_at h1 h2 x).
      { intros [x|x] Hx; cbn; [apply Oo; congruence | now rewrite El]. }
      assert (Nl' : ~ In (PObj l) f') by (intros Q; destruct (In' _ Q) as [Q'|Q']; [apply Nl; right; now left | auto]).
      assert (K3 : forall x, In x fpd \/ In x fs -> same_at h h2 x).
      { intros x Hx. assert (x <> PObj l) by (intros ->; apply Nl; tauto). specialize (Ks x Hx). specialize (K2 x H0). destruct x; cbn in *; congruence. }
      assert (Sd2 : stores_all h2 dn us fpd) by (eapply stores_all_kept; [exact Sd | auto]).
      assert (Su2 : stores h2 m2 u f') by (rewrite Em2; eapply stores_kept; [exact Su |]; intros x Hx; apply K2; intros ->; auto).
      assert (Ss2 : stores_all h2 todo ts0 fs) by (eapply stores_all_kept; [exact Hs | auto]).
      assert (Df : forall x, In x f' -> ~ In x fpd /\ ~ In x fs).
      { intros x Hx. destruct (In' x Hx) as [Q|Q]; split; intros R.
        - apply (Dd x R). apply in_or_app. now left.
        - exact (Dfs x Q R).
        - exact (allocated_all _ _ _ _ Sd x R Q).
        - exact (allocated_all _ _ _ _ Hs x R Q). }
      assert (Kn : map fst ((dn ++ [(k, m2)]) ++ todo) = map fst (dn ++ (k, m) :: todo)) by (rewrite <- app_assoc, !map_app; reflexivity).
      destruct (IH ts0 (dn ++ [(k, m2)])%list (us ++ [(k, u)])%list h2 (fpd ++ f')%list fs h' Ho2) as [dn' [us' [fp' [A [B [C [D [F [I [J [L3 L4]]]]]]]]]]].
      + now rewrite Kn.
      + now apply stores_all_app.
      + exact Ss2.
      + rewrite NoDup_cons_iff, !nodup_app3, !in_app_iff. split; [tauto|]. split; [split; [exact Nd|split; [exact Nf'|]]|split; [exact Nfs|]].
        * intros x Hx Q. now destruct (Df x Q).
        * intros x Hx Q. apply in_app_or in Hx. destruct Hx as [Hx|Hx]; [apply (Dd x Hx); apply in_or_app; now right | now destruct (Df x Hx)].
      + exact H.
      + assert (Fr2 : forall x, fresh_for h2 x -> fresh_for h x) by (intros [x|x]; cbn; rewrite ?El, ?Len; lia).
        exists dn', ((k, u) :: us'), (f' ++ fp')%list. rewrite Kn in B. rewrite <- !app_assoc in *. cbn [app] in *. split; [exact A|]. split; [exact B|]. split; [exact C|]. split; [now constructor|].
        split; [exact F|]. split; [|split].
        * intros x Hx. rewrite in_app_iff. apply in_app_or in Hx. destruct Hx as [Hx|Hx]; [destruct (In' x Hx); auto | destruct (I x Hx) as [Q|Q]; auto].
        * intros x Nx Nin Nfr. rewrite in_app_iff in Nin.
          assert (S1 : same_at h h1 x) by (apply Fr; auto). assert (S2 := K2 x Nx).
          assert (S3 : same_at h2 h' x). { apply J; auto. }
          destruct x; cbn in *; congruence.
        * rewrite El in L4. rewrite Len in L3. lia.
  Qed.

  Lemma all_good : forall n, good n.
  Proof.
    induction n as [|n IH]; intros h l t fp h' r S N H; [discriminate H|]. inversion S as [l0 o ps Ho Hp|l0 b t0 fp0 Ho Sb|l0 ks ts fp0 Ho Nk Ss]; subst.
    - destruct (one_op sample run_filter corrections n h l o ps h' r H Ho Hp) as [b [Lf [Ll [Fl R]]]]. pose proof (nth_error_lt _ _ _ _ Ho) as Lo. destruct r as [m|]; cbn [returned].
      + destruct R as [-> [[x Ex] St]]. exists (TOp b), [PObj (List.length (objs h)); PList (opulses o)]. split; [exact St|]. split; [now constructor|]. split; [|split; [|split]].
        * constructor; [intros [Q|[]]; discriminate Q|]. constructor; [intros []|constructor].
        * intros y [<-|[<-|[]]]; [right; cbn; lia | left; right; now left].
        * intros [y|y] Ny Nf; cbn in *; [rewrite Ex; apply nth_error_app1; lia | apply Fl; intros ->; apply Ny; auto].
        * rewrite Ex, app_length. lia.
      + destruct R as [Ex St]. exists (TOp b), [PObj l; PList (opulses o)]. split; [exact St|]. split; [now constructor|]. split; [exact N|]. split; [auto|]. split.
        * intros [y|y] Ny Nf; cbn in *; [now rewrite Ex | apply Fl; intros ->; apply Ny; auto].
        * rewrite Ex. lia.
    - unfold apply in H. cbn [DcModel.apply] in H. rewrite Ho in H. inv H. destruct a as [h1 r1]. inversion N as [|? ? Nl N0]; subst.
      destruct (IH _ _ _ _ _ _ Sb N0 E) as [u [f' [Su [Tu [Nf [In' [Fr [L1 L2]]]]]]]].
      assert (Al : ~ fresh_for h (PObj l)) by (apply nth_error_lt in Ho; cbn; lia). assert (Sl : same_at h h1 (PObj l)) by (apply Fr; auto). cbn in Sl.
      assert (Nl' : ~ In (PObj l) f') by (intros Q; destruct (In' _ Q) as [Q'|Q']; auto).
      assert (HH : exists b2, nth_error (objs h') l = Some (Flow b2) /\ b2 = returned b r1 /\ r = None /\ lists h' = lists h1 /\ List.length (objs h') = List.length (objs h1) /\
         (forall x, x <> l -> nth_error (objs h') x = nth_error (objs h1) x)).
      { destruct r1 as [m|]; injection H as <- <-; cbn [returned set_obj objs lists].
        - exists m. apply nth_error_lt in Ho. rewrite set_nth_same by lia. repeat (split; [reflexivity|]). split; [apply set_nth_length|]. intros x Hx. apply set_nth_other. congruence.
        - exists b. rewrite Sl. auto 10. }
      destruct HH as [b2 [Ho2 [Eb [-> [El [Len Oo]]]]]]. assert (K2 : forall x, x <> PObj l -> same_at h1 h' x) by (intros [x|x] Hx; cbn; [apply Oo; congruence | now rewrite El]).
      exists (TFlow u), (PObj l :: f'). cbn [returned]. split; [|split; [now constructor|]].
      + econstructor; [exact Ho2|]. rewrite Eb. eapply stores_kept; [exact Su|]. intros x Hx. apply K2. intros ->. auto.
      + split; [now constructor|]. split; [|split].
        * intros x [<-|Hx]; [left; now left | destruct (In' x Hx); [left; now right | now right]].
        * intros x Nx Nf0. assert (S1 : same_at h h1 x) by (apply Fr; auto; intros Q; apply Nx; now right). assert (S2 : same_at h1 h' x) by (apply K2; intros ->; apply Nx; now left).
          destruct x; cbn in *; congruence.
        * rewrite El, Len. auto.
    - unfold apply in H. cbn [DcModel.apply] in H. rewrite Ho in H. inv H. injection H as <- <-.
      destruct (operations_loop n l IH ks ts [] [] h [] fp0 a Ho Nk (all_nil h) Ss N E) as [dn [us [fp' [A [B [C [D [F [I [J L]]]]]]]]]]. cbn [app returned] in *.
      exists (TSched us), (PObj l :: fp'). split; [|split; [now constructor|]].
      + econstructor; [exact A | rewrite B; exact Nk | exact C].
      + split; [exact F|]. split; [|split; [|exact L]].
        * intros x [<-|Hx]; [left; now left | destruct (I x Hx); [left; now right | now right]].
        * intros x Nx Nf0. apply J; [intros ->; apply Nx; now left | intros Q; apply Nx; now right | exact Nf0].
  Qed.

  (** For every schedule in which no object occurs twice, all waveform functions, filters and configurations: if the corrections are applied, what is returned (or
      the schedule itself, if nothing is returned) is the schedule in which every pulse that has a software correction, in an operation without
      voltage offset, is corrected once, and every other pulse is as it was.  Objects that are not part of the schedule are not changed. *)
  Theorem C60_corrected_once : forall n h l t fp h' r, stores h l t fp -> unshared fp -> apply n h l = Ok (h', r) ->
    exists u fp', stores h' (returned l r) u fp' /\ tree_after t u /\ unshared fp' /\ (forall x, ~ In x fp -> ~ fresh_for h x -> same_at h h' x).
  Proof. intros n h l t fp h' r S N H. destruct (all_good n h l t fp h' r S N H) as [u [fp' [A [B [C [_ [D _]]]]]]]. exists u, fp'. auto. Qed.
End P.
