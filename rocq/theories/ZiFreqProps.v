From Verif Require Import Base DevModel DevProps ZiFreqModel ZiFreqSpec.
Local Open Scope string_scope.

Lemma here_spec : forall p c ch, here p c ch = true <-> (cport ch, cclock ch) = (p, c).
Proof.
  intros. unfold here. rewrite andb_true_iff, !String.eqb_eq. split; [intros [-> ->]; reflexivity | intros E; injection E; auto].
Qed.
Definition Ifs (v : channel -> option (option Q)) (cs : list channel) := map (fun ch => (ch, v ch)) cs.
Definition Los (w : losc -> option (option Q)) (l : list losc) := map (fun o => (o, w o)) l.
Lemma set_if_spec : forall p c i v cs, distinct cs -> set_if p c i (Ifs v cs) =
  match find (here p c) cs with None => None | Some ch => Some (Ifs (fun ch' => if here p c ch' then Some i else v ch') cs, ch) end.
Proof.
  induction cs as [|ch r IH]; intros D; [reflexivity|]. inversion D as [|? ? N D']; subst. unfold Ifs in *. cbn [map set_if find]. destruct (here p c ch) eqn:H.
  - f_equal. f_equal. f_equal. apply map_ext_in. intros ch' I. destruct (here p c ch') eqn:H'; [|reflexivity]. exfalso. apply N. apply here_spec in H, H'. rewrite H, <- H'. now apply (in_map (fun ch => (cport ch, cclock ch))).
  - rewrite (IH D'). destruct (find (here p c) r); reflexivity.
Qed.
Lemma set_lo_spec : forall n f w l, set_lo n f (Los w l) = Los (fun o => if lname o =? n then Some f else w o) l.
Proof. intros. unfold set_lo, Los. rewrite map_map. apply map_ext. intros o. cbn. destruct (lname o =? n); reflexivity. Qed.
Lemma gen_spec : forall mods cs os, distinct cs -> forall pcs v w h, foldM (set_freqs mods) pcs {| ifs := Ifs v cs; los := Los w os |} = Ok h ->
  exists v' w', h = {| ifs := Ifs v' cs; los := Los w' os |} /\
    (forall ch, In ch cs -> v' ch = if existsb (fun pc => here (fst pc) (snd pc) ch) pcs then match options mods ch with Some m => Some (m_if m) | None => v ch end else v ch) /\
    (forall o, (forall pc m, In pc pcs -> ~ gives mods cs (lname o) pc m) -> w' o = w o) /\
    (forall o pre pc post m, pcs = (pre ++ pc :: post)%list -> gives mods cs (lname o) pc m -> (forall pc' m', In pc' post -> ~ gives mods cs (lname o) pc' m') -> w' o = Some (m_lo m)) /\
    (forall ch m, In ch cs -> In (cport ch, cclock ch) pcs -> options mods ch = Some m -> exists n, clo ch = Some n /\ In n (map lname os)).
Proof.
  intros mods cs os D. induction pcs as [|pc pcs IH]; intros v w h H; cbn [foldM] in H.
  - injection H as <-. exists v, w. split; [reflexivity|]. split; [reflexivity|]. split; [reflexivity|]. split; [intros o [|? ?] pc post m E; discriminate E | intros ch m _ []].
  - apply bindE in H as [h1 [E H]]. unfold set_freqs in E. destruct (lookup (fst pc ++ "-" ++ snd pc) mods) as [m|] eqn:L.
    + cbn [ifs los] in E. rewrite (set_if_spec _ _ _ _ _ D) in E. destruct (find (here (fst pc) (snd pc)) cs) as [ch|] eqn:F; [|discriminate E]. apply find_some in F as [Ic Hc].
      destruct (clo ch) as [n|] eqn:C; [|discriminate E]. destruct (existsb _ (Los w os)) eqn:X; [|discriminate E]. injection E as <-. rewrite set_lo_spec in H.
      destruct (IH _ _ _ H) as [v' [w' [-> [V [W1 [W2 K]]]]]]. exists v', w'. split; [reflexivity|].
      assert (U : forall ch', In ch' cs -> here (fst pc) (snd pc) ch' = true -> ch' = ch).
      { intros ch' I' H'. apply here_spec in H', Hc. clear - D Ic I' H' Hc. unfold distinct in D. rewrite <- Hc in H'. revert D Ic I'. induction cs as [|a r IH]; intros D Ic I'; [easy|]. inversion D as [|? ? N D']; subst.
        destruct Ic as [->|Ic], I' as [->|I']; auto; exfalso; apply N; [rewrite <- H' | rewrite H']; now apply (in_map (fun ch => (cport ch, cclock ch))). }
      assert (G : forall n' m', gives mods cs n' pc m' -> n' = n /\ m' = m).
      { intros n' m' [ch' [I' [P [C' O]]]]. destruct pc as [p c]. assert (ch' = ch) as -> by (apply U; auto; now apply here_spec). injection P as <- <-. unfold options in O. cbn [fst snd] in L. rewrite O in L. split; congruence. }
      assert (Gm : gives mods cs n pc m). { exists ch. split; auto. apply here_spec in Hc. destruct pc as [p c]. split; [exact Hc|]. split; auto. injection Hc as E1 E2. unfold options. now rewrite E1, E2. }
      split; [|split; [|split]].
      * intros ch' I'. rewrite (V ch' I'). cbn [existsb]. destruct (here (fst pc) (snd pc) ch') eqn:H'; cbn [orb]; [|reflexivity].
        assert (ch' = ch) as -> by auto. assert (options mods ch = Some m) as ->; [|match goal with |- context [if ?b then _ else _] => destruct b end; reflexivity]. apply here_spec in Hc. injection Hc as E1 E2. unfold options. now rewrite E1, E2.
      * intros o Ho. rewrite (W1 o) by (intros pc' m' I'; apply Ho; now right). destruct (lname o =? n) eqn:E; [|reflexivity]. apply String.eqb_eq in E. subst n. exfalso. eapply Ho; [left; reflexivity | exact Gm].
      * intros o pre pc' post m' E Gv Np. destruct pre as [|pc0 pre]; cbn in E; injection E as <- E.
        -- subst post. destruct (G _ _ Gv) as [Gn Ge]. subst m'. rewrite (W1 o) by exact Np. rewrite Gn, String.eqb_refl. reflexivity.
        -- subst pcs. eapply W2; eauto.
      * intros ch' m' I' P O. destruct P as [P|P]; [|eauto]. assert (ch' = ch) as -> by (apply U; auto; subst pc; now apply here_spec). exists n. split; auto.
        apply existsb_exists in X as [lx [Ix Ex]]. apply String.eqb_eq in Ex. unfold Los in Ix. apply in_map_iff in Ix as [o [<- Io]]. cbn in Ex. subst n. now apply in_map.
    + injection E as <-. destruct (IH _ _ _ H) as [v' [w' [-> [V [W1 [W2 K]]]]]]. exists v', w'. split; [reflexivity|].
      assert (No : forall ch m, (cport ch, cclock ch) = pc -> options mods ch = Some m -> False) by (intros ch m <- O; unfold options in O; cbn [fst snd] in L; congruence).
      split; [|split; [|split]].
      * intros ch I. rewrite (V ch I). cbn [existsb]. destruct (here (fst pc) (snd pc) ch) eqn:Hc; cbn [orb]; [|reflexivity]. destruct (options mods ch) eqn:O; [|match goal with |- context [if ?b then _ else _] => destruct b end; reflexivity].
        exfalso. eapply No; eauto. apply here_spec in Hc. now destruct pc.
      * intros o Ho. apply W1. intros pc' m' I'. apply Ho. now right.
      * intros o pre pc' post m' E Gv Np. destruct pre as [|pc0 pre]; cbn in E; injection E as <- E.
        -- destruct Gv as [ch' [I' [P [C' O]]]]. exfalso. eauto.
        -- subst pcs. eapply W2; eauto.
      * intros ch' m' I' P O. destruct P as [P|P]; [exfalso; eauto | eauto].
Qed.
