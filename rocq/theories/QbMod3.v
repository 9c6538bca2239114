(** C51, module parameters: the table is the specification. *)
From Coq Require Import Ascii.
From Verif Require Import Base PathModel JsonModel ZiIds QbModel QbSpec QbProps QbSeq QbSeq2 QbPrep QbThms QbMod QbMod2.
Local Open Scope string_scope.
Local Open Scope list_scope.

Fixpoint nodup_b (l : list string) : bool := match l with [] => true | x :: r => negb (existsb (String.eqb x) r) && nodup_b r end.
Lemma nodup_b_ok l : nodup_b l = true -> NoDup l.
Proof. induction l as [|x l IH]; cbn; [constructor|]. rewrite andb_true_iff. intros [a b]. constructor; [|auto]. intros h. apply negb_true_iff in a. assert (existsb (String.eqb x) l = true) by (apply existsb_exists; exists x; split; [auto|apply String.eqb_refl]). congruence. Qed.
Lemma mtab_nodup k data p : NoDup (map fst (mtab k data p)).
Proof. apply nodup_b_ok. unfold mtab, with_st. destruct (p_settings p) as [st|].
  - destruct k; try (vm_compute; reflexivity); unfold gtab; destruct (dists st) as [|a [|b [|e [|f r]]]]; vm_compute; reflexivity.
  - destruct k; vm_compute; reflexivity. Qed.
Lemma enum_nth {A} (l : list A) : forall n o x, In (o, x) (enum_from n l) <-> (n <= o)%nat /\ nth_error l (o - n) = Some x.
Proof. induction l as [|y l IH]; intros n o x; cbn [enum_from In].
  - split; [intros []|]. intros [_ h]. destruct (o - n)%nat; discriminate.
  - rewrite IH. split.
    + intros [h|[h1 h2]]; [injection h as -> ->; rewrite Nat.sub_diag; auto|]. split; [lia|]. replace (o - n)%nat with (S (o - S n)) by lia. auto.
    + intros [h1 h2]. destruct (Nat.eq_dec n o) as [->|ne]; [rewrite Nat.sub_diag in h2; cbn in h2; left; congruence|right]. split; [lia|]. replace (o - n)%nat with (S (o - S n)) in h2 by lia. auto. Qed.
Lemma firstn_nth {A} (l : list A) : forall n o x, nth_error (firstn n l) o = Some x <-> (o < n)%nat /\ nth_error l o = Some x.
Proof. induction l as [|y l IH]; intros n o x.
  - rewrite firstn_nil. destruct o; cbn; split; try discriminate; intros [_ h]; discriminate.
  - destruct n; cbn [firstn]; [split; [destruct o; discriminate|lia]|]. destruct o; cbn [nth_error]; [split; [intros; split; [lia|auto]|tauto]|]. rewrite IH. split; intros [a b]; (split; [lia|auto]). Qed.
Lemma in_dists n (l : list dist) (g : nat -> dist -> otab) x : In x (flat_map (fun '(o, dc) => g o dc) (enum_from 0 (firstn n l))) <-> exists o dc, (o < n)%nat /\ nth_error l o = Some dc /\ In x (g o dc).
Proof. rewrite in_flat_map. split.
  - intros ([o dc] & h & e). apply enum_nth in h. destruct h as [_ h]. rewrite Nat.sub_0_r in h. apply firstn_nth in h. destruct h. eauto.
  - intros (o & dc & h1 & h2 & h3). exists (o, dc). split; [|auto]. apply enum_nth. split; [lia|]. rewrite Nat.sub_0_r. apply firstn_nth. auto. Qed.

Lemma dist_qcm_in o dc q v : In (q, Some v) (dist_tab_qcm o dc) <->
  (exists i, (i < 4)%nat /\ let e := nth i (exps dc) nofilt in
    (q = out_ o ("_exp" ++ dec_n i ++ "_time_constant") /\ (exists tau rest, coeffs e = Some (tau :: rest) /\ v = VNum tau)) \/
    (q = out_ o ("_exp" ++ dec_n i ++ "_amplitude") /\ (exists tau amp rest, coeffs e = Some (tau :: amp :: rest) /\ v = VNum amp)) \/
    (q = out_ o ("_exp" ++ dec_n i ++ "_config") /\ v = VStr (fconfig e)) \/ (q = marker_ o ("_exp" ++ dec_n i ++ "_config") /\ v = VStr (fmarker e))) \/
  (q = out_ o "_fir_coeffs" /\ exists cs, coeffs (fir dc) = Some cs /\ v = VList cs) \/ (q = out_ o "_fir_config" /\ v = VStr (fconfig (fir dc))) \/ (q = marker_ o "_fir_config" /\ v = VStr (fmarker (fir dc))).
Proof. unfold dist_tab_qcm. rewrite !in_app_iff, in_flat_map. cbv zeta. split.
  - intros [(i & hi & h)|h].
    + left. exists i. apply in_seq in hi. split; [lia|]. rewrite !in_app_iff in h. cbn [In] in h. destruct h as [[[h|[]]|[h|[]]]|[[h|[]]|[h|[]]]].
      * injection h as <- h. left. split; [auto|]. destruct (coeffs (nth i (exps dc) nofilt)) as [[|tau rest]|]; [discriminate| |discriminate]. injection h as <-. eauto.
      * injection h as <- h. right. left. split; [auto|]. destruct (coeffs (nth i (exps dc) nofilt)) as [[|tau [|amp rest]]|]; try discriminate. injection h as <-. eauto.
      * injection h as <- <-. auto.
      * injection h as <- <-. auto.
    + right. cbn [In] in h. destruct h as [[h|[]]|[[h|[]]|[h|[]]]].
      * injection h as <- h. left. split; [auto|]. destruct (coeffs (fir dc)); [|discriminate]. injection h as <-. eauto.
      * injection h as <- <-. auto.
      * injection h as <- <-. auto.
  - intros [(i & hi & h)|h].
    + left. exists i. split; [apply in_seq; lia|]. rewrite !in_app_iff. cbn [In]. destruct h as [(-> & tau & rest & -> & ->)|[(-> & tau & amp & rest & -> & ->)|[[-> ->]|[-> ->]]]]; cbn; auto.
    + right. cbn [In]. destruct h as [(-> & cs & -> & ->)|[[-> ->]|[-> ->]]]; cbn; auto. Qed.
Lemma dist_qrm_in o dc q v : In (q, Some v) (dist_tab_qrm o dc) <-> (exists i, (i < 4)%nat /\ q = out_ o ("_exp" ++ dec_n i ++ "_config") /\ v = VStr (fconfig (nth i (exps dc) nofilt))) \/ (q = out_ o "_fir_config" /\ v = VStr (fconfig (fir dc))).
Proof. unfold dist_tab_qrm. rewrite in_app_iff, in_flat_map. split.
  - intros [(i & hi & [h|[]])|[h|[]]]; injection h as <- <-; [left|auto]. apply in_seq in hi. exists i. split; [lia|auto].
  - intros [(i & hi & -> & ->)|[-> ->]]; [left|right; cbn; auto]. exists i. split; [apply in_seq; lia|cbn; auto]. Qed.
Lemma sel_in k data p v : (forall hwm, p_mapping p = Some hwm -> exists r, scope_seq k data hwm = Ok r) ->
  sel k data p = Some v <-> exists hwm i, p_mapping p = Some hwm /\ ScopeSeq data hwm i /\ v = VNum (inject_Z (Z.of_nat i)).
Proof. intros ok. unfold sel. destruct (p_mapping p) as [hwm|]; [|split; [discriminate|intros (h & i & e & _); discriminate]]. destruct (ok hwm eq_refl) as [r e]. rewrite e. pose proof (scope_seq_spec k data hwm r e) as sp. split.
  - destruct r as [[i n]|]; [|discriminate]. intros h. injection h as <-. exists hwm, i. split; [auto|]. split; [apply sp; exists n; auto|auto].
  - intros (h & i & q & hs & ->). injection q as <-. apply sp in hs. destruct hs as [n ->]. auto. Qed.
Lemma stab_in k q v : In (q, Some v) (stab k) <-> exists path, (path < n_scope k)%nat /\ ((q = ("scope_acq_trigger_mode_path" ++ dec_n path)%string /\ v = VStr "sequencer") \/ (q = ("scope_acq_avg_mode_en_path" ++ dec_n path)%string /\ v = VBool true)).
Proof. unfold stab. rewrite in_flat_map. split.
  - intros (path & h & e). apply in_seq in h. exists path. split; [lia|]. cbn in e. destruct e as [e|[e|[]]]; injection e as <- <-; auto.
  - intros (path & h & e). exists path. split; [apply in_seq; lia|]. destruct e as [[-> ->]|[-> ->]]; cbn; auto. Qed.
Lemma field_in k st q v : k <> QTM -> ~ qrc_att k q -> (exists f, In (q, f) (fields k) /\ f st = Some v) <-> In (q, Some v) ((match k with QCM => firstn 4 (gtab k st) | QRM => firstn 4 (gtab k st) | _ => gtab k st end) ++ lotab k st).
Proof. intros hk na. split.
  - intros (f & h & e). destruct k; cbn [fields] in h; try congruence; cbn [In] in h;
    repeat (destruct h as [h|h]; [injection h as <- <-; first [exfalso; apply na; split; [reflexivity|cbn; tauto] | rewrite <- e; cbn; auto 20]|]); destruct h.
  - intros h. destruct k; cbn in h; try congruence;
    repeat (destruct h as [h|h]; [injection h as <- h; first [exfalso; apply na; split; [reflexivity|cbn; tauto] | eexists; (split; [cbn; auto 20|]); exact h]|]); destruct h. Qed.
