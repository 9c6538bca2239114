(** C71: examples, and the places where the code is wrong. *)
From Verif Require Import Base CircModel PathModel RtfModel RtfSpec RtfProps RtfThms RtfThms2 OptThms.
Local Open Scope string_scope.
Local Open Scope list_scope.
Local Open Scope Z_scope.

Definition exp1 (t a : Q) : corr := fun f => match f with Exp1 => Some [t; a] | _ => None end.
Definition fir (l : list Q) : corr := fun f => match f with Fir => Some l | _ => None end.
Definition row (s : list dset) : list (list (option (list Q) * fcfg * bool)) := map (fun d : dset => map (fun f => (r_coeffs (d f), r_cfg (d f), r_delay (d f))) all_filters) s.
Definition off : option (list Q) * fcfg * bool := (None, Bypassed, false).

(** a complex and a real output with corrections, in debug mode, and a real output that compensates (EXP0 | FIR = 34) *)
Definition ex_pcs : dict path := [("q4:mw-q4.01", at_ch "complex_output_0"); ("q0:fl-cl0.baseband", at_ch "real_output_2"); ("q1:fl-cl0.baseband", at_ch "real_output_3")].
Definition ex_descs : list (string * option chdesc) := [("instrument_type", None); ("real_output_3", Some {| d_comp := 34; d_debug := Some false |}); ("complex_output_0", Some {| d_comp := 0; d_debug := Some true |})].
Definition ex_dcs : dict dcopt := [("q4:mw-q4.01", Several [exp1 200 (-1 # 10); exp1 20 (-1 # 10)]); ("q0:fl-cl0.baseband", One (exp1 2000 (1 # 2)))].
Example ex_hyps : valid ex_pcs /\ fitting ex_dcs ex_pcs /\ no_overlap ex_dcs ex_pcs.
Proof.
  split; [|split].
  - intros pc p H. cbn in H. destruct H as [H|[H|[H|[]]]]; injection H as <- <-; left; cbn; tauto.
  - intros pc dc p H G. cbn in H. destruct H as [H|[H|[]]]; injection H as <- <-; vm_compute in G; injection G as <-; [exists 0%nat, 1%nat|exists 2%nat]; cbn; tauto.
  - intros o c c' (pc & dc & p & H & G & K) (pc' & dc' & p' & H' & G' & K'). cbn in H, H'.
    destruct H as [H|[H|[]]]; injection H as <- <-; vm_compute in G; injection G as <-; destruct H' as [H'|[H'|[]]]; injection H' as <- <-; vm_compute in G'; injection G' as <-.
    + inversion K as [|? ? ? ? ? ? D|? ? ? ? ? ? D]; inversion K' as [|? ? ? ? ? ? D'|? ? ? ? ? ? D']; subst; try reflexivity; cbn in D, D';
      exfalso; repeat (destruct D as [D|D]; [try discriminate|]); try contradiction; repeat (destruct D' as [D'|D']; [try discriminate|]); try contradiction; congruence.
    + exfalso. inversion K as [|? ? ? ? ? ? D|? ? ? ? ? ? D]; inversion K' as [? ? ? D'| |]; subst; cbn in D, D';
      repeat (destruct D as [D|D]; [try discriminate|]); try contradiction; repeat (destruct D' as [D'|D']; [try discriminate|]); try contradiction; congruence.
    + exfalso. inversion K as [? ? ? D| |]; inversion K' as [|? ? ? ? ? ? D'|? ? ? ? ? ? D']; subst; cbn in D, D';
      repeat (destruct D as [D|D]; [try discriminate|]); try contradiction; repeat (destruct D' as [D'|D']; [try discriminate|]); try contradiction; congruence.
    + inversion K; inversion K'; subst; reflexivity.
Qed.
Example ex_qcm : match configure_qcm ex_descs ex_pcs (Some ex_dcs) with Ok s => row s | Err _ => [] end =
  [[off; (Some [200; -1 # 10]%Q, Enabled, true); off; off; off];
   [off; (Some [20; -1 # 10]%Q, Enabled, true); off; off; off];
   [off; (Some [2000; 1 # 2]%Q, Enabled, false); off; off; off];
   [(None, DelayComp, false); off; off; off; (None, DelayComp, false)]].
Proof. reflexivity. Qed.
Example ex_exp_refused : configure_qcm [] ex_pcs (Some [("q0:fl-cl0.baseband", One (exp1 5 0))]) = Err ValueError.
Proof. reflexivity. Qed.

(** 1. FIR coefficients of 100, which the filter cannot have (their range is [-2, 2)), are accepted and enabled. *)
Theorem C71_fir_range_refuted :
  let v := repeat (100 # 1)%Q 32 in ~ in_range Fir v /\
  exists s d, configure_qcm [] ex_pcs (Some [("q0:fl-cl0.baseband", One (fir v))]) = Ok s /\ nth_error s 2 = Some d /\ r_coeffs (d Fir) = Some v /\ r_cfg (d Fir) = Enabled.
Proof.
  cbv zeta. split.
  - intros [_ H]. assert (X : (100 < 2)%Q) by (apply (H (100 # 1)%Q); cbn; auto). vm_compute in X. discriminate.
  - eexists. eexists. split; [reflexivity|]. split; [reflexivity|]. split; reflexivity.
Qed.

Definition two_pcs : dict path := [("q0:mw-q0.01", at_ch "complex_output_0"); ("q1:mw-q1.01", at_ch "complex_output_1"); ("q1:mw-q1.12", at_ch "complex_output_1")].
(** 2. Corrections of both complex outputs (which share nothing) are refused if that of output 0 comes first, and accepted in the other order. *)
Theorem C71_order_refuted :
  let a := ("q0:mw-q0.01", Several [exp1 10 0; exp1 10 0]) in let b := ("q1:mw-q1.01", Several [exp1 10 0; exp1 10 0]) in
  configure_qcm [] two_pcs (Some [a; b]) = Err ValueError /\ is_ok (configure_qcm [] two_pcs (Some [b; a])).
Proof. split; [reflexivity|eexists; reflexivity]. Qed.
(** 3. Two different corrections of output pair 1 are accepted (those of pair 0 are refused): the second one silently replaces the first. *)
Theorem C71_overwritten_refuted :
  match configure_qcm [] two_pcs (Some [("q1:mw-q1.01", Several [exp1 10 0; exp1 10 0]); ("q1:mw-q1.12", Several [exp1 20 0; exp1 30 0])]) with Ok s => row s | Err _ => [] end =
  [[off; off; off; off; off]; [off; off; off; off; off]; [off; (Some [20; 0]%Q, Enabled, false); off; off; off]; [off; (Some [30; 0]%Q, Enabled, false); off; off; off]].
Proof. reflexivity. Qed.
(** 4. Describing output 2 of a QRC, a channel the module has, makes the compilation fail: there are settings for four outputs only. *)
Theorem C71_qrc_refuted :
  fits (at_ch "complex_output_2") (nth 0 (map snd (allowed QRC)) ([], [])) = true /\
  configure_other qrc [("complex_output_2", Some {| d_comp := 0; d_debug := Some false |})] [("q0:mw-q0.01", at_ch "complex_output_2")] = Err IndexError.
Proof. split; reflexivity. Qed.
