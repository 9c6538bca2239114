(** C71: the loops over channels, and the corrections of QCM modules. *)
From Verif Require Import Base CircModel PathModel RtfModel RtfSpec RtfProps.
From Coq Require Import Ascii.
Local Open Scope string_scope.
Local Open Scope list_scope.
Local Open Scope Z_scope.

Lemma ev_out_cons ch d o outs : ev_out ch d (o :: outs) = ev_out ch d [o] ++ ev_out ch d outs.
Proof. unfold ev_out. now destruct (contains "digital" ch). Qed.
Lemma ev_mark_cons ch d o outs : ev_mark ch d (o :: outs) = ev_mark ch d [o] ++ ev_mark ch d outs.
Proof. unfold ev_mark. now destruct (contains "digital" ch || _). Qed.

Lemma lat_outs_inv channels ch d : forall outs W M s confs s' confs', winv W M s -> foldM (lat_output baseband channels ch d) outs (s, confs) = Ok (s', confs') ->
  winv (W ++ ev_out ch d outs) (M ++ ev_mark ch d outs) s' /\ kept confs confs' /\
  (contains "digital" ch = false -> d_debug d = Some true -> forall o, In o outs -> memb (digital_name o) channels = false /\ forall c, nget confs' o = Some c -> f_debug c = true).
Proof.
  induction outs as [|o outs IH]; intros W M s confs s' confs' I E; cbn [foldM] in E.
  - injection E as <- <-. assert (E1 : ev_out ch d [] = []) by (unfold ev_out; now destruct (contains "digital" ch)).
    assert (E2 : ev_mark ch d [] = []) by (unfold ev_mark; now destruct (contains "digital" ch || _)). rewrite E1, E2, !app_nil_r.
    split; [exact I|]. split; [apply kept_refl|]. intros _ _ o [].
  - destruct (lat_output baseband channels ch d (s, confs) o) as [[t confs1]|] eqn:L; cbn [bind] in E; [|discriminate].
    destruct (lat_output_inv _ _ _ _ _ _ _ _ _ _ I L) as (I1 & K1 & _ & D1). destruct (IH _ _ _ _ _ _ I1 E) as (I2 & K2 & D2).
    rewrite (ev_out_cons ch d o outs), (ev_mark_cons ch d o outs), !app_assoc. split; [exact I2|]. split; [now apply (kept_trans _ confs1)|].
    intros DG DD o' [<-|H]; [|now apply D2]. split; [now apply D1|]. intros c H. destruct K2 as [_ K2]. destruct (K2 _ _ H) as (c0 & H0 & _ & F). apply F. now apply (D1 DG DD).
Qed.

(** all writes of a list of channels *)
Definition outs_of (ch : string) : list nat := match connected_outputs ch with Ok l => l | Err _ => [] end.
Definition evs (ev : string -> chdesc -> list nat -> list (nat * Z)) (channels : list string) (descs : list (string * option chdesc)) : list (nat * Z) :=
  flat_map (fun e : string * option chdesc => match snd e with Some d => if memb (fst e) channels then ev (fst e) d (outs_of (fst e)) else [] | None => [] end) descs.

Lemma lat_inv channels : forall descs W M s confs s' confs', winv W M s -> foldM (lat_channel baseband channels) descs (s, confs) = Ok (s', confs') ->
  winv (W ++ evs ev_out channels descs) (M ++ evs ev_mark channels descs) s' /\ kept confs confs' /\
  (forall ch d o, In (ch, Some d) descs -> memb ch channels = true -> contains "digital" ch = false -> d_debug d = Some true -> In o (outs_of ch) ->
     memb (digital_name o) channels = false /\ forall c, nget confs' o = Some c -> f_debug c = true).
Proof.
  induction descs as [|[ch desc] descs IH]; intros W M s confs s' confs' I E; cbn [foldM evs flat_map] in *.
  - injection E as <- <-. rewrite !app_nil_r. split; [exact I|]. split; [apply kept_refl|]. intros ? ? ? [].
  - destruct (lat_channel baseband channels (s, confs) (ch, desc)) as [[t confs1]|] eqn:L; cbn [bind] in E; [|discriminate].
    assert (X : winv (W ++ (match desc with Some d => if memb ch channels then ev_out ch d (outs_of ch) else [] | None => [] end)) (M ++ (match desc with Some d => if memb ch channels then ev_mark ch d (outs_of ch) else [] | None => [] end)) t /\ kept confs confs1 /\
       (forall d o, desc = Some d -> memb ch channels = true -> contains "digital" ch = false -> d_debug d = Some true -> In o (outs_of ch) -> memb (digital_name o) channels = false /\ forall c, nget confs1 o = Some c -> f_debug c = true)).
    { unfold lat_channel in L. destruct (memb ch channels) eqn:MB; [destruct desc as [d|]|].
      - unfold outs_of. destruct (connected_outputs ch) as [outs|]; cbn [bind] in L; [|discriminate]. destruct (lat_outs_inv _ _ _ _ _ _ _ _ _ _ I L) as (A & B & C).
        split; [exact A|]. split; [exact B|]. intros d' o HH _ DG DD. injection HH as <-. now apply C.
      - injection L as <- <-. rewrite !app_nil_r. split; [exact I|]. split; [apply kept_refl|]. discriminate.
      - injection L as <- <-. destruct desc; rewrite !app_nil_r; (split; [exact I|]; split; [apply kept_refl|]; intros; discriminate). }
    destruct X as (A & B & C). destruct (IH _ _ _ _ _ _ A E) as (A2 & B2 & C2). cbn [fst snd]. rewrite !app_assoc. split; [exact A2|]. split; [now apply (kept_trans _ confs1)|].
    intros ch' d o [H|H] MB DG DD OO; [|now apply (C2 ch' d o)]. injection H as -> ->. destruct (C d o eq_refl MB DG DD OO) as [C3 C4]. split; [exact C3|].
    intros c H. destruct B2 as [_ B2]. destruct (B2 _ _ H) as (c0 & H0 & _ & F). apply F. now apply C4.
Qed.

(** ** The channel names of a module *)
Lemma drives_outs ch outs : In (ch, outs) drives -> connected_outputs ch = Ok outs /\ contains "digital" ch = false.
Proof. intros H. cbn in H. repeat (destruct H as [H|H]; [injection H as <- <-; vm_compute; auto|]). contradiction. Qed.
Lemma digitals_outs ch o : In (ch, o) digitals -> connected_outputs ch = Ok [o] /\ contains "digital" ch = true /\ digital_name o = ch.
Proof. intros H. cbn in H. repeat (destruct H as [H|H]; [injection H as <- <-; vm_compute; auto|]). contradiction. Qed.
Lemma inputs_outs ch : In ch inputs -> connected_outputs ch = Ok [] /\ contains "digital" ch = false.
Proof. intros H. cbn in H. repeat (destruct H as [<-|H]; [vm_compute; auto|]). contradiction. Qed.
Lemma valid_cases ch : valid_channel ch -> (exists outs, In (ch, outs) drives) \/ (exists o, In (ch, o) digitals) \/ In ch inputs.
Proof.
  intros [H|[H|H]]; [left|right; left|right; right; exact H]; apply in_map_iff in H; destruct H as ([c x] & <- & H); eauto.
Qed.
Lemma memb_used pcs ch : memb ch (map (fun e : string * path => p_ch (snd e)) pcs) = true <-> used pcs ch.
Proof.
  unfold memb. rewrite existsb_exists. split.
  - intros (x & H & E). apply String.eqb_eq in E. subst x. apply in_map_iff in H. destruct H as ([pc p] & E & H). exists pc, p. auto.
  - intros (pc & p & H & <-). exists (p_ch p). split; [|apply String.eqb_refl]. apply in_map_iff. exists (pc, p). auto.
Qed.

Lemma evs_out_iff descs pcs o k : valid pcs -> (In (o, k) (evs ev_out (map (fun e => p_ch (snd e)) pcs) descs) <-> compensates descs pcs o k).
Proof.
  intros V. unfold evs. rewrite in_flat_map. split.
  - intros ([ch [d|]] & H & K); cbn [fst snd] in K; [|destruct K]. destruct (memb ch _) eqn:MB; [|destruct K]. apply memb_used in MB.
    unfold ev_out in K. destruct (contains "digital" ch) eqn:DG; [destruct K|]. apply in_map_iff in K. destruct K as (o' & E & K). injection E as -> <-.
    exists ch, d. assert (VC : valid_channel ch) by (destruct MB as (pc & p & L & <-); now apply (V pc)).
    unfold outs_of in K. destruct (valid_cases _ VC) as [[outs D]|[[x D]|D]].
    + exists outs. destruct (drives_outs _ _ D) as [X _]. rewrite X in K. auto.
    + destruct (digitals_outs _ _ D) as (_ & X & _). congruence.
    + destruct (inputs_outs _ D) as [X _]. rewrite X in K. destruct K.
  - intros (ch & d & outs & H & U & D & O & <-). exists (ch, Some d). split; [exact H|]. cbn [fst snd]. apply memb_used in U. rewrite U.
    destruct (drives_outs _ _ D) as [C DG]. unfold ev_out, outs_of. rewrite DG, C. apply in_map_iff. exists o. auto.
Qed.
Lemma evs_mark_iff descs pcs o k : valid pcs -> (In (o, k) (evs ev_mark (map (fun e => p_ch (snd e)) pcs) descs) <-> compensates_marker descs pcs o k).
Proof.
  intros V. unfold evs. rewrite in_flat_map. split.
  - intros ([ch [d|]] & H & K); cbn [fst snd] in K; [|destruct K]. destruct (memb ch _) eqn:MB; [|destruct K]. apply memb_used in MB.
    unfold ev_mark in K. destruct (contains "digital" ch || _) eqn:B; [|destruct K]. apply in_map_iff in K. destruct K as (o' & E & K). injection E as -> <-.
    exists ch, d. assert (VC : valid_channel ch) by (destruct MB as (pc & p & L & <-); now apply (V pc)).
    split; [exact H|]. split; [exact MB|]. split; [reflexivity|]. unfold outs_of in K. destruct (valid_cases _ VC) as [[outs D]|[[x D]|D]].
    + right. destruct (drives_outs _ _ D) as [X DG]. rewrite DG in B. rewrite X in K. cbn [orb] in B. split; [destruct (d_debug d) as [[|]|]; congruence|eauto].
    + left. destruct (digitals_outs _ _ D) as (X & _). rewrite X in K. destruct K as [->|[]]. exact D.
    + destruct (inputs_outs _ D) as [X _]. rewrite X in K. destruct K.
  - intros (ch & d & H & U & <- & W). exists (ch, Some d). split; [exact H|]. cbn [fst snd]. apply memb_used in U. rewrite U. unfold ev_mark, outs_of.
    destruct W as [D|(DD & outs & D & O)].
    + destruct (digitals_outs _ _ D) as (-> & -> & _). cbn. auto.
    + destruct (drives_outs _ _ D) as [-> ->]. rewrite DD. cbn [orb]. apply in_map_iff. exists o. auto.
Qed.
