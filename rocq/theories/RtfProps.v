(** C71: proofs about the latency compensation. *)
From Verif Require Import Base CircModel PathModel RtfModel RtfSpec.
From Coq Require Import Ascii.
Local Open Scope string_scope.
Local Open Scope list_scope.
Local Open Scope Z_scope.

Lemma upd_spec g : forall l n l', upd l n g = Ok l' -> List.length l' = List.length l /\ (n < List.length l)%nat /\
  (forall d, nth_error l' n = Some d -> exists d0, nth_error l n = Some d0 /\ d = g d0) /\ (forall m, m <> n -> nth_error l' m = nth_error l m).
Proof.
  induction l as [|x l IH]; intros [|n] l' E; cbn [upd] in E; try discriminate.
  - injection E as <-. cbn. split; [reflexivity|]. split; [lia|]. split; [intros d H; injection H as <-; eauto|]. intros [|m] H; [congruence|reflexivity].
  - destruct (upd l n g) as [r|] eqn:U; cbn [bind] in E; [|discriminate]. injection E as <-. destruct (IH _ _ U) as (H1 & H2 & H3 & H4).
    cbn [List.length nth_error]. split; [lia|]. split; [lia|]. split; [exact H3|]. intros [|m] H; [reflexivity|]. apply H4. lia.
Qed.
Lemma upd_ok g : forall l n, (n < List.length l)%nat -> is_ok (upd l n g).
Proof. induction l as [|x l IH]; intros [|n] H; cbn in *; try lia; [eexists; reflexivity|]. destruct (IH n) as [r ->]; [lia|]. cbn. eexists; reflexivity. Qed.

Lemma land_bit k f : Z.eqb (Z.land k (mask f)) 0 = negb (Z.testbit k (bit f)).
Proof.
  assert (M : mask f = 2 ^ bit f) by (destruct f; reflexivity). assert (B : 0 <= bit f) by (destruct f; cbn; lia). rewrite M. clear M.
  destruct (Z.testbit k (bit f)) eqn:T; cbn [negb].
  - apply Z.eqb_neq. intros H. assert (X : Z.testbit (Z.land k (2 ^ bit f)) (bit f) = true) by (rewrite Z.land_spec, T, Z.pow2_bits_true; auto).
    rewrite H, Z.bits_0 in X. discriminate.
  - apply Z.eqb_eq. apply Z.bits_inj'. intros n N. rewrite Z.land_spec, Z.bits_0. destruct (Z.eq_dec (bit f) n) as [<-|E]; [now rewrite T|].
    rewrite Z.pow2_bits_false by auto. apply andb_false_r.
Qed.

(** the settings after some writes: [W], [M] are the outputs and markers written, with the compensation *)
Record winv (W M : list (nat * Z)) (s : list dset) : Prop := {
  w_len : List.length s = 4%nat;
  w_co : forall o d f, nth_error s o = Some d -> r_coeffs (d f) = None;
  w_cfg : forall o d f, nth_error s o = Some d -> (r_cfg (d f) = Bypassed /\ forall k, ~ In (o, k) W) \/ exists k, In (o, k) W /\ r_cfg (d f) = if Z.testbit k (bit f) then DelayComp else Bypassed;
  w_del : forall o d f, nth_error s o = Some d -> (r_delay (d f) = false /\ forall k, ~ In (o, k) M) \/ exists k, In (o, k) M /\ r_delay (d f) = Z.testbit k (bit f) }.

Lemma winv_fresh : winv [] [] fresh.
Proof.
  constructor; [reflexivity|..]; intros o d f H; unfold fresh in H; apply nth_error_In, repeat_spec in H; subst d; cbn; auto.
Qed.
Lemma winv_output W M s k o s' : winv W M s -> comp_output k o s = Ok s' -> winv (W ++ [(o, k)]) M s'.
Proof.
  intros [L C F D] E. apply upd_spec in E. destruct E as (E1 & E2 & E3 & E4). constructor; [congruence|..]; intros o' d f H; destruct (Nat.eq_dec o' o) as [->|N].
  - destruct (E3 _ H) as (d0 & H0 & ->). cbn. eauto.
  - rewrite E4 in H by exact N. eauto.
  - destruct (E3 _ H) as (d0 & H0 & ->). cbn [r_cfg]. right. exists k. split; [apply in_app_iff; right; now left|]. rewrite land_bit. now destruct (Z.testbit k (bit f)).
  - rewrite E4 in H by exact N. destruct (F _ _ f H) as [[A B]|(k' & A & B)]; [left|right].
    + split; [exact A|]. intros k' K. apply in_app_iff in K. destruct K as [K|[K|[]]]; [now apply (B k')|]. now injection K as <- <-.
    + exists k'. split; [apply in_app_iff; now left|exact B].
  - destruct (E3 _ H) as (d0 & H0 & ->). cbn [r_delay]. eauto.
  - rewrite E4 in H by exact N. eauto.
Qed.
Lemma winv_marker W M s k o s' : winv W M s -> comp_marker baseband k o s = Ok s' -> winv W (M ++ [(o, k)]) s'.
Proof.
  intros [L C F D] E. unfold comp_marker in E. cbn [h_shift baseband] in E. rewrite Nat.add_0_r in E. apply upd_spec in E. destruct E as (E1 & E2 & E3 & E4).
  constructor; [congruence|..]; intros o' d f H; destruct (Nat.eq_dec o' o) as [->|N].
  - destruct (E3 _ H) as (d0 & H0 & ->). cbn. eauto.
  - rewrite E4 in H by exact N. eauto.
  - destruct (E3 _ H) as (d0 & H0 & ->). cbn [r_cfg]. eauto.
  - rewrite E4 in H by exact N. eauto.
  - destruct (E3 _ H) as (d0 & H0 & ->). cbn [r_delay]. right. exists k. split; [apply in_app_iff; right; now left|]. rewrite land_bit. now destruct (Z.testbit k (bit f)).
  - rewrite E4 in H by exact N. destruct (D _ _ f H) as [[A B]|(k' & A & B)]; [left|right].
    + split; [exact A|]. intros k' K. apply in_app_iff in K. destruct K as [K|[K|[]]]; [now apply (B k')|]. now injection K as <- <-.
    + exists k'. split; [apply in_app_iff; now left|exact B].
Qed.

Lemma marker_name ch : contains "digital" ch = false -> get (h_markers baseband) ch = None.
Proof.
  intros H. cbn [h_markers baseband get].
  repeat match goal with |- context [String.eqb ?a ch] => destruct (String.eqb_spec a ch) as [<-|_]; [vm_compute in H; discriminate|] end. reflexivity.
Qed.

(** what one channel writes *)
Definition ev_out (ch : string) (d : chdesc) (outs : list nat) : list (nat * Z) := if contains "digital" ch then [] else map (fun o => (o, d_comp d)) outs.
Definition ev_mark (ch : string) (d : chdesc) (outs : list nat) : list (nat * Z) :=
  if contains "digital" ch || match d_debug d with Some true => true | _ => false end then map (fun o => (o, d_comp d)) outs else [].

(** the corrections are kept; the debug mode of a channel is noted *)
Definition kept (a b : list (nat * dconf)) : Prop := map fst b = map fst a /\
  (forall o c, nget b o = Some c -> exists c0, nget a o = Some c0 /\ f_corr c = f_corr c0 /\ (f_debug c0 = true -> f_debug c = true)).
Lemma kept_refl a : kept a a.
Proof. split; [reflexivity|]. eauto. Qed.
Lemma kept_trans a b c : kept a b -> kept b c -> kept a c.
Proof.
  intros [A1 A2] [B1 B2]. split; [congruence|]. intros o x H. destruct (B2 _ _ H) as (y & H1 & H2 & H3). destruct (A2 _ _ H1) as (z & K1 & K2 & K3). exists z. repeat split; auto; congruence.
Qed.
Lemma nget_nput {A} (d : list (nat * A)) k v o : nget (nput d k v) o = if Nat.eqb k o then Some v else nget d o.
Proof.
  induction d as [|[k' w] r IH]; cbn [nput nget]; [reflexivity|]. destruct (Nat.eqb_spec k' k) as [->|N]; cbn [nget]; [now destruct (Nat.eqb_spec k o)|].
  rewrite IH. destruct (Nat.eqb_spec k' o) as [->|]; [|reflexivity]. destruct (Nat.eqb_spec k o); [congruence|reflexivity].
Qed.
Lemma nput_keys {A} (d : list (nat * A)) k v : nget d k <> None -> map fst (nput d k v) = map fst d.
Proof.
  induction d as [|[k' w] r IH]; cbn [nput nget map fst]; [congruence|]. destruct (Nat.eqb_spec k' k) as [->|]; intros H; cbn [map fst]; [reflexivity|now rewrite IH].
Qed.

Lemma lat_output_inv W M s confs channels ch d o s' confs' : winv W M s -> lat_output baseband channels ch d (s, confs) o = Ok (s', confs') ->
  winv (W ++ ev_out ch d [o]) (M ++ ev_mark ch d [o]) s' /\ kept confs confs' /\
  (contains "digital" ch = false -> d_debug d <> None) /\
  (contains "digital" ch = false -> d_debug d = Some true -> memb (digital_name o) channels = false /\ forall c, nget confs' o = Some c -> f_debug c = true).
Proof.
  intros I E. unfold lat_output, ev_out, ev_mark in *. destruct (contains "digital" ch) eqn:DG; cbn [orb map].
  - destruct (comp_marker baseband (d_comp d) o s) as [t|] eqn:C; cbn [bind] in E; [|discriminate]. injection E as <- <-. rewrite app_nil_r.
    split; [now apply (winv_marker _ _ s)|]. split; [apply kept_refl|]. split; discriminate.
  - destruct (d_debug d) as [[|]|]; cbn [bind] in E; [| |discriminate].
    + destruct (memb (digital_name o) channels) eqn:MB; cbn [bind] in E; [discriminate|]. rewrite (marker_name _ DG) in E.
      destruct (comp_marker baseband (d_comp d) o s) as [t|] eqn:C; cbn [bind] in E; [|discriminate].
      destruct (comp_output (d_comp d) o t) as [u|] eqn:O; cbn [bind] in E; [|discriminate]. injection E as <- <-.
      split; [apply (winv_output _ _ t); [now apply (winv_marker _ _ s)|exact O]|].
      assert (KK : forall c0, nget confs o = Some c0 -> forall o' c, nget (nput confs o {| f_corr := f_corr c0; f_debug := true |}) o' = Some c ->
                 (exists c1, nget confs o' = Some c1 /\ f_corr c = f_corr c1 /\ (f_debug c1 = true -> f_debug c = true)) /\ (o' = o -> f_debug c = true)).
      { intros c0 N o' c H. rewrite nget_nput in H. destruct (Nat.eqb_spec o o') as [<-|X]; [injection H as <-; cbn; split; [exists c0; auto|auto]|split; [eauto|congruence]]. }
      split; [|split; [discriminate|intros _ _; split; [reflexivity|]]].
      * destruct (nget confs o) as [c0|] eqn:N; [|apply kept_refl]. split; [apply nput_keys; congruence|]. intros o' c H. now apply (KK c0 eq_refl).
      * intros c H. destruct (nget confs o) as [c0|] eqn:N; [|congruence]. now apply (KK c0 eq_refl o c).
    + destruct (comp_output (d_comp d) o s) as [u|] eqn:O; cbn [bind] in E; [|discriminate]. injection E as <- <-. rewrite app_nil_r.
      split; [now apply (winv_output _ _ s)|]. split; [apply kept_refl|]. split; intros; discriminate.
Qed.
