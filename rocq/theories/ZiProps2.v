From Verif Require Import Base ZiModel ZiSpec ZiProps.
From Coq Require Import Permutation.
Open Scope Z_scope.

Definition idm (a : nat) (ids : list string) : list (string * nat) := combine ids (seq a (List.length ids)).
Lemma idm_cons a x ids : idm a (x :: ids) = (x, a) :: idm (S a) ids. Proof. reflexivity. Qed.
Lemma id_mapping_idm l : id_mapping l = idm 0 (map e_id (drop_duplicates [] l)).
Proof. unfold id_mapping, idm. reflexivity. Qed.
Lemma str_in_spec x l : str_in x l = true <-> In x l.
Proof. unfold str_in. rewrite existsb_exists. split; [intros (y & h & e); apply String.eqb_eq in e; now subst|intros h; exists x; split; [exact h|apply String.eqb_refl]]. Qed.
Lemma dd_in l : forall seen e, In e (drop_duplicates seen l) -> In e l.
Proof. induction l as [|x l IH]; intros seen e; cbn; [tauto|]. destruct (str_in _ _); [intros h; right; eauto|]. intros [h|h]; [now left|right; eauto]. Qed.
Lemma dd_fresh l : forall seen e, In e (drop_duplicates seen l) -> ~ In (e_id e) seen.
Proof. induction l as [|x l IH]; intros seen e; cbn; [tauto|]. destruct (str_in (e_id x) seen) eqn:E; [apply IH|]. intros [h|h]; [subst; intros hi; apply str_in_spec in hi; congruence|]. intros hi. apply (IH _ _ h). now right. Qed.
Lemma dd_nodup l : forall seen, NoDup (map e_id (drop_duplicates seen l)).
Proof. induction l as [|x l IH]; intros seen; cbn; [constructor|]. destruct (str_in _ _); [apply IH|]. cbn. constructor; [|apply IH]. intros h. apply in_map_iff in h. destruct h as (e & he & h). apply dd_fresh in h. apply h. rewrite he. now left. Qed.
(** the entry kept for an id is the first one with that id *)
Definition first_with (id : string) (l : list entry) : option entry := find (fun e => String.eqb (e_id e) id) l.
Lemma dd_first l : forall seen e, In e l -> ~ In (e_id e) seen -> exists e', first_with (e_id e) l = Some e' /\ In e' (drop_duplicates seen l) /\ e_id e' = e_id e.
Proof. induction l as [|x l IH]; intros seen e; cbn; [tauto|]. intros h hs. unfold first_with. cbn [find]. destruct (String.eqb_spec (e_id x) (e_id e)) as [q|q].
  - exists x. split; [reflexivity|]. split; [|exact q]. destruct (str_in (e_id x) seen) eqn:E; [apply str_in_spec in E; rewrite q in E; contradiction|]. now left.
  - destruct h as [->|h]; [contradiction|]. destruct (str_in (e_id x) seen) eqn:E.
    + destruct (IH seen e h hs) as (e' & a & b & c). exists e'. repeat split; auto.
    + destruct (IH (e_id x :: seen) e h) as (e' & a & b & c); [intros [hh|hh]; [congruence|contradiction]|]. exists e'. repeat split; auto. now right. Qed.
Lemma dd_unique l e e' : In e (drop_duplicates [] l) -> In e' (drop_duplicates [] l) -> e_id e = e_id e' -> e = e'.
Proof. intros h h' q. pose proof (dd_nodup l []) as nd. induction (drop_duplicates [] l) as [|x d IH]; [destruct h|]. cbn in nd. inversion nd as [|? ? n1 n2]; subst. destruct h as [<-|h], h' as [<-|h'].
  - reflexivity.
  - exfalso. apply n1. rewrite q. now apply in_map.
  - exfalso. apply n1. rewrite <- q. now apply in_map.
  - now apply IH. Qed.

Lemma sget_idm ids : forall a k id, NoDup ids -> nth_error ids k = Some id -> sget (idm a ids) id = Some (a + k)%nat.
Proof. induction ids as [|x ids IH]; intros a k id nd h; [destruct k; discriminate|]. rewrite idm_cons. cbn [sget]. inversion nd as [|? ? n1 n2]; subst. destruct k as [|k]; cbn in h.
  - injection h as ->. rewrite String.eqb_refl. f_equal. lia.
  - destruct (String.eqb_spec id x) as [->|_]; [exfalso; apply n1; eapply nth_error_In; eauto|]. rewrite (IH (S a) k id n2 h). f_equal. lia. Qed.
Lemma sget_idm_inv ids : forall a id n, sget (idm a ids) id = Some n -> exists k, nth_error ids k = Some id /\ n = (a + k)%nat.
Proof. induction ids as [|x ids IH]; intros a id n h; [discriminate|]. rewrite idm_cons in h. cbn [sget] in h. destruct (String.eqb_spec id x) as [->|_].
  - injection h as <-. exists 0%nat. split; [reflexivity|lia].
  - destruct (IH _ _ _ h) as (k & hk & ->). exists (S k). split; [exact hk|lia]. Qed.
Lemma look_cons {A} (x : nat * A) d n : look (x :: d) n = if Nat.eqb (fst x) n then Some (snd x) else look d n.
Proof. unfold look. cbn [find]. destruct x as [k v]. cbn. now destruct (Nat.eqb k n). Qed.
Lemma look_nodes wf ids : forall a k id w, nth_error ids k = Some id -> last_get wf id = Some w -> look (wave_nodes (idm a ids) wf) (a + k) = Some w.
Proof. induction ids as [|x ids IH]; intros a k id w h hw; [destruct k; discriminate|]. rewrite idm_cons. unfold wave_nodes. cbn [flat_map]. destruct k as [|k]; cbn in h.
  - injection h as ->. rewrite hw. cbn [app]. rewrite look_cons. cbn [fst snd]. replace (a + 0)%nat with a by lia. now rewrite Nat.eqb_refl.
  - replace (a + S k)%nat with (S a + k)%nat by lia. destruct (last_get wf x) as [w'|]; cbn [app]; [|apply (IH (S a) k id w h hw)]. rewrite look_cons. cbn [fst]. destruct (Nat.eqb_spec a (S a + k)); [lia|]. apply (IH (S a) k id w h hw). Qed.
Lemma lens_ok wf ids : forall a lens, mapM (fun '(id, n) => match last_get wf id with None => Err KeyError | Some w => Ok (n, wave_length w) end) (idm a ids) = Ok lens ->
  (List.length lens = List.length ids) /\ forall k id, nth_error ids k = Some id -> exists w, last_get wf id = Some w /\ nth_error lens k = Some ((a + k)%nat, wave_length w) /\ look lens (a + k) = Some (wave_length w).
Proof. induction ids as [|x ids IH]; intros a lens h.
  - injection h as <-. split; [reflexivity|]. intros [|k] id; discriminate.
  - rewrite idm_cons in h. cbn [mapM] in h. destruct (last_get wf x) as [w|] eqn:E; [|discriminate]. cbn [bind] in h. inv h. injection h as <-. destruct (IH _ _ H) as (hl & hk). split; [cbn; now rewrite hl|]. intros [|k] id hid; cbn in hid.
    + injection hid as ->. exists w. rewrite look_cons. cbn [fst snd nth_error]. replace (a + 0)%nat with a by lia. rewrite Nat.eqb_refl. auto.
    + destruct (hk k id hid) as (w' & h1 & h2 & h3). exists w'. split; [exact h1|]. cbn [nth_error]. replace (a + S k)%nat with (S a + k)%nat by lia. split; [exact h2|]. rewrite look_cons. cbn [fst]. destruct (Nat.eqb_spec a (S a + k)); [lia|exact h3]. Qed.
Lemma look_table {A} (lens : list A) : forall b k x, nth_error lens k = Some x -> look (combine (seq b (List.length lens)) lens) (b + k) = Some x.
Proof. induction lens as [|y lens IH]; intros b k x h; [destruct k; discriminate|]. cbn [List.length seq combine]. rewrite look_cons. cbn [fst snd]. destruct k as [|k]; cbn in h.
  - injection h as ->. replace (b + 0)%nat with b by lia. now rewrite Nat.eqb_refl.
  - destruct (Nat.eqb_spec b (b + S k)); [lia|]. replace (b + S k)%nat with (S b + k)%nat by lia. now apply IH. Qed.
Lemma look_csv name ids : forall a k id, nth_error ids k = Some id -> look (map (fun '((_, n) : string * nat) => (n, (name, n))) (idm a ids)) (a + k) = Some (name : string, (a + k)%nat).
Proof. induction ids as [|x ids IH]; intros a k id h; [destruct k; discriminate|]. rewrite idm_cons. cbn [map]. rewrite look_cons. cbn [fst snd]. destruct k as [|k]; cbn in h.
  - replace (a + 0)%nat with a by lia. now rewrite Nat.eqb_refl.
  - destruct (Nat.eqb_spec a (a + S k)); [lia|]. replace (a + S k)%nat with (S a + k)%nat by lia. eapply IH; eauto. Qed.
