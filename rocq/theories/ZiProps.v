From Verif Require Import Base ZiModel ZiSpec.
From Coq Require Import Permutation.
Open Scope Z_scope.

Lemma bind_Ok {A B} (x : result A) (f : A -> result B) b : bind x f = Ok b -> exists a, x = Ok a /\ f a = Ok b.
Proof. destruct x; cbn; [eauto|discriminate]. Qed.
Ltac inv H := apply bind_Ok in H; destruct H as (? & ? & H).

Lemma run_app i eff l1 l2 : forall t, run i eff t (l1 ++ l2) = (fst (run i eff t l1) ++ fst (run i eff (snd (run i eff t l1)) l2), snd (run i eff (snd (run i eff t l1)) l2)).
Proof. induction l1 as [|s l1 IH]; intros t; cbn [app run fst snd]; [now destruct (run i eff t l2)|]. rewrite IH. destruct (run i eff (t + clocks i s) l1) as [a b]. cbn [fst snd]. now rewrite app_assoc. Qed.
Lemma run_snd i eff l t : snd (run i eff t l) = t + fold_right (fun s n => clocks i s + n) 0 l.
Proof. revert t. induction l as [|s l IH]; intros t; cbn [run fold_right snd]; [lia|]. specialize (IH (t + clocks i s)). destruct (run i eff (t + clocks i s) l). cbn in *. lia. Qed.

(** * HDAWG programs *)

Definition clock_of (i : instruction) : Z := match i with Acquisition _ c | Wave _ c => c end.
Definition id_of (i : instruction) : string := match i with Acquisition id _ | Wave id _ => id end.
Definition plays (i : instruction) : bool := match i with Wave _ _ => true | _ => false end.
(** gaps of at least 3 clocks, from [t] *)
Fixpoint spaced (t : Z) (l : list instruction) : Prop := match l with [] => True | i :: r => t + 3 <= clock_of i /\ spaced (clock_of i) r end.
Definition last_clock (t : Z) (l : list instruction) : Z := last (map clock_of l) t.
Lemma last_cons {A} (l : list A) : forall x d, last (x :: l) d = last l x.
Proof. induction l as [|y l IH]; intros x d; [reflexivity|]. change (last (x :: y :: l) d) with (last (y :: l) d). now rewrite !IH. Qed.
Lemma last_clock_cons t i l : last_clock t (i :: l) = last_clock (clock_of i) l.
Proof. unfold last_clock. cbn [map]. apply last_cons. Qed.

Lemma hdawg_ok eff ids is_ : forall t st e, hdawg_instructions ids is_ t = Ok (st, e) -> (forall n, eff (Wait n) = []) ->
  run Hdawg eff t st = (flat_map (fun i => match sget ids (id_of i) with Some n => map (fun v => (clock_of i, v)) (eff (ExecuteTableEntry n)) | None => [] end) is_, e)
  /\ e = last_clock t is_ /\ spaced t is_ /\ well_formed st /\ forallb plays is_ = true /\ Forall (fun i => sget ids (id_of i) <> None) is_.
Proof.
  induction is_ as [|i is_ IH]; intros t st e h hw; cbn [hdawg_instructions] in h.
  - injection h as <- <-. repeat split; try constructor. intros n [].
  - destruct i as [|id c]; [discriminate|]. destruct (c - t <? 0) eqn:e0; [discriminate|]. inv h. unfold add_wait_hdawg in H. rewrite e0 in H. destruct (c - t - 3 <? 0) eqn:e1; [discriminate|]. injection H as <-. cbn [fst snd] in h.
    destruct (sget ids id) as [n|] eqn:e2; [|discriminate]. inv h. destruct x as [st' e']. injection h as <- <-. replace (t + (c - t)) with c in H by lia. destruct (IH _ _ _ H hw) as (r & el & sp & wf & pl & fo).
    apply Z.ltb_ge in e0, e1. cbn [fst snd run flat_map id_of clock_of clocks]. rewrite hw. replace (t + (c - t - 3 + 3) + 0) with c by lia. replace (t + (c - t - 3 + 3)) with c by lia. rewrite r, e2, last_clock_cons. cbn [map app clock_of spaced forallb plays andb]. split; [reflexivity|]. split; [exact el|]. split; [split; [lia|exact sp]|]. split; [|split; [exact pl|]].
    + intros m [hm|[hm|hm]]; [injection hm as <-; lia|discriminate|apply wf, hm].
    + constructor; [cbn; congruence|exact fo]. Qed.
Lemma hdawg_complete ids is_ : forall t, spaced t is_ -> forallb plays is_ = true -> Forall (fun i => sget ids (id_of i) <> None) is_ -> exists st, hdawg_instructions ids is_ t = Ok (st, last_clock t is_).
Proof. induction is_ as [|i is_ IH]; intros t sp pl fo; cbn [hdawg_instructions].
  - exists []. reflexivity.
  - destruct i as [|id c]; [discriminate|]. cbn [spaced clock_of] in sp. destruct sp as [s1 s2]. inversion fo as [|? ? f1 f2]; subst. cbn [id_of] in f1.
    destruct (Z.ltb_spec (c - t) 0) as [l|l]; [lia|]. unfold add_wait_hdawg. destruct (Z.ltb_spec (c - t) 0) as [l'|l']; [lia|]. destruct (Z.ltb_spec (c - t - 3) 0) as [l2|l2]; [lia|]. cbn [bind fst snd].
    destruct (sget ids id) as [n|]; [|contradiction]. replace (t + (c - t)) with c by lia. destruct (IH c s2 pl f2) as (st & ->). cbn [bind fst snd]. rewrite last_clock_cons. cbn [clock_of]. eauto. Qed.
Lemma hdawg_rejects ids is_ : forall t, ~ spaced t is_ -> forallb plays is_ = true -> Forall (fun i => sget ids (id_of i) <> None) is_ -> hdawg_instructions ids is_ t = Err ValueError.
Proof. induction is_ as [|i is_ IH]; intros t sp pl fo; cbn [hdawg_instructions]; [destruct sp; exact I|].
  destruct i as [|id c]; [discriminate|]. cbn [spaced clock_of] in sp. inversion fo as [|? ? f1 f2]; subst. cbn [id_of] in f1.
  destruct (Z.ltb_spec (c - t) 0) as [l|l]; [reflexivity|]. unfold add_wait_hdawg. destruct (Z.ltb_spec (c - t) 0) as [l'|l']; [lia|]. destruct (Z.ltb_spec (c - t - 3) 0) as [l2|l2]; [reflexivity|]. cbn [bind fst snd].
  destruct (sget ids id) as [n|]; [|contradiction]. replace (t + (c - t)) with c by lia. rewrite IH; [reflexivity| |exact pl|exact f2]. intros s. apply sp. split; [lia|exact s]. Qed.

(** * UHFQA programs *)

(** each instruction not before the previous one ends; an acquisition takes 7 clocks *)
Fixpoint ready (t : Z) (l : list instruction) : Prop := match l with [] => True | i :: r => t <= clock_of i /\ ready (match i with Acquisition _ c => c + 7 | Wave _ c => c end) r end.
Lemma uhfqa_ok eff ids is_ : forall t st, uhfqa_instructions ids is_ t = Ok st -> (forall n, eff (Wait n) = []) ->
  fst (run Uhfqa eff t st) = flat_map (fun i => match i with Acquisition _ c => map (fun v => (c, v)) (eff StartQA) | Wave id c => match sget ids id with Some n => map (fun v => (c, v)) (eff (PlayWave n)) | None => [] end end) is_
  /\ ready t is_ /\ well_formed st /\ Forall (fun i => plays i = true -> sget ids (id_of i) <> None) is_.
Proof.
  induction is_ as [|i is_ IH]; intros t st h hw; cbn [uhfqa_instructions] in h.
  - injection h as <-. repeat split; try constructor. intros n [].
  - destruct (_ <? 0) eqn:e0 in h; [discriminate|]. inv h. unfold add_wait_uhfqa in H. rewrite e0 in H. injection H as <-. cbn [fst snd] in h. apply Z.ltb_ge in e0. destruct i as [id c|id c]; cbn [clock_of] in *.
    + inv h. injection h as <-. replace (t + (c - t) + 7) with (c + 7) in H by lia. destruct (IH _ _ H hw) as (r & rd & wf & fo). cbn [run clocks flat_map]. rewrite hw. replace (t + (c - t)) with c by lia. destruct (run Uhfqa eff (c + 7) x) as [a b]. cbn [fst] in *. rewrite r. cbn [map app]. split; [reflexivity|]. split; [cbn [ready clock_of]; split; [lia|exact rd]|]. split.
      * intros m [hm|[hm|hm]]; [injection hm as <-; lia|discriminate|apply wf, hm].
      * constructor; [discriminate|exact fo].
    + destruct (sget ids id) as [n|] eqn:e2; [|discriminate]. inv h. injection h as <-. replace (t + (c - t)) with c in H by lia. destruct (IH _ _ H hw) as (r & rd & wf & fo). cbn [run clocks flat_map]. rewrite hw, e2. replace (t + (c - t)) with c by lia. replace (c + 0) with c by lia. destruct (run Uhfqa eff c x) as [a b]. cbn [fst] in *. rewrite r. cbn [map app]. split; [reflexivity|]. split; [cbn [ready clock_of]; split; [lia|exact rd]|]. split.
      * intros m [hm|[hm|hm]]; [injection hm as <-; lia|discriminate|apply wf, hm].
      * constructor; [cbn; congruence|exact fo]. Qed.
Lemma uhfqa_complete ids is_ : forall t, ready t is_ -> Forall (fun i => plays i = true -> sget ids (id_of i) <> None) is_ -> exists st, uhfqa_instructions ids is_ t = Ok st.
Proof. induction is_ as [|i is_ IH]; intros t rd fo; cbn [uhfqa_instructions]; [eauto|]. cbn [ready] in rd. destruct rd as [r1 r2]. inversion fo as [|? ? f1 f2]; subst.
  destruct i as [id c|id c]; cbn [clock_of] in *; (destruct (Z.ltb_spec (c - t) 0) as [l|l]; [lia|]); unfold add_wait_uhfqa; (destruct (Z.ltb_spec (c - t) 0) as [l'|l']; [lia|]); cbn [bind fst snd].
  - replace (t + (c - t) + 7) with (c + 7) by lia. destruct (IH _ r2 f2) as (st & ->). cbn. eauto.
  - cbn in f1. specialize (f1 eq_refl). destruct (sget ids id) as [n|]; [|contradiction]. replace (t + (c - t)) with c by lia. destruct (IH _ r2 f2) as (st & ->). cbn. eauto. Qed.
Lemma uhfqa_rejects ids is_ : forall t, ~ ready t is_ -> Forall (fun i => plays i = true -> sget ids (id_of i) <> None) is_ -> uhfqa_instructions ids is_ t = Err ValueError.
Proof. induction is_ as [|i is_ IH]; intros t rd fo; cbn [uhfqa_instructions]; [destruct rd; exact I|]. cbn [ready] in rd. inversion fo as [|? ? f1 f2]; subst.
  destruct i as [id c|id c]; cbn [clock_of] in *; (destruct (Z.ltb_spec (c - t) 0) as [l|l]; [reflexivity|]); unfold add_wait_uhfqa; (destruct (Z.ltb_spec (c - t) 0) as [l'|l']; [lia|]); cbn [bind fst snd].
  - replace (t + (c - t) + 7) with (c + 7) by lia. rewrite IH; [reflexivity| |exact f2]. intros r. apply rd. split; [lia|exact r].
  - cbn in f1. specialize (f1 eq_refl). destruct (sget ids id) as [n|]; [|contradiction]. replace (t + (c - t)) with c by lia. rewrite IH; [reflexivity| |exact f2]. intros r. apply rd. split; [lia|exact r]. Qed.
