(** Module parameters. *)
From Coq Require Import Ascii.
From Verif Require Import Base PathModel JsonModel ZiIds QbModel QbSpec QbProps QbSeq QbSeq2 QbPrep QbThms.
Local Open Scope string_scope.
Local Open Scope list_scope.

(** ** The scope sequencer *)
Definition owner (acc : option (nat * Z)) (i : nat) : Prop := exists n, acc = Some (i, n).
Definition Steps {A} (Hit : A -> nat -> Prop) (body : option (nat * Z) -> A -> result (option (nat * Z))) : Prop :=
  forall acc x acc', body acc x = Ok acc' -> (forall j, owner acc j -> owner acc' j) /\ (forall i, Hit x i -> owner acc' i) /\ (forall j, owner acc' j -> owner acc j \/ Hit x j).
Lemma fold_steps {A} (Hit : A -> nat -> Prop) body : Steps Hit body -> Steps (fun l i => exists x, In x l /\ Hit x i) (fun acc l => foldM body l acc).
Proof. intros h acc l. revert acc. induction l as [|x l IH]; intros acc acc' e; cbn [foldM] in e.
  - injection e as <-. split; [auto|]. split; [intros i (y & [] & _)|auto].
  - destruct (body acc x) as [a|] eqn:E; [|discriminate]. cbn [bind] in e. destruct (h _ _ _ E) as (h1 & h2 & h3). destruct (IH _ _ e) as (g1 & g2 & g3). split; [auto|]. split.
    + intros i (y & [<-|hy] & hi); [auto|]. apply g2. eauto.
    + intros j hj. apply g3 in hj. destruct hj as [hj|(y & hy & hi)]; [|right; exists y; cbn; auto]. apply h3 in hj. destruct hj; [auto|right; exists x; cbn; auto]. Qed.
Lemma steps_ext {A} (H1 H2 : A -> nat -> Prop) body : (forall x i, H1 x i <-> H2 x i) -> Steps H1 body -> Steps H2 body.
Proof. intros e h acc x acc' hb. destruct (h _ _ _ hb) as (a & b & c). split; [auto|]. split; [intros i hi; apply b, e, hi|]. intros j hj. destruct (c j hj); [auto|right; now apply e]. Qed.
Lemma scope_seq_spec k data hwm r : scope_seq k data hwm = Ok r -> forall i, owner r i <-> ScopeSeq data hwm i.
Proof. intros h i. unfold scope_seq in h.
  assert (S3 : forall ch j, Steps (fun (x : string * option Z) i => fst x = ch /\ i = j) (fun (acc : option (nat * Z)) '(hch, idx) =>
          if String.eqb ch hch then match idx with None => Err AssertionErr | Some n => match acc with Some (j', _) => if Nat.eqb j j' then Ok (Some (j, n)) else Err ValueError | None => Ok (Some (j, n)) end end else Ok acc)).
  { intros ch j acc [hch idx] acc' e. cbn [fst]. destruct (String.eqb_spec ch hch) as [->|ne].
    - destruct idx as [n|]; [|discriminate]. destruct acc as [[j' m]|].
      + destruct (Nat.eqb_spec j j') as [<-|]; [|discriminate]. injection e as <-. unfold owner. split; [|split].
        * intros x (y & hy). injection hy as -> _. eauto.
        * intros x [_ ->]. eauto.
        * intros x (y & hy). injection hy as -> _. eauto.
      + injection e as <-. unfold owner. split; [intros x (y & hy); discriminate|]. split; [intros x [_ ->]; eauto|]. intros x (y & hy). injection hy as -> _. auto.
    - injection e as <-. split; [auto|]. split; [|auto]. intros x [? _]. congruence. }
  assert (S2 : forall ch, Steps (fun (x : string * list (string * option Z)) i => fst x = seq_name i /\ exists y, In y (snd x) /\ fst y = ch) (fun acc '(sname, chans) =>
      match seq_index k sname with None => Err KeyError | Some i => foldM (fun (acc : option (nat * Z)) '(hch, idx) =>
          if String.eqb ch hch then match idx with None => Err AssertionErr | Some n => match acc with Some (j', _) => if Nat.eqb i j' then Ok (Some (i, n)) else Err ValueError | None => Ok (Some (i, n)) end end else Ok acc) chans acc end)).
  { intros ch acc [sn chans] acc' e. cbn [fst snd]. destruct (seq_index k sn) as [j|] eqn:E; [|discriminate]. apply seq_index_some in E. destruct E as [-> lt].
    destruct (fold_steps _ _ (S3 ch j) acc chans acc' e) as (a & b & c). split; [auto|]. split.
    - intros x (hx & y & hy & hc). apply seq_name_inj in hx. subst. apply b. eauto.
    - intros x hx. destruct (c x hx) as [|(y & hy & hc & ->)]; [auto|]. right. eauto. }
  assert (S1 : Steps (fun (x : string * bool) i => snd x = true /\ exists z, In z hwm /\ fst z = seq_name i /\ exists y, In y (snd z) /\ fst y = fst x) (fun acc '(ch, is_trace) => if negb is_trace then Ok acc else foldM (fun acc '(sname, chans) =>
      match seq_index k sname with None => Err KeyError | Some i => foldM (fun (acc : option (nat * Z)) '(hch, idx) =>
          if String.eqb ch hch then match idx with None => Err AssertionErr | Some n => match acc with Some (j', _) => if Nat.eqb i j' then Ok (Some (i, n)) else Err ValueError | None => Ok (Some (i, n)) end end else Ok acc) chans acc end) hwm acc)).
  { intros acc [ch tr] acc' e. cbn [fst snd]. destruct tr; cbn [negb] in e.
    - destruct (fold_steps _ _ (S2 ch) acc hwm acc' e) as (a & b & c). split; [auto|]. split.
      + intros x (_ & z & hz). apply b. exists z. tauto.
      + intros x hx. destruct (c x hx) as [|(z & hz)]; [auto|]. right. split; [auto|]. exists z. tauto.
    - injection e as <-. split; [auto|]. split; [|auto]. intros x [? _]. discriminate. }
  destruct (fold_steps _ _ S1 None data r h) as (_ & b & c). split.
  - intros hr. destruct (c i hr) as [(n & hn)|([ch tr] & hd & ht & [sn chans] & hz & hs & [ch' idx] & hy & hc)]; [discriminate|]. cbn in *. subst. exists ch, chans, idx. auto.
  - intros (ch & chans & idx & h1 & h2 & h3). apply b. exists (ch, true). split; [auto|]. cbn. split; [auto|]. exists (seq_name i, chans). cbn.
    split; [auto|]. split; [auto|]. exists (ch, idx). auto. Qed.
