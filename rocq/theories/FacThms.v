(** C62: the keywords with which gates are turned into pulses, and the pulses of single- and two-qubit gates. *)
From Coq Require Import Ascii.
From Verif Require Import Base DevModel DevSpec DevProps DevProps2 DevProps3 DevThms DevThms2 DevConf DevConfSpec DevConfProps DevConfThms DevConfThms2 DevConfThms4 TimingModel FacModel FacProps.
Local Open Scope string_scope.

Lemma operations_entry : forall w x o name t, operations w x = Ok o -> In (name, t) (templates (icls x)) -> exists c, lookup name o = Some c /\ eval_op w x t = Ok c.
Proof.
  intros w x o name t H It. apply mapM_f2 in H. destruct (f2_in_l _ _ _ _ _ _ H It) as [[n' c] [Ic Ec]]. cbn [fst snd] in Ec. inv Ec. injection Ec as <- <-.
  assert (NT : NoDup (map fst (templates (icls x)))) by (clear; destruct (icls x); cbn; repeat constructor; cbn; intuition discriminate).
  exists a. split; [|exact E]. apply in_lookup; [|exact Ic].
  assert (M : map fst o = map fst (templates (icls x))).
  { clear - H. induction H as [|[k1 s1] [k2 v2] l m Q F IH]; cbn; [easy|]. cbn in Q. inv Q. injection Q as -> _. now rewrite IH. }
  now rewrite M.
Qed.
Lemma eval_op_parts : forall w x t c, eval_op w x t = Ok c -> factory c = tfactory t /\ gate_info c = tgate t /\ map fst (factory_kwargs c) = map fst (tkws t).
Proof.
  intros w x t c H. unfold eval_op in H. inv H. injection H as <-. cbn. repeat split. apply mapM_f2 in E.
  induction E as [|[k1 s1] [k2 v2] l m Q F IH]; cbn; [easy|]. cbn in Q. inv Q. injection Q as -> _. now rewrite IH.
Qed.
Fixpoint nodupb (l : list string) : bool := match l with [] => true | x :: r => negb (mem x r) && nodupb r end.
Lemma nodupb_ok : forall l, nodupb l = true -> NoDup l.
Proof. induction l as [|x r IH]; cbn; intros H; constructor; apply andb_prop in H; destruct H as [A B]; [apply negb_true_iff, mem_not in A; exact A | auto]. Qed.
Definition fits_signature (t : template) : bool :=
  match tfactory t with
  | None => true
  | Some f => (f =? "non_implemented_pulse") ||
      match lookup f factories with
      | Some (sg, _) => nodupb (map fst sg) && forallb (fun k => mem k (map fst sg)) (map fst (tkws t) ++ tgate t)%list &&
                        forallb (fun kd => match snd kd with None => mem (fst kd) (map fst (tkws t) ++ tgate t)%list | Some _ => true end) sg
      | None => false
      end
  end.
Lemma all_fit : forall c, forallb (fun nt => fits_signature (snd nt)) (templates c) = true.
Proof. intros []; vm_compute; reflexivity. Qed.

Lemma template_of : forall c op f g, In (op, f, g) (factories_of c) -> exists t, In (op, t) (templates c) /\ tfactory t = f /\ tgate t = g.
Proof.
  intros c op f g H. assert (A : Forall (fun r => let '(op, f, g) := r in exists t, In (op, t) (templates c) /\ tfactory t = f /\ tgate t = g) (factories_of c)).
  { destruct c; cbn [factories_of]; repeat (apply Forall_cons || apply Forall_nil); eexists; (split; [cbn [templates]; find_in | split; reflexivity]). }
  rewrite Forall_forall in A. exact (A _ H).
Qed.

(** C62. Every operation of every element and edge calls its factory with keywords it has, none of its required ones missing: each argument is
    the override of the gate if there is one and the keyword is used, else what the gate says of it, else the value in the configuration, else the default. *)
Theorem C62_arguments : forall n ops w d cfg m x op f g gate over, session n ops = (w, d) -> device_config w d = Ok cfg -> In m (members d) -> find_instrument w m = Ok x ->
  In (op, Some f, g) (factories_of (icls x)) -> f <> "non_implemented_pulse" -> (forall k, In k g -> lookup k gate <> None) ->
  exists sg body a, lookup f factories = Some (sg, body) /\ gate_op cfg m op false gate over = body a /\
    (forall k v, In k g -> lookup k gate = Some v -> lookup k a = Some (overridden over k v)) /\
    (forall k v, ~ In k g -> setting_in (celements cfg ++ cedges cfg) m op k = Some v -> lookup k a = Some (overridden over k v)) /\
    (forall k v, In (k, Some v) sg -> ~ In k g -> setting_in (celements cfg ++ cedges cfg) m op k = None -> lookup k a = Some v).
Proof.
  intros n ops w d cfg m x op f g gate over Sn H Hm Hx Hf Nf G. destruct (entry _ _ _ _ _ _ _ Sn H Hm Hx) as [o [Ho Lo]].
  destruct (template_of _ _ _ _ Hf) as [t [It [Ft Gt]]]. destruct (operations_entry _ _ _ _ _ Ho It) as [c [Lc Ec]]. destruct (eval_op_parts _ _ _ _ Ec) as [Fc [Gc Kc]].
  pose proof (all_fit (icls x)) as A. rewrite forallb_forall in A. specialize (A _ It). cbn [snd] in A. unfold fits_signature in A. rewrite Ft in A.
  assert (N0 := Nf). apply String.eqb_neq in N0. rewrite N0 in A. cbn [orb] in A. destruct (lookup f factories) as [[sg body]|] eqn:Lf; [|discriminate A].
  apply andb_prop in A. destruct A as [A A3]. apply andb_prop in A. destruct A as [A1 A2]. apply nodupb_ok in A1. rewrite forallb_forall in A2, A3.
  rewrite Ft in Fc. rewrite Gt in Gc.
  destruct (device_repr_calls c f sg body gate over Fc Nf Lf A1) as [a [Ea Pa]].
  - intros k Hk. apply G. now rewrite <- Gc.
  - intros k Hk. apply mem_in, A2. apply in_or_app. rewrite <- Kc, Gt, <- Gc. exact Hk.
  - intros k Hk. apply lookup_in in Hk. specialize (A3 _ Hk). cbn [fst snd] in A3. apply mem_in, in_app_or in A3. now rewrite Kc, Gc, <- Gt.
  - exists sg, body, a. unfold setting_in, gate_op. rewrite Lo, Lc.
    assert (SG : forall k, In k (map fst (factory_kwargs c)) \/ In k (gate_info c) -> exists d, lookup k sg = Some d).
    { intros k Hk. assert (I : In k (map fst sg)) by (apply mem_in, A2, in_or_app; rewrite <- Kc, Gt, <- Gc; exact Hk). apply lookup_key in I. destruct (lookup k sg); [eauto | easy]. }
    repeat split; auto.
    + intros k v Ik Lk. rewrite <- Gc in Ik. destruct (SG k (or_intror Ik)) as [d0 Hd]. rewrite (Pa _ _ Hd). apply mem_in in Ik. now rewrite Ik, Lk.
    + intros k v Ik Lk. destruct (SG k) as [d0 Hd]; [left; apply lookup_key; congruence|]. rewrite (Pa _ _ Hd). rewrite <- Gc in Ik. apply mem_not in Ik. now rewrite Ik, Lk.
    + intros k v Is Ik Lk. rewrite (Pa k (Some v)); [|now apply in_lookup]. rewrite <- Gc in Ik. apply mem_not in Ik. now rewrite Ik, Lk.
Qed.
