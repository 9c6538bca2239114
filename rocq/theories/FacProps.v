(** The arguments that a factory gets (for C62). *)
From Coq Require Import Ascii.
From Verif Require Import Base DevModel DevSpec DevProps DevProps2 DevProps3 DevThms DevThms2 DevConf DevConfSpec DevConfProps DevConfThms DevConfThms2 DevConfThms4 TimingModel FacModel.
Local Open Scope string_scope.

(** a keyword with the override of the gate, if there is one *)
Definition overridden (over : dict) (k : string) (v : cval) : cval := match lookup k over with Some v' => v' | None => v end.
Lemma lookup_overridden : forall over kw k, lookup k (map (fun kv => (fst kv, match lookup (fst kv) over with Some v => v | None => snd kv end)) kw) = option_map (overridden over k) (lookup k kw).
Proof. induction kw as [|[a b] r IH]; intros k; cbn; [easy|]. destruct (k =? a) eqn:E; [|apply IH]. apply String.eqb_eq in E. now subst. Qed.
Lemma mapM_lookup : forall sg kw a, mapM (fun p : string * option cval => match lookup (fst p) kw with Some v => Ok (fst p, v) | None => match snd p with Some d => Ok (fst p, d) | None => Err TypeError end end) sg = Ok a ->
  forall k d, lookup k sg = Some d -> lookup k a = match lookup k kw with Some v => Some v | None => d end.
Proof.
  induction sg as [|[k0 d0] r IH]; cbn [mapM fst snd]; intros kw a H k d Hd; [discriminate Hd|]. inv H. inv H. injection H as <-. cbn [lookup] in Hd.
  assert (X : fst a0 = k0 /\ lookup k0 kw = Some (snd a0) \/ fst a0 = k0 /\ lookup k0 kw = None /\ d0 = Some (snd a0)).
  { destruct (lookup k0 kw); [injection E as <-; now left|]. destruct d0; [injection E as <-; now right | discriminate E]. }
  destruct a0 as [k1 v1]. cbn [fst snd lookup] in *. destruct (k =? k0) eqn:Ek.
  - apply String.eqb_eq in Ek. subst k0. injection Hd as ->. destruct X as [[-> L]|[-> [L ->]]]; rewrite String.eqb_refl, L; reflexivity.
  - assert (k1 = k0) by (destruct X as [[-> _]|[-> _]]; reflexivity). subst k1. rewrite Ek. eapply IH; eassumption.
Qed.
Lemma mapM_binds : forall sg kw, (forall k, lookup k sg = Some None -> In k (map fst kw)) -> NoDup (map fst sg) ->
  exists a, mapM (fun p : string * option cval => match lookup (fst p) kw with Some v => Ok (fst p, v) | None => match snd p with Some d => Ok (fst p, d) | None => Err TypeError end end) sg = Ok a.
Proof.
  induction sg as [|[k0 d0] r IH]; cbn [mapM fst snd]; intros kw H N; [eauto|]. inversion N as [|? ? N1 N2]; subst.
  assert (exists v, match lookup k0 kw with Some v => Ok (k0, v) | None => match d0 with Some d => Ok (k0, d) | None => Err TypeError end end = Ok (k0, v)) as [v E].
  { destruct (lookup k0 kw) eqn:L; [eauto|]. destruct d0; [eauto|]. exfalso. apply lookup_none in L. apply L, H. cbn. now rewrite String.eqb_refl. }
  rewrite E. cbn [bind]. destruct (IH kw) as [a Ha]; [|exact N2|].
  - intros k Hk. apply H. cbn. destruct (k =? k0) eqn:Ek; [|exact Hk]. apply String.eqb_eq in Ek. subst. apply lookup_in in Hk. exfalso. apply N1. apply in_map_iff. now exists (k0, None).
  - rewrite Ha. cbn [bind]. eauto.
Qed.
Lemma bind_args_ok : forall sg kw, NoDup (map fst sg) -> (forall k, In k (map fst kw) -> In k (map fst sg)) -> (forall k, lookup k sg = Some None -> In k (map fst kw)) ->
  exists a, bind_args sg kw = Ok a /\ forall k d, lookup k sg = Some d -> lookup k a = match lookup k kw with Some v => Some v | None => d end.
Proof.
  intros sg kw N K R. unfold bind_args. destruct (existsb _ kw) eqn:E.
  - apply existsb_exists in E. destruct E as [[k v] [I E]]. cbn [fst] in E. apply negb_true_iff, mem_not in E. exfalso. apply E, K. apply in_map_iff. now exists (k, v).
  - destruct (mapM_binds sg kw R N) as [a Ha]. exists a. split; [exact Ha|]. intros. eapply mapM_lookup; eassumption.
Qed.
Lemma gate_keywords : forall (gate : dict) g (kw : dict), (forall k, In k g -> lookup k gate <> None) ->
  exists kw' : dict, foldM (fun (kw : dict) k => match lookup k gate with Some v => Ok (insert k v kw) | None => Err KeyError end) g kw = Ok kw' /\
    forall k, lookup k kw' = if mem k g then lookup k gate else lookup k kw.
Proof.
  induction g as [|k0 r IH]; intros kw H; cbn [foldM]; [exists kw; easy|]. destruct (lookup k0 gate) as [v|] eqn:L; [|exfalso; apply (H k0); [now left | exact L]].
  cbn [bind]. destruct (IH (insert k0 v kw)) as [kw' [E P]]; [intros; apply H; now right|]. exists kw'. split; [exact E|]. intros k. rewrite P, lookup_insert. cbn [mem existsb].
  unfold mem. cbn [existsb]. destruct (k =? k0) eqn:Ek; cbn [orb]; [|easy]. apply String.eqb_eq in Ek. subst. destruct (existsb (String.eqb k0) r); congruence.
Qed.
Lemma lookup_key : forall A k (l : list (string * A)), In k (map fst l) <-> lookup k l <> None.
Proof. intros. rewrite lookup_none. destruct (in_dec string_dec k (map fst l)); tauto. Qed.

(** What a factory is called with *)
Lemma device_repr_calls : forall c f sg body gate over, factory c = Some f -> f <> "non_implemented_pulse" -> lookup f factories = Some (sg, body) -> NoDup (map fst sg) ->
  (forall k, In k (gate_info c) -> lookup k gate <> None) ->
  (forall k, In k (map fst (factory_kwargs c)) \/ In k (gate_info c) -> In k (map fst sg)) ->
  (forall k, lookup k sg = Some None -> In k (map fst (factory_kwargs c)) \/ In k (gate_info c)) ->
  exists a, device_repr false gate over c = body a /\
    forall k d, lookup k sg = Some d -> lookup k a = match (if mem k (gate_info c) then lookup k gate else lookup k (factory_kwargs c)) with Some v => Some (overridden over k v) | None => d end.
Proof.
  intros c f sg body gate over F Nf L N G K R. unfold device_repr. cbn [bind]. destruct (gate_keywords gate (gate_info c) (factory_kwargs c) G) as [kw [E P]]. rewrite E. cbn [bind].
  rewrite F. unfold call_factory. apply String.eqb_neq in Nf. rewrite Nf, L. set (kw' := map _ kw).
  assert (IK : forall k, In k (map fst kw') <-> In k (map fst (factory_kwargs c)) \/ In k (gate_info c)).
  { intros k. rewrite !lookup_key. unfold kw'. rewrite lookup_overridden, P. destruct (mem k (gate_info c)) eqn:M.
    - apply mem_in in M. pose proof (G k M). destruct (lookup k gate); [|easy]. cbn. split; [now right | easy].
    - apply mem_not in M. destruct (lookup k (factory_kwargs c)); cbn; split; [now left | easy | easy | now intros [|]]. }
  destruct (bind_args_ok sg kw' N) as [a [Ea Pa]].
  - intros k Hk. apply K. now apply IK.
  - intros k Hk. apply IK. auto.
  - exists a. rewrite Ea. cbn [bind]. split; [reflexivity|]. intros k d Hd. rewrite (Pa _ _ Hd). unfold kw'. rewrite lookup_overridden, P.
    destruct (mem k (gate_info c)); [destruct (lookup k gate) | destruct (lookup k (factory_kwargs c))]; reflexivity.
Qed.
