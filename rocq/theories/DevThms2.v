(** C58: what is not kept; reference magnitudes. *)
From Coq Require Import Ascii.
From Verif Require Import Base DevModel DevSpec DevProps DevProps2 DevProps3 DevThms.
Local Open Scope string_scope.

Lemma load_all_inv : forall l w w2 ys, sane_registry w -> load_all w l = (w2, Ok ys) ->
  (forall e, In e w -> In e w2) /\ (forall k x, In (k, x) l -> exists c y, class_of_path (dtype x) = Some c /\ construct c (did x) (ddata x) = Ok y /\ In (iname (did x), y) w2).
Proof.
  induction l as [|[k x] l IH]; cbn; intros w w2 ys Sw H.
  - injection H as <- _. split; [auto | easy].
  - destruct (load_instr w x) as [w1 [i|e]] eqn:E; [|discriminate H]. pose proof (load_instr_sane _ _ _ _ Sw E) as [S1 _].
    destruct (load_all w1 l) as [w3 [zs|e]] eqn:E2; [|discriminate H]. injection H as <- _. destruct (IH _ _ _ S1 E2) as [A B].
    unfold load_instr in E. destruct (class_of_path (dtype x)) as [c|] eqn:C; [|discriminate E].
    destruct (create w c (did x) (ddata x)) as [w4|e] eqn:Cr; [|discriminate E]. injection E as -> _.
    destruct (create_sane _ _ _ _ _ Sw Cr) as [_ [y [Cy [_ ->]]]]. split.
    + intros e He. apply A. apply in_or_app. now left.
    + intros k' x' [Q|Q]; [|exact (B _ _ Q)]. injection Q as -> ->. exists c, y. repeat split; auto. apply A. apply in_or_app. right. now left.
Qed.

(** if a saved device loads, each of its instruments has been made from its document *)
Lemma loaded_from_doc : forall n ops n' ops' w d w' d' q w2 d2 m x,
  session n ops = (w, d) -> session n' ops' = (w', d') -> to_json w d = Ok q -> from_json w' q = (w2, Ok d2) ->
  In m (members d) -> find_instrument w m = Ok x ->
  fits x /\ exists y, find_instrument w2 m = Ok y /\ construct (icls x) (iid x) (ddata (instr_doc x)) = Ok y.
Proof.
  intros n ops n' ops' w d w' d' q w2 d2 m x Sn Sn' J L Hm Hx.
  pose proof (session_sane n ops) as [Sw Sd]. rewrite Sn in Sw, Sd. cbn [fst snd] in *. pose proof (session_sane n' ops') as [Sw' _]. rewrite Sn' in Sw'. cbn [fst] in *.
  destruct Sd as [N1 [N2 _]]. destruct (to_json_ok _ _ _ J N1 N2) as [es [gs [Qn [Qr [Qe [Qg [Ne [Ng I]]]]]]]].
  pose proof (find_sane _ _ _ Sw Hx) as [En Fx]. split; [easy|].
  pose proof (from_json_sane _ _ _ _ Sw' L) as [S2 _].
  unfold from_json in L. destruct (load_all w' (qelements q)) as [w1 [xs|e]] eqn:E1; [|discriminate L].
  destruct (load_all w1 (qedges q)) as [w3 [zs|e]] eqn:E2; [|discriminate L]. injection L as -> _.
  pose proof (load_all_sane _ _ _ _ Sw' E1) as [S1 _].
  destruct (load_all_inv _ _ _ _ Sw' E1) as [A1 B1]. destruct (load_all_inv _ _ _ _ S1 E2) as [A2 B2].
  assert (H : exists c y, class_of_path (dtype (instr_doc x)) = Some c /\ construct c (did (instr_doc x)) (ddata (instr_doc x)) = Ok y /\ In (iname (iid x), y) w2).
  { unfold members in Hm. rewrite <- Ne, <- Ng, <- map_app in Hm. apply in_map_iff in Hm. destruct Hm as [[m' x'] [Em H]]. cbn in Em. subst m'.
    assert (x' = x) by (rewrite (I _ _ H) in Hx; congruence). subst x'. apply in_app_or in H. destruct H as [H|H].
    - destruct (B1 m (instr_doc x)) as [c [y [P1 [P2 P3]]]].
      + rewrite Qe. unfold docs_of. apply in_map_iff. now exists (m, x).
      + exists c, y. repeat split; auto.
    - destruct (B2 m (instr_doc x)) as [c [y [P1 [P2 P3]]]].
      + rewrite Qg. unfold docs_of. apply in_map_iff. now exists (m, x).
      + exists c, y. repeat split; auto. }
  destruct H as [c [y [P1 [P2 P3]]]]. cbn [dtype instr_doc did] in *. rewrite class_path_of in P1. injection P1 as <-.
  exists y. split; [|exact P2]. unfold find_instrument. rewrite En. now rewrite (in_lookup _ _ y) by (first [apply S2 | assumption]).
Qed.

(** the value that a constructor gives a parameter *)
Lemma construct_value : forall c i kw y s m p, construct c i kw = Ok y -> In (s, m) (schema c i) -> In p (params m) ->
  exists v, value y s (pname p) = Some v /\ initial (iname i) (pinit p) (lookup (pname p) (match lookup s kw with Some d => d | None => [] end)) = Ok v /\
            (v = VNone \/ validate (pvals p) v = Ok tt).
Proof.
  intros c i kw y s m p H Hs Hp. pose proof (construct_fits _ _ _ _ H) as [Fy _]. pose proof (fits_nodup _ Fy) as Ny. unfold construct in H.
  destruct (negb (kind_ok c i)); [discriminate H|]. destruct (negb (name_ok i)); [discriminate H|]. destruct (negb _); [discriminate H|]. inv H. injection H as <-.
  apply mapM_f2 in E. destruct (f2_in_l _ _ _ _ _ _ E Hs) as [[s' z] [Hz Q]]. cbn [fst snd] in Q. inv Q. injection Q as <- <-.
  unfold make_sub in E0. destruct (_ && _)%bool; [discriminate E0|]. inv E0. inv E0. injection E0 as <-.
  apply params_made in E1; [|constructor]. destruct E1 as [dd [Ed [ND F]]]. cbn [List.app] in Ed. subst dd. destruct (f2_in_l _ _ _ _ _ _ F Hp) as [[k v] [Hv [Ek [I V]]]].
  cbn [fst snd] in *. subst k. exists v. split; [|auto]. unfold value. cbn [isubs]. cbn [isubs] in Ny. rewrite (in_lookup _ _ _ _ Ny Hz). cbn [direct]. now apply in_lookup.
Qed.

Lemma doc_value : forall x s p, match lookup s (ddata (instr_doc x)) with Some d => lookup p d | None => None end = option_map json (value x s p).
Proof.
  intros x s p. cbn. rewrite (lookup_map _ _ (fun y => map (fun pv => (fst pv, json (snd pv))) (direct y))). unfold value. destruct (lookup s (isubs x)); [|easy]. cbn.
  now rewrite (lookup_map _ _ json).
Qed.

Lemma value_spec : forall x s p v, fits x -> value x s p = Some v -> exists m q, In (s, m) (schema (icls x) (iid x)) /\ In q (params m) /\ pname q = p.
Proof.
  intros x s p v [_ [_ F]] H. unfold value in H. destruct (lookup s (isubs x)) as [y|] eqn:L; [|discriminate H].
  destruct (f2_lookup_r _ _ _ _ F L) as [m [Lm [_ [D _]]]]. cbn [snd] in D. apply lookup_in in Lm. apply lookup_in in H.
  destruct (f2_in_r _ _ _ _ _ _ D H) as [q [Iq [Eq _]]]. eauto.
Qed.

(** acq_channel is hashable and has a plain default, in every class that has one *)
Lemma acq_channel_spec : forall c i s m p, In (s, m) (schema c i) -> In p (params m) -> pname p = "acq_channel" -> is_edge c = false -> pvals p = Hashable /\ exists d, pinit p = Default d.
Proof.
  intros c i s m p H Hp E K.
  assert (A : Forall (fun sm => Forall (fun p => pname p = "acq_channel" -> pvals p = Hashable /\ exists d, pinit p = Default d) (params (snd sm))) (schema c i)).
  { unfold schema. destruct i; destruct c; try discriminate K; cbn; repeat constructor; cbn; try discriminate; eauto. }
  rewrite Forall_forall in A. specialize (A _ H). cbn in A. rewrite Forall_forall in A. auto.
Qed.

(** An acquisition channel can be any hashable value.  A device with one that is a tuple can be saved, but what was saved does not load. *)
Theorem C58_tuple_channel_does_not_load : forall n ops n' ops' w d w' d' q m x s l,
  session n ops = (w, d) -> session n' ops' = (w', d') -> to_json w d = Ok q ->
  In m (elements d) -> find_instrument w m = Ok x -> value x s "acq_channel" = Some (VTuple l) ->
  forall w2 r, from_json w' q = (w2, r) -> exists e, r = Err e.
Proof.
  intros n ops n' ops' w d w' d' q m x s l Sn Sn' J Hm Hx Hv w2 r L. destruct r as [d2|e]; [|eauto]. exfalso.
  destruct (loaded_from_doc _ _ _ _ _ _ _ _ _ _ _ m x Sn Sn' J L) as [Fx [y [Hy C]]]; [apply in_or_app; now left | easy|].
  assert (K : is_edge (icls x) = false).
  { rewrite <- kind_name by easy. pose proof (session_sane n ops) as [Sw [_ [_ [U _]]]]. rewrite Sn in Sw, U. cbn in Sw, U. destruct (find_sane _ _ _ Sw Hx) as [<- _]. auto. }
  destruct (value_spec _ _ _ _ Fx Hv) as [sm [p [Is [Ip Ep]]]]. destruct (acq_channel_spec _ _ _ _ _ Is Ip Ep K) as [Hh [dd Hd]].
  destruct (construct_value _ _ _ _ _ _ _ C Is Ip) as [v [Hv' [I V]]]. rewrite Ep in I. pose proof (doc_value x s "acq_channel") as DV. rewrite Hv in DV.
  destruct (lookup s (ddata (instr_doc x))) as [kw|]; [|discriminate DV]. cbn [option_map json] in DV. rewrite DV, Hd in I. cbn in I. injection I as <-. rewrite Hh in V.
  destruct V as [V|V]; discriminate V.
Qed.

(** A port whose name was set to the empty string has another name after loading: the default one. *)
Theorem C58_empty_port_is_renamed : forall n ops n' ops' w d w' d' q m x p w2 d2,
  session n ops = (w, d) -> session n' ops' = (w', d') -> to_json w d = Ok q -> from_json w' q = (w2, Ok d2) ->
  In m (members d) -> find_instrument w m = Ok x -> value x "ports" p = Some (VStr "") ->
  exists y suffix, find_instrument w2 m = Ok y /\ value y "ports" p = Some (VStr (m ++ suffix)) /\ suffix <> "".
Proof.
  intros n ops n' ops' w d w' d' q m x p w2 d2 Sn Sn' J L Hm Hx Hv.
  destruct (loaded_from_doc _ _ _ _ _ _ _ _ _ _ _ m x Sn Sn' J L Hm Hx) as [Fx [y [Hy C]]].
  assert (Em : m = iname (iid x)) by (pose proof (session_sane n ops) as [Sw _]; rewrite Sn in Sw; now destruct (find_sane _ _ _ Sw Hx)).
  destruct (value_spec _ _ _ _ Fx Hv) as [sm [r [Is [Ir Er]]]].
  assert (P : exists sf, pinit r = OrName sf /\ sf <> "").
  { assert (A : Forall (fun sm => fst sm = "ports" -> Forall (fun p => exists sf, pinit p = OrName sf /\ sf <> "") (params (snd sm))) (schema (icls x) (iid x))).
    { unfold schema. destruct (iid x); destruct (icls x); cbn; repeat first [apply Forall_cons | apply Forall_nil]; cbn; intros Hq; try discriminate Hq; clear Hq;
        repeat first [apply Forall_cons | apply Forall_nil]; cbn; eexists; (split; [reflexivity | discriminate]). }
    rewrite Forall_forall in A. specialize (A _ Is eq_refl). cbn in A. rewrite Forall_forall in A. auto. }
  destruct P as [sf [P Nsf]]. destruct (construct_value _ _ _ _ _ _ _ C Is Ir) as [v [Hv' [I V]]]. rewrite Er in *. pose proof (doc_value x "ports" p) as DV. rewrite Hv in DV.
  destruct (lookup "ports" (ddata (instr_doc x))) as [kw|]; [|discriminate DV]. cbn [option_map json] in DV. rewrite DV, P in I. cbn in I. injection I as <-.
  exists y, sf. split; [exact Hy|]. split; [rewrite Em; exact Hv' | exact Nsf].
Qed.

(** No reference magnitude is saved: whatever was set, after loading none has a value. *)
Theorem C58_references_are_lost : forall n ops n' ops' w d w' d' q m x w2 d2,
  session n ops = (w, d) -> session n' ops' = (w', d') -> to_json w d = Ok q -> from_json w' q = (w2, Ok d2) ->
  In m (members d) -> find_instrument w m = Ok x ->
  exists y, find_instrument w2 m = Ok y /\ forall s r, reference_of x s = Some r -> reference_of y s = Some undefined.
Proof.
  intros n ops n' ops' w d w' d' q m x w2 d2 Sn Sn' J L Hm Hx.
  destruct (loaded_from_doc _ _ _ _ _ _ _ _ _ _ _ m x Sn Sn' J L Hm Hx) as [Fx [y [Hy C]]]. exists y. split; [easy|].
  intros s r Hr. pose proof (construct_fits _ _ _ _ C) as [Fy [Cy Iy]]. pose proof (fits_nodup _ Fy) as Ny.
  unfold reference_of in Hr. destruct (lookup s (isubs x)) as [z|] eqn:Lz; [|discriminate Hr]. pose proof Fx as [_ [_ F]].
  destruct (f2_lookup_r _ _ _ _ F Lz) as [sm [Ls [_ [D [Nd R]]]]]. cbn [snd] in *. assert (Rm : reference sm = true) by (apply R; eauto).
  apply lookup_in in Ls. unfold construct in C.
  destruct (negb (kind_ok _ _)); [discriminate C|]. destruct (negb (name_ok _)); [discriminate C|]. destruct (negb _); [discriminate C|]. inv C. injection C as <-.
  apply mapM_f2 in E. destruct (f2_in_l _ _ _ _ _ _ E Ls) as [[s' z'] [Hz Q]]. cbn [fst snd] in Q. inv Q. injection Q as <- <-.
  unfold make_sub in E0. destruct (_ && _)%bool; [discriminate E0|]. inv E0. inv E0. injection E0 as <-. rewrite Rm in E2. inv E2. injection E2 as <-.
  unfold reference_of. cbn [isubs]. cbn [isubs] in Ny. rewrite (in_lookup _ _ _ _ Ny Hz). cbn [refm]. f_equal.
  assert (Lk : forall k, In k reference_keys -> lookup k (match lookup s (ddata (instr_doc x)) with Some d0 => d0 | None => [] end) = None).
  { intros k Hk. pose proof (doc_value x s k) as DV. unfold value in DV. rewrite Lz in DV.
    assert (lookup k (direct z) = None) as Nk.
    { apply lookup_none. rewrite <- (f2_names _ _ D). eapply no_reference_keys; eauto. }
    rewrite Nk in DV. destruct (lookup s (ddata (instr_doc x))); [easy | reflexivity]. }
  unfold ref_init in E0. rewrite !Lk in E0 by (cbn; auto). cbn in E0. injection E0 as <-. reflexivity.
Qed.

(** * Reference magnitudes: any history of sets *)
Definition sets (r : refmag) (l : list (runit * val)) : refmag := fold_left (fun r uv => match ref_set r (fst uv) (snd uv) with Ok r' => r' | Err _ => r end) l r.
Definition accepted (v : val) : bool := match validate (Numbers None None true) v with Ok _ => true | Err _ => false end.
Definition unit_name (u : runit) : string := match u with UdBm => "dBm" | UV => "V" | UA => "A" end.
Definition same_unit (u u' : runit) : bool := match u, u' with UdBm, UdBm | UV, UV | UA, UA => true | _, _ => false end.
(** What should be read: the last number set, with its unit, unless that unit was set to nan since. *)
Fixpoint current (l : list (runit * val)) (now : option (val * runit)) : option (val * runit) :=
  match l with
  | [] => now
  | (u, v) :: r =>
      if negb (accepted v) then current r now else
      if is_nan v then current r (match now with Some (_, u') => if same_unit u u' then None else now | None => None end)
      else current r (Some (v, u))
  end.
Definition holds (r : refmag) (now : option (val * runit)) : Prop :=
  r = match now with
      | None => undefined
      | Some (v, UdBm) => {| dBm := v; V := VNan; A := VNan |}
      | Some (v, UV) => {| dBm := VNan; V := v; A := VNan |}
      | Some (v, UA) => {| dBm := VNan; V := VNan; A := v |}
      end /\ match now with Some (v, _) => is_nan v = false /\ exists q, number v = Some q | None => True end.
Theorem C58_reference_history : forall l,
  ref_get (sets undefined l) = Ok (match current l None with Some (v, u) => Some (v, unit_name u) | None => None end).
Proof.
  assert (G : forall l r now, holds r now -> holds (sets r l) (current l now)).
  { induction l as [|[u v] l IH]; intros r now H; [exact H|]. change (holds (sets (match ref_set r u v with Ok r' => r' | Err _ => r end) l) (current ((u, v) :: l) now)). cbn [current].
    unfold ref_set, accepted. destruct (validate (Numbers None None true) v) as [t|e] eqn:E; cbn [negb bind]; [|now apply IH].
    destruct H as [-> H]. destruct (is_nan v) eqn:Nv.
    - apply IH. destruct now as [[v0 u0]|]; unfold ref_put; rewrite Nv; destruct v; try discriminate Nv.
      + destruct u, u0; cbn; split; auto.
      + destruct u; cbn; split; auto.
    - apply IH. split; [|split; [easy|]].
      + unfold ref_put. rewrite Nv. destruct u; reflexivity.
      + cbn in E. destruct v; try discriminate Nv; cbn in *; try discriminate E; eauto. }
  intros l. destruct (G l undefined None) as [-> H]; [split; auto|]. destruct (current l None) as [[v u]|]; [|reflexivity].
  destruct H as [Nv [q Hq]]. destruct u; destruct v; try discriminate Nv; try discriminate Hq; reflexivity.
Qed.
