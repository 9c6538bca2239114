(** C70: attenuations. *)
From Verif Require Import Base CircModel PathModel OptModel OptSpec OptThms OptThms2.
From Coq Require Import Ascii.
Local Open Scope string_scope.
Local Open Scope list_scope.
Local Open Scope Z_scope.

Lemma convert_ok v : match convert_to_int v with Ok s => same_att s v | Err e => e = ValueError /\ exists q, v = Some q /\ ~ (exists z, (q == inject_Z z)%Q) end.
Proof.
  unfold convert_to_int, same_att. destruct v as [x|]; [|exact I]. destruct (Qeq_bool (x - inject_Z (Qfloor x)) 0) eqn:E.
  - apply Qeq_bool_iff in E. lra.
  - split; [reflexivity|]. exists x. split; [reflexivity|]. intros [z H]. apply Qeq_bool_neq in E. apply E. assert (F : Qfloor x = z) by (rewrite (Qfloor_comp _ _ H); apply Qfloor_Z). rewrite F. lra.
Qed.

Definition on (ch : string) (pc : string) (p : path) : Prop := p_ch p = ch.

(** the state after the second loop *)
Record ainv (ic oc : option (dict Q)) (i0 : option Q) (l : dict path) (s : atts) : Prop := {
  av_0 : (exists pc p, last_such (on "complex_output_0") l pc p /\ a_out0 s = att_of oc pc) \/ ((forall pc p, In (pc, p) l -> ~ on "complex_output_0" pc p) /\ a_out0 s = None);
  av_1 : (exists pc p, last_such (on "complex_output_1") l pc p /\ a_out1 s = att_of oc pc) \/ ((forall pc p, In (pc, p) l -> ~ on "complex_output_1" pc p) /\ a_out1 s = None);
  av_i : match filter (fun e : string * path => String.eqb (p_ch (snd e)) "complex_output_0" && match att_of ic (fst e) with Some _ => true | None => false end) l with
         | [] => a_in0 s = i0
         | [e] => i0 = None /\ a_in0 s = att_of ic (fst e)
         | _ => False end }.

Lemma last_snoc_hit (P : string -> path -> Prop) l pc p : P pc p -> last_such P (l ++ [(pc, p)]) pc p.
Proof. intros H. exists l, []. split; [reflexivity|]. split; [exact H|intros ? ? []]. Qed.
Lemma last_snoc_miss (P : string -> path -> Prop) l pc p pc' p' : ~ P pc p -> last_such P l pc' p' -> last_such P (l ++ [(pc, p)]) pc' p'.
Proof.
  intros N (b & a & -> & H & A). exists b, (a ++ [(pc, p)]). split; [now rewrite <- app_assoc|]. split; [exact H|].
  intros x y K. apply in_app_iff in K. destruct K as [K|[K|[]]]; [now apply A|]. now injection K as <- <-.
Qed.
Lemma none_snoc (P : string -> path -> Prop) l pc p : (forall x y, In (x, y) l -> ~ P x y) -> ~ P pc p -> forall x y, In (x, y) (l ++ [(pc, p)]) -> ~ P x y.
Proof. intros A N x y K. apply in_app_iff in K. destruct K as [K|[K|[]]]; [now apply A|]. now injection K as <- <-. Qed.

Lemma att_inv ic oc i0 l s : foldM (att_step ic oc) l {| a_in0 := i0; a_out0 := None; a_out1 := None |} = Ok s -> ainv ic oc i0 l s.
Proof.
  revert s. induction l as [|[pc p] l IH] using rev_ind; intros s E.
  - injection E as <-. constructor; cbn; auto; right; (split; [intros ? ? []|reflexivity]).
  - rewrite foldM_app2 in E. destruct (foldM (att_step ic oc) l _) as [t|]; cbn [bind foldM] in E; [|discriminate].
    destruct (IH t eq_refl) as [I0 I1 I2]. unfold att_step in E.
    destruct (String.eqb_spec (p_ch p) "complex_output_0") as [C0|C0].
    + assert (C1 : p_ch p <> "complex_output_1") by congruence. apply String.eqb_neq in C1. rewrite C1 in E. apply String.eqb_neq in C1.
      assert (X : exists i, (match att_of ic pc with None => Ok (a_in0 t) | Some v => match a_in0 t with Some _ => Err ValueError | None => Ok (Some v) end end) = Ok i /\
         s = {| a_in0 := i; a_out0 := match oc with Some _ => att_of oc pc | None => a_out0 t end; a_out1 := a_out1 t |}).
      { destruct (att_of ic pc) as [v|]; [destruct (a_in0 t)|]; cbn [bind] in E; try discriminate; injection E as <-; eauto. }
      clear E. destruct X as (i & X & ->). constructor; cbn [a_in0 a_out0 a_out1].
      * left. exists pc, p. split; [now apply last_snoc_hit|]. destruct oc; [reflexivity|]. cbn.
        destruct I0 as [(x & y & _ & ->)|[_ ->]]; reflexivity.
      * destruct I1 as [(x & y & L & K)|[A K]]; [left; exists x, y|right]; (split; [|exact K]); [apply last_snoc_miss|apply none_snoc]; auto.
      * rewrite filter_app. cbn [filter fst snd]. rewrite C0, String.eqb_refl. cbn [andb]. destruct (att_of ic pc) as [v|] eqn:Ev.
        -- destruct (a_in0 t) eqn:Et; [discriminate|]. injection X as <-.
           assert (Y : forall e, In e (filter (fun e : string * path => String.eqb (p_ch (snd e)) "complex_output_0" && match att_of ic (fst e) with Some _ => true | None => false end) l) -> att_of ic (fst e) <> None).
           { intros e H. apply filter_In in H. destruct H as [_ H]. apply andb_true_iff in H. destruct H as [_ H]. destruct (att_of ic (fst e)); congruence. }
           destruct (filter _ l) as [|e [|e' r]]; cbn [app fst]; [| |contradiction].
           ++ split; congruence.
           ++ exfalso. destruct I2 as [_ I2]. apply (Y e); [now left|congruence].
        -- injection X as <-. rewrite app_nil_r. exact I2.
    + cbn [bind] in E. injection E as <-.
      assert (F : filter (fun e : string * path => String.eqb (p_ch (snd e)) "complex_output_0" && match att_of ic (fst e) with Some _ => true | None => false end) (l ++ [(pc, p)])
                = filter (fun e : string * path => String.eqb (p_ch (snd e)) "complex_output_0" && match att_of ic (fst e) with Some _ => true | None => false end) l).
      { rewrite filter_app. cbn [filter fst snd]. apply String.eqb_neq in C0. rewrite C0. cbn [andb]. apply app_nil_r. }
      assert (K0 : (exists x y, last_such (on "complex_output_0") (l ++ [(pc, p)]) x y /\ a_out0 t = att_of oc x) \/ ((forall x y, In (x, y) (l ++ [(pc, p)]) -> ~ on "complex_output_0" x y) /\ a_out0 t = None)).
      { destruct I0 as [(x & y & L & K)|[A K]]; [left; exists x, y|right]; (split; [|exact K]); [apply last_snoc_miss|apply none_snoc]; auto. }
      destruct (String.eqb_spec (p_ch p) "complex_output_1") as [C1|C1]; constructor; cbn [a_in0 a_out0 a_out1]; try rewrite F; auto.
      * left. exists pc, p. split; [now apply last_snoc_hit|]. destruct oc; [reflexivity|]. destruct I1 as [(x & y & _ & ->)|[_ ->]]; reflexivity.
      * destruct I1 as [(x & y & L & K)|[A K]]; [left; exists x, y|right]; (split; [|exact K]); [apply last_snoc_miss|apply none_snoc]; auto.
Qed.

Lemma in_inv ic l : (exists pc p, last_such (on "complex_input_0") l pc p /\ fold_left (in_step ic) l None = att_of ic pc) \/
  ((forall pc p, In (pc, p) l -> ~ on "complex_input_0" pc p) /\ fold_left (in_step ic) l None = None).
Proof.
  induction l as [|[pc p] l IH] using rev_ind; [right; split; [intros ? ? []|reflexivity]|].
  rewrite fold_left_app. cbn [fold_left]. unfold in_step at 1 3. destruct (String.eqb_spec (p_ch p) "complex_input_0") as [C|C].
  - left. exists pc, p. split; [now apply last_snoc_hit|]. destruct ic; [reflexivity|]. destruct IH as [(x & y & _ & ->)|[_ ->]]; reflexivity.
  - destruct IH as [(x & y & L & K)|[A K]]; [left; exists x, y|right]; (split; [|exact K]); [apply last_snoc_miss|apply none_snoc]; auto.
Qed.

Lemma attenuation_inv ic oc pcs i o0 o1 : assign_attenuation ic oc pcs = Ok (i, o0, o1) ->
  exists s, ainv ic oc (fold_left (in_step ic) pcs None) pcs s /\ same_att i (a_in0 s) /\ same_att o0 (a_out0 s) /\ same_att o1 (a_out1 s).
Proof.
  unfold assign_attenuation. intros E. destruct (foldM _ pcs _) as [s|] eqn:F in E; cbn [bind] in E; [|discriminate]. exists s. split; [now apply att_inv|].
  pose proof (convert_ok (a_in0 s)) as K0. pose proof (convert_ok (a_out0 s)) as K1. pose proof (convert_ok (a_out1 s)) as K2.
  destruct (convert_to_int (a_in0 s)); cbn [bind] in E; [|discriminate]. destruct (convert_to_int (a_out0 s)); cbn [bind] in E; [|discriminate].
  destruct (convert_to_int (a_out1 s)); cbn [bind] in E; [|discriminate]. injection E as <- <- <-. auto.
Qed.

(** The attenuation of an output is the option of its LAST port-clock (also if that one has none). *)
Theorem C70_output_attenuation ic oc pcs i o0 o1 : assign_attenuation ic oc pcs = Ok (i, o0, o1) -> forall n, (n < 2)%nat ->
  (forall pc p, last_such (on (output n)) pcs pc p -> same_att (of_output n (o0, o1)) (att_of oc pc)) /\
  ((forall pc p, In (pc, p) pcs -> p_ch p <> output n) -> of_output n (o0, o1) = None).
Proof.
  intros E. destruct (attenuation_inv _ _ _ _ _ _ E) as (s & [I0 I1 _] & _ & S0 & S1).
  assert (G : forall ch v set, ((exists pc p, last_such (on ch) pcs pc p /\ v = att_of oc pc) \/ ((forall pc p, In (pc, p) pcs -> ~ on ch pc p) /\ v = None)) -> same_att set v ->
     (forall pc p, last_such (on ch) pcs pc p -> same_att set (att_of oc pc)) /\ ((forall pc p, In (pc, p) pcs -> p_ch p <> ch) -> set = None)).
  { intros ch v set [(pc & p & L & ->)|[A ->]] K.
    - split; [intros pc' p' L'; now rewrite (last_unique _ _ _ _ _ _ L' L)|]. intros A. exfalso. destruct L as (b & a & -> & H & _). apply (A pc p); [apply in_app_iff; right; now left|exact H].
    - split; [|intros _; destruct set; [destruct K|reflexivity]]. intros pc p (b & a & -> & H & _). exfalso. apply (A pc p); [apply in_app_iff; right; now left|exact H]. }
  intros [|[|n]] N; [exact (G _ _ _ I0 S0)|exact (G _ _ _ I1 S1)|lia].
Qed.

(** So if all port-clocks of an output agree, theirs is the attenuation. *)
Theorem C70_output_agreed ic oc pcs i o0 o1 n v : assign_attenuation ic oc pcs = Ok (i, o0, o1) -> (n < 2)%nat ->
  (exists pc p, In (pc, p) pcs /\ p_ch p = output n) -> (forall pc p, In (pc, p) pcs -> p_ch p = output n -> att_of oc pc = v) -> same_att (of_output n (o0, o1)) v.
Proof.
  intros E N (pc & p & H & C) A. destruct (C70_output_attenuation _ _ _ _ _ _ E n N) as [G _].
  assert (X : exists pc p, last_such (on (output n)) pcs pc p).
  { clear - H C. induction pcs as [|[x y] l IH] using rev_ind; [destruct H|]. destruct (String.eqb_spec (p_ch y) (output n)) as [D|D]; [exists x, y; now apply last_snoc_hit|].
    apply in_app_iff in H. destruct H as [H|[H|[]]]; [|injection H as -> ->; congruence]. destruct (IH H) as (a & b & L). exists a, b. now apply last_snoc_miss. }
  destruct X as (x & y & L). rewrite <- (A x y); [now apply (G x y)| |]; destruct L as (b & a & -> & K & _); [apply in_app_iff; right; now left|exact K].
Qed.

(** The attenuation of the input: of the one port-clock of the output that names one, else of the last port-clock of the input. *)
Theorem C70_input_attenuation ic oc pcs i o0 o1 : assign_attenuation ic oc pcs = Ok (i, o0, o1) ->
  (forall pc p v, In (pc, p) pcs -> p_ch p = "complex_output_0" -> att_of ic pc = Some v -> same_att i (Some v)) /\
  ((forall pc p, In (pc, p) pcs -> p_ch p = "complex_output_0" -> att_of ic pc = None) ->
     (forall pc p, last_such (on "complex_input_0") pcs pc p -> same_att i (att_of ic pc)) /\
     ((forall pc p, In (pc, p) pcs -> p_ch p <> "complex_input_0") -> i = None)).
Proof.
  intros E. destruct (attenuation_inv _ _ _ _ _ _ E) as (s & [_ _ I2] & K & _ & _). split.
  - intros pc p v H C A.
    assert (M : In (pc, p) (filter (fun e : string * path => String.eqb (p_ch (snd e)) "complex_output_0" && match att_of ic (fst e) with Some _ => true | None => false end) pcs)).
    { apply filter_In. split; [exact H|]. cbn. now rewrite C, String.eqb_refl, A. }
    destruct (filter _ pcs) as [|e [|e' r]]; [destruct M| |contradiction]. destruct M as [->|[]]. destruct I2 as [_ I2]. cbn in I2. now rewrite <- A, <- I2.
  - intros N. assert (Z0 : filter (fun e : string * path => String.eqb (p_ch (snd e)) "complex_output_0" && match att_of ic (fst e) with Some _ => true | None => false end) pcs = []).
    { clear - N. induction pcs as [|[x y] r IH]; cbn [filter fst snd]; [reflexivity|]. rewrite IH; [|intros; apply (N pc p); [now right|assumption]].
      destruct (String.eqb_spec (p_ch y) "complex_output_0") as [D|D]; [|reflexivity]. now rewrite (N x y (or_introl eq_refl) D). }
    rewrite Z0 in I2. rewrite I2 in K. destruct (in_inv ic pcs) as [(pc & p & L & F)|[A F]]; rewrite F in K.
    + split; [intros pc' p' L'; now rewrite (last_unique _ _ _ _ _ _ L' L)|]. intros A. exfalso. destruct L as (b & a & -> & H & _). apply (A pc p); [apply in_app_iff; right; now left|exact H].
    + split; [|intros _; destruct i; [destruct K|reflexivity]]. intros pc p (b & a & -> & H & _). exfalso. apply (A pc p); [apply in_app_iff; right; now left|exact H].
Qed.
(** Two port-clocks of the output that name an input attenuation are refused, even with the same value; so is one next to one of the input. *)
Theorem C70_input_conflict ic oc pcs b pc p m pc' p' a v w : pcs = b ++ (pc, p) :: m ++ (pc', p') :: a ->
  p_ch p = "complex_output_0" -> p_ch p' = "complex_output_0" -> att_of ic pc = Some v -> att_of ic pc' = Some w -> ~ is_ok (assign_attenuation ic oc pcs).
Proof.
  intros -> C C' A A' [[[i o0] o1] E]. destruct (attenuation_inv _ _ _ _ _ _ E) as (s & [_ _ I2] & _).
  rewrite filter_app in I2. cbn [filter fst snd] in I2. rewrite C, String.eqb_refl, A in I2. cbn [andb] in I2.
  rewrite filter_app in I2. cbn [filter fst snd] in I2. rewrite C', String.eqb_refl, A' in I2. cbn [andb] in I2.
  destruct (filter _ b) as [|? [|? ?]]; destruct (filter _ m) as [|? [|? ?]]; destruct (filter _ a); cbn [app] in I2; try contradiction; auto.
Qed.

Example ex_att : assign_attenuation (Some [("q0:res-q0.ro", 4 # 1)]) (Some [("q0:res-q0.ro", 10 # 1); ("q0:res-q0.ro2", 10 # 1)]) [("q0:res-q0.ro", at_ch "complex_output_0"); ("q0:res-q0.ro2", at_ch "complex_output_0")] = Ok (Some 4, Some 10, None) /\
  assign_attenuation None (Some [("q0:res-q0.ro", 21 # 2)]) [("q0:res-q0.ro", at_ch "complex_output_0")] = Err ValueError.
Proof. split; reflexivity. Qed.
(** The attenuation of 10 dB of an output is lost if a second clock on the same port has none; with another value, the last one wins silently. *)
Theorem C70_attenuation_lost_refuted :
  assign_attenuation None (Some [("q0:mw-q0.01", 10 # 1)]) ex_out = Ok (None, None, None) /\
  assign_attenuation None (Some [("q0:mw-q0.01", 10 # 1); ("q0:mw-q0.12", 20 # 1)]) ex_out = Ok (None, Some 20, None).
Proof. split; reflexivity. Qed.
