(** C57: the compiler runs every configured pass exactly once, in order *)
From Verif Require Import Base PipeModel PipeSpec.

Section Proofs.
  Variable settings : Type.
  Notation pass := (pass settings).
  Notation compiler := (compiler settings).
  Notation config := (config settings).

  (** *** the graph is a chain *)
  Lemma add_nodes_spec : forall (l : list pass) (c : compiler) n, (n < List.length (nodes _ c))%nat -> let k := List.length (nodes _ c) in
    let '(c', last) := add_nodes _ c (Some n) l in
    nodes _ c' = nodes _ c ++ l /\ edges _ c' = edges _ c ++ match l with [] => [] | _ => (n, k) :: map (fun i => (i, S i)) (List.seq k (List.length l - 1)) end /\ input_node _ c' = input_node _ c /\ quantum_device _ c' = quantum_device _ c /\
    last = Some (match l with [] => n | _ => k + List.length l - 1 end)%nat.
  Proof.
    induction l as [|p l IH]; intros c n Hn; cbn zeta.
    - cbn. rewrite !app_nil_r. repeat split.
    - cbn [add_nodes]. match goal with |- context [add_nodes _ ?C (Some ?N) l] => specialize (IH C N) end. cbn [nodes edges input_node quantum_device] in IH. rewrite app_length in IH. cbn [List.length] in IH. specialize (IH ltac:(lia)). cbn zeta in IH.
      destruct (add_nodes _ _ _ l) as [c' last]. destruct IH as (H1 & H2 & H3 & H4 & H5). rewrite H1, H2, H3, H4, H5, <- !app_assoc. repeat split.
      + f_equal. cbn [app]. f_equal. destruct l as [|q l]; [reflexivity|]. cbn [List.length]. replace (S (S (List.length l)) - 1)%nat with (S (List.length l)) by lia. replace (S (List.length l) - 1)%nat with (List.length l) by lia. cbn [List.seq map]. rewrite (Nat.add_1_r (List.length (nodes _ c))). reflexivity.
      + f_equal. destruct l; cbn [List.length]; lia.
  Qed.
  Definition chain (k n : nat) : list (nat * nat) := map (fun i => (i, S i)) (List.seq k (n - 1)).
  Lemma construct_graph_spec (c : compiler) (cfg : config) : let k := List.length (nodes _ c) in let ps := passes _ cfg in let c' := construct_graph _ c cfg in
    nodes _ c' = nodes _ c ++ ps /\ quantum_device _ c' = quantum_device _ c /\ edges _ c' = chain k (List.length ps) /\
    output_node _ c' = match ps with [] => None | _ => Some (k + List.length ps - 1)%nat end /\ input_node _ c' = match ps with [] => input_node _ c | _ => Some k end.
  Proof.
    cbn zeta. unfold construct_graph. destruct (passes _ cfg) as [|p l]; cbn [add_nodes].
    - cbn. rewrite app_nil_r. repeat split.
    - match goal with |- context [add_nodes _ ?C (Some ?N) l] => pose proof (add_nodes_spec l C N) as H end. cbn [nodes edges input_node quantum_device] in H. rewrite app_length in H. cbn [List.length] in H. specialize (H ltac:(lia)). cbn zeta in H.
      destruct (add_nodes _ _ _ l) as [c' last]. destruct H as (H1 & H2 & H3 & H4 & H5). cbn [nodes edges input_node quantum_device output_node]. rewrite H1, H2, H3, H4, H5, <- !app_assoc. repeat split.
      + unfold chain. cbn [List.length app]. destruct l as [|q l]; [reflexivity|]. cbn [List.length]. replace (S (S (List.length l)) - 1)%nat with (S (List.length l)) by lia. replace (S (List.length l) - 1)%nat with (List.length l) by lia. cbn [List.seq map]. rewrite (Nat.add_1_r (List.length (nodes _ c))). reflexivity.
      + f_equal. destruct l; cbn [List.length]; lia.
  Qed.
  Lemma chain_in k n a b : In (a, b) (chain k n) <-> b = S a /\ (k <= a < k + (n - 1))%nat.
  Proof.
    unfold chain. rewrite in_map_iff. split.
    - intros (i & E & Hi). injection E as <- <-. apply in_seq in Hi. split; [reflexivity|lia].
    - intros [-> H]. exists a. split; [reflexivity|]. apply in_seq. lia.
  Qed.
  Lemma last_any : forall (p : list nat) z d d', last (z :: p) d = last (z :: p) d'.
  Proof. induction p as [|q p IHp]; intros z d d'; [reflexivity|]. change (last (q :: p) d = last (q :: p) d'). apply IHp. Qed.
  Lemma chain_path k n : forall p a, is_path (chain k n) p -> hd_error p = Some a -> p = List.seq a (List.length p) /\ last p a = (a + List.length p - 1)%nat.
  Proof.
    induction p as [|x p IH]; intros a Hp Ha; [discriminate Ha|]. injection Ha as ->. destruct p as [|y p]; [cbn; split; [reflexivity|lia]|]. cbn [is_path] in Hp. destruct Hp as [Hi Hp]. apply chain_in in Hi. destruct Hi as [-> _].
    destruct (IH (S a) Hp eq_refl) as [H1 H2]. split.
    - change (a :: S a :: p = a :: List.seq (S a) (List.length (S a :: p))). f_equal. exact H1.
    - change (last (S a :: p) a = (a + S (List.length (S a :: p)) - 1)%nat). replace (last (S a :: p) a) with (last (S a :: p) (S a)); [rewrite H2; cbn [List.length]; lia|]. apply last_any.
  Qed.
  Lemma seq_path k n : forall m a, (k <= a)%nat -> (a + m <= k + n)%nat -> is_path (chain k n) (List.seq a m).
  Proof.
    induction m as [|m IH]; intros a H1 H2; [exact I|]. cbn [List.seq]. destruct m as [|m]; [exact I|]. split; [apply chain_in; split; [reflexivity|lia]|]. apply (IH (S a)); lia.
  Qed.
  Lemma last_seq : forall m a d, (0 < m)%nat -> last (List.seq a m) d = (a + m - 1)%nat.
  Proof. induction m as [|m IH]; intros a d H; [lia|]. destruct m as [|m]; [cbn; lia|]. change (last (List.seq (S a) (S m)) d = (a + S (S m) - 1)%nat). rewrite IH by lia. lia. Qed.
  (** every path from the first to the last node of the chain is the chain *)
  Lemma chain_shortest sp k n : shortest_path_contract sp -> (2 <= n)%nat -> sp (chain k n) k (k + n - 1)%nat = Ok (List.seq k n).
  Proof.
    intros Hsp Hn. specialize (Hsp (chain k n) k (k + n - 1)%nat). destruct (sp _ _ _) as [p|e].
    - destruct Hsp as [(H1 & H2 & H3 & H4) _]. f_equal. destruct (chain_path k n p k H1 H2) as [H5 H6]. rewrite H5. f_equal. rewrite H3 in H6. destruct p as [|x p]; [congruence|]. cbn [List.length] in *. lia.
    - exfalso. apply Hsp. split; [exists (S k); left; apply chain_in; split; [reflexivity|lia]|]. split; [exists (k + n - 2)%nat; right; apply chain_in; split; lia|]. exists (List.seq k n). split; [apply seq_path; lia|]. split; [destruct n; [lia|reflexivity]|]. split; [apply last_seq; lia|destruct n; [lia|discriminate]].
  Qed.

  (** *** the heap *)
  Lemma read_some h l o : read h l = Ok o <-> nth_error h l = Some o.
  Proof. unfold read. destruct (nth_error h l); split; intros [= H]; subst; auto; discriminate. Qed.
  Lemma write_at h l o m : nth_error (write h l o) m = if Nat.eqb m l then match nth_error h l with Some _ => Some o | None => None end else nth_error h m.
  Proof.
    unfold write. destruct (Nat.eqb_spec m l) as [->|Hm].
    - revert l. induction h as [|x h IH]; intros [|l]; cbn; [reflexivity..|]. apply IH.
    - revert l m Hm. induction h as [|x h IH]; intros [|l] [|m] Hm; cbn; try reflexivity; try congruence. apply IH. congruence.
  Qed.
  Lemma write_length h l o : List.length (write h l o) = List.length h.
  Proof. unfold write. revert l. induction h as [|x h IH]; intros [|l]; cbn; [reflexivity..|]. f_equal. apply IH. Qed.
  (* [h'] differs from [h] only at [l] and in new objects *)
  Definition same_but (l : nat) (h h' : heap) : Prop := (List.length h <= List.length h')%nat /\ forall m, (m < List.length h)%nat -> m <> l -> nth_error h' m = nth_error h m.
  Lemma compile_path_spec (c : compiler) (cfg : config) : forall ps path h l o, Forall2 (fun n p => nth_error (nodes _ c) n = Some p) path ps -> nth_error h l = Some o ->
    let '(h', r) := compile_path _ c h l path cfg in same_but l h h' /\
      match through _ ps (others _ cfg) o with Ok o' => exists l', r = Ok l' /\ nth_error h' l' = Some o' /\ (l' = l \/ (List.length h <= l')%nat) | Err e => r = Err e end.
  Proof.
    induction ps as [|p ps IH]; intros path h l o Hp Ho; inversion Hp as [|n ? path' ? Hn Hp']; subst; cbn [compile_path through].
    - split; [split; [lia|reflexivity]|]. exists l. auto.
    - rewrite Hn. unfold compile_node. rewrite (proj2 (read_some h l o) Ho). destruct (p o (others _ cfg)) as [o' r].
      assert (Hs : same_but l h (write h l o')) by (split; [rewrite write_length; lia|intros m Hm Hne; rewrite write_at; destruct (Nat.eqb_spec m l); [congruence|reflexivity]]).
      assert (Hw : nth_error (write h l o') l = Some o') by (rewrite write_at, Nat.eqb_refl, Ho; reflexivity).
      destruct r as [|o2|e].
      + specialize (IH path' (write h l o') l o' Hp' Hw). destruct (compile_path _ c _ l path' cfg) as [h' r]. destruct IH as [[I1 I2] I3]. rewrite write_length in *. split.
        * split; [exact I1|]. intros m Hm Hne. rewrite I2 by assumption. apply Hs; assumption.
        * destruct (through _ ps _ o'); [|exact I3]. destruct I3 as (l' & E1 & E2 & E3). eauto.
      + unfold alloc. cbv beta iota. specialize (IH path' (write h l o' ++ [o2]) (List.length (write h l o')) o2 Hp'). destruct (compile_path _ c _ _ path' cfg) as [h' r].
        assert (Hn2 : nth_error (write h l o' ++ [o2]) (List.length (write h l o')) = Some o2) by (rewrite nth_error_app2, Nat.sub_diag by lia; reflexivity). specialize (IH Hn2). destruct IH as [[I1 I2] I3]. rewrite app_length, write_length in *. cbn [List.length] in *. split.
        * split; [lia|]. intros m Hm Hne. rewrite I2 by lia. rewrite nth_error_app1 by (rewrite write_length; lia). apply Hs; assumption.
        * destruct (through _ ps _ o2); [|exact I3]. destruct I3 as (l' & E1 & E2 & E3). exists l'. split; [exact E1|]. split; [exact E2|]. right. destruct E3; lia.
      + split; [exact Hs|reflexivity].
  Qed.
  Lemma nodes_forall2 (a l : list pass) : Forall2 (fun n p => nth_error (a ++ l) n = Some p) (List.seq (List.length a) (List.length l)) l.
  Proof.
    revert a. induction l as [|p l IH]; intros a; [constructor|]. cbn [List.length List.seq]. constructor; [rewrite nth_error_app2, Nat.sub_diag by lia; reflexivity|]. specialize (IH (a ++ [p])). rewrite app_length in IH. cbn [List.length] in IH. rewrite Nat.add_1_r, <- app_assoc in IH. exact IH.
  Qed.

  (** ** Main theorem. Whatever the compiler object was used for before ([c] is arbitrary), with a shortest-path function that does what networkx promises:
      the outcome of compile is that of the device passes and then the hardware passes, each once, in that order, on the schedule without its old compiled instructions.
      With keep_original_schedule no existing schedule object changes; otherwise only the given one may. *)
  Theorem C57_passes : forall sp (c : compiler) h l (cfg : config) o, shortest_path_contract sp -> nth_error h l = Some o -> passes _ cfg <> [] ->
    exists c' h' r, compile _ sp c h l (Some cfg) = (c', h', r) /\
      match compilation _ (match device_passes _ cfg with Some x => x | None => [] end) (match hardware_passes _ cfg with Some x => x | None => [] end) (others _ cfg) o with
      | Ok o' => exists l', r = Ok l' /\ nth_error h' l' = Some o'
      | Err e => r = Err e
      end /\
      forall m, (m < List.length h)%nat -> (keep_original_schedule _ cfg = true \/ m <> l) -> nth_error h' m = nth_error h m.
  Proof.
    intros sp c h l cfg o Hsp Ho Hne. unfold compile. rewrite (proj2 (read_some h l o) Ho).
    set (o0 := {| data := data o; instructions := 0; is_compiled := is_compiled o |}).
    assert (G : forall h l, nth_error h l = Some o0 -> exists c' h' r, compilation_func _ sp c h l cfg = (c', h', r) /\ match (do r <- through _ (passes _ cfg) (others _ cfg) o0; Ok (finished r)) with Ok o' => exists l', r = Ok l' /\ nth_error h' l' = Some o' | Err e => r = Err e end /\ same_but l h h').
    { clear h l Ho. intros h l Ho. unfold compilation_func. destruct (construct_graph_spec c cfg) as (G1 & G2 & G3 & G4 & G5). cbn zeta in *. rewrite G3, G4, G5. pose proof (nodes_forall2 (nodes _ c) (passes _ cfg)) as Hf. rewrite <- G1 in Hf. destruct (passes _ cfg) as [|p ps] eqn:Eps; [congruence|].
      assert (Epath : (if Nat.eqb (List.length (nodes _ c)) (List.length (nodes _ c) + List.length (p :: ps) - 1) then Ok [List.length (nodes _ c)] else sp (chain (List.length (nodes _ c)) (List.length (p :: ps))) (List.length (nodes _ c)) (List.length (nodes _ c) + List.length (p :: ps) - 1)%nat) = Ok (List.seq (List.length (nodes _ c)) (List.length (p :: ps)))).
      { destruct ps as [|q ps]; cbn [List.length].
        - replace (List.length (nodes _ c) + 1 - 1)%nat with (List.length (nodes _ c)) by lia. rewrite Nat.eqb_refl. reflexivity.
        - destruct (Nat.eqb_spec (List.length (nodes _ c)) (List.length (nodes _ c) + S (S (List.length ps)) - 1)); [lia|]. apply chain_shortest; [exact Hsp|lia]. }
      rewrite Epath. pose proof (compile_path_spec (construct_graph _ c cfg) cfg (p :: ps) (List.seq (List.length (nodes _ c)) (List.length (p :: ps))) h l o0 Hf Ho) as Hc.
      destruct (compile_path _ _ h l _ cfg) as [h' r]. destruct Hc as [[S1 S2] Hc]. destruct (through _ (p :: ps) (others _ cfg) o0) as [o'|e]; cbn [bind].
      - destruct Hc as (l' & -> & Hl' & Hl''). rewrite (proj2 (read_some h' l' o') Hl'). destruct (is_compiled o') eqn:Ei.
        + eexists. eexists. eexists. split; [reflexivity|]. split; [|split; assumption]. exists l'. split; [reflexivity|]. rewrite Hl'. f_equal. unfold finished. destruct o'. cbn in *. congruence.
        + unfold alloc. eexists. eexists. eexists. split; [reflexivity|]. split; [|split; [rewrite app_length; cbn; lia|intros m Hm Hne'; rewrite nth_error_app1 by lia; apply S2; assumption]]. exists (List.length h'). split; [reflexivity|]. rewrite nth_error_app2, Nat.sub_diag by lia. reflexivity.
      - subst r. eexists. eexists. eexists. split; [reflexivity|]. split; [reflexivity|split; assumption]. }
    unfold compilation. fold o0. change (match device_passes _ cfg with Some x => x | None => [] end ++ match hardware_passes _ cfg with Some x => x | None => [] end) with (passes _ cfg). destruct (keep_original_schedule _ cfg) eqn:Ek.
    - unfold alloc. cbv beta iota. assert (Hl : nth_error (write (h ++ [o]) (List.length h) o0) (List.length h) = Some o0) by (rewrite write_at, Nat.eqb_refl, nth_error_app2, Nat.sub_diag by lia; reflexivity).
      destruct (G _ _ Hl) as (c' & h' & r & E & Hr & [S1 S2]). exists c', h', r. split; [exact E|]. split; [exact Hr|]. rewrite write_length, app_length in *. cbn [List.length] in *. intros m Hm _. rewrite S2 by lia. rewrite write_at. destruct (Nat.eqb_spec m (List.length h)); [lia|]. rewrite nth_error_app1 by lia. reflexivity.
    - assert (Hl : nth_error (write h l o0) l = Some o0) by (rewrite write_at, Nat.eqb_refl, Ho; reflexivity). destruct (G _ _ Hl) as (c' & h' & r & E & Hr & [S1 S2]). exists c', h', r. split; [exact E|]. split; [exact Hr|]. rewrite write_length in *. intros m Hm [Hk|Hm']; [discriminate Hk|]. rewrite S2 by assumption. rewrite write_at. destruct (Nat.eqb_spec m l); [congruence|reflexivity].
  Qed.
  (** without any pass, compile raises *)
  Theorem C57_no_passes : forall sp (c : compiler) h l (cfg : config), passes _ cfg = [] -> exists c' h' e, compile _ sp c h l (Some cfg) = (c', h', Err e).
  Proof.
    intros sp c h l cfg He. unfold compile. destruct (read h l) as [o|e]; [|eauto]. destruct (if keep_original_schedule _ cfg then alloc h o else (h, l)) as [h1 l1]. unfold compilation_func. destruct (construct_graph_spec c cfg) as (G1 & G2 & G3 & G4 & G5). cbn zeta in *. rewrite He in *. rewrite G4, G5. destruct (input_node _ c); eauto.
  Qed.
  (** the configuration comes from the quantum device if none is given *)
  Theorem C57_default_config : forall sp (c : compiler) h l, compile _ sp c h l None = match quantum_device _ c with None => (c, h, Err RuntimeError) | Some (Err e) => (c, h, Err e) | Some (Ok cfg) => compile _ sp c h l (Some cfg) end.
  Proof. intros sp c h l. unfold compile. destruct (quantum_device _ c) as [[cfg|e]|]; reflexivity. Qed.
  (** a compiler object that was used before, on whatever schedules and configurations, gives the same outcome as a new one, for the schedule as it is now *)
  Theorem C57_no_state : forall sp qd history h0 l (cfg : config) o, shortest_path_contract sp -> passes _ cfg <> [] ->
    let '(c, h) := session _ sp (new_compiler _ qd) h0 history in nth_error h l = Some o ->
    match compile _ sp c h l (Some cfg), compile _ sp (new_compiler _ qd) h l (Some cfg) with
    | (_, h1, Ok l1), (_, h2, Ok l2) => exists o', nth_error h1 l1 = Some o' /\ nth_error h2 l2 = Some o'
    | (_, _, Err e1), (_, _, Err e2) => e1 = e2
    | _, _ => False
    end.
  Proof.
    intros sp qd history h0 l cfg o Hsp Hne. destruct (session _ sp (new_compiler _ qd) h0 history) as [c h]. intros Ho.
    destruct (C57_passes sp c h l cfg o Hsp Ho Hne) as (c1 & h1 & r1 & E1 & R1 & _). destruct (C57_passes sp (new_compiler _ qd) h l cfg o Hsp Ho Hne) as (c2 & h2 & r2 & E2 & R2 & _). rewrite E1, E2.
    destruct (compilation _ _ _ _ o) as [o'|e]; [destruct R1 as (l1 & -> & H1), R2 as (l2 & -> & H2); eauto|subst; reflexivity].
  Qed.
End Proofs.
