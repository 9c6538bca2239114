(** C30: pulse stacking preserves the played waveform. *)
From Verif Require Import Base UpdModel UpdProps AcqChanProps StackModel StackSweep.
From Coq Require Import Permutation.
Open Scope Z_scope.

(** ** Specification *)
Definition scale (p : pulse) : Q := match refm p with None => 1%Q | Some r => r end.
Definition wave (p : pulse) : list Q := match sh p with NoWf => [] | Square a => repeat a (Z.to_nat (dur p)) | Wave s => s end.
(** Amplitude at instant [n] (in ns) of a pulse whose operation starts at [at_] *)
Definition value (p : pulse) (at_ n : Z) : Q :=
  if (at_ + t0 p <=? n) && (n <? at_ + t0 p + dur p) then (scale p * nth (Z.to_nat (n - (at_ + t0 p))) (wave p) 0)%Q else 0%Q.
(** Sum of the amplitudes of everything played on port-clock [c] at instant [n], nested schedules included *)
Fixpoint played (o : op) (at_ : Z) (c n : Z) : Q :=
  match o with
  | Pulses l => qsum (map (fun p => if pc p =? c then value p at_ n else 0%Q) l)
  | Sub l => qsum (map (fun '(_, t, x) => played x (at_ + t) c n) l)
  | Other _ => 0%Q
  end.
Definition total (s : list entry) (c n : Z) : Q := qsum (map (fun e => played (oper e) (abs e) c n) s).

(** The pulses of one port-clock at one level: those the pass looks at *)
Definition is_pc (c : Z) (e : entry) : bool := match first_pulse (oper e) with Some p => pc p =? c | None => false end.
Definition on (c : Z) (s : list entry) : list entry := filter (is_pc c) s.
Definition item (e : entry) : Z * Z * Z := match first_pulse (oper e) with Some p => (key e, abs e + t0 p, abs e + t0 p + dur p) | None => (key e, 0, 0) end.
Definition starts (e : entry) : Z := xs_start (item e).
Definition ends (e : entry) : Z := xs_end (item e).
(** How many pulses of port-clock [c] are playing at instant [n] *)
Definition playing (c n : Z) (s : list entry) : list entry := filter (fun e => activeb n (item e)) (on c s).

(** Well-formed: distinct keys, one pulse_info per pulse operation, non-negative duration, no reference magnitude, as many samples as the duration *)
Definition good_pulse (p : pulse) : Prop := 0 <= dur p /\ refm p = None /\ match sh p with Wave w => Z.of_nat (List.length w) = dur p | _ => True end.
Definition good (e : entry) : Prop := match first_pulse (oper e) with Some p => oper e = Pulses [p] /\ good_pulse p | None => True end.
Definition square_entry (e : entry) : Prop := match first_pulse (oper e) with Some p => is_square p = true | None => True end.
(** Either all pulses are square, or no pulse begins or ends exactly 1 ns before the end of another one *)
Definition no_hazard (es : list entry) : Prop :=
  (forall e, In e es -> square_entry e) \/
  (forall e e' t, In e es -> In e' es -> (t = starts e' \/ t = ends e') -> starts e < t -> t <> ends e - 1).
Definition level_ok (s : list entry) : Prop := NoDup (map key s) /\ Forall good s /\ forall c, no_hazard (on c s).
Fixpoint op_ok (o : op) : Prop :=
  match o with Sub l => level_ok l /\ fold_right (fun '(_, _, x) P => op_ok x /\ P) True l | _ => True end.
(** At every level, no two pulses of a port-clock overlap *)
Fixpoint no_overlap (o : op) : Prop :=
  match o with Sub l => (forall c n, (List.length (playing c n l) <= 1)%nat) /\ fold_right (fun '(_, _, x) P => no_overlap x /\ P) True l | _ => True end.

(** ** Proofs *)
Section Ord.
Variable ord : list Z -> list Z.
Hypothesis Hord : forall l, Permutation (ord l) l.

Lemma get_In s e : NoDup (map key s) -> In e s -> get (key e) s = Ok e.
Proof.
  induction s as [|x s IH]; intros Hn Hi; [destruct Hi|]. cbn [map] in Hn. inversion Hn as [|? ? Hx Hn']; subst. cbn [get]. destruct Hi as [->|Hi]; [rewrite Z.eqb_refl; reflexivity|].
  destruct (key e =? key x) eqn:E; [apply Z.eqb_eq in E; exfalso; apply Hx; rewrite <- E; apply in_map, Hi|apply IH; assumption].
Qed.
Lemma key_inj s e e' : NoDup (map key s) -> In e s -> In e' s -> key e = key e' -> e = e'.
Proof. intros Hn H1 H2 E. pose proof (get_In s e Hn H1) as A. pose proof (get_In s e' Hn H2) as B. rewrite E in A. congruence. Qed.

Lemma mapM_get s (P : entry -> Prop) : NoDup (map key s) -> forall ks, (forall k, In k ks -> exists e, In e s /\ key e = k /\ P e) ->
  exists es, mapM (fun k => get k s) ks = Ok es /\ map key es = ks /\ Forall (fun e => In e s /\ P e) es.
Proof.
  intros Hn. induction ks as [|k ks IH]; intros H; [exists []; auto|]. destruct (H k (or_introl eq_refl)) as [e [H1 [H2 H3]]]. destruct IH as [es [I1 [I2 I3]]]; [intros; apply H; right; assumption|].
  exists (e :: es). cbn [mapM]. rewrite <- H2 at 1. rewrite (get_In s e Hn H1). cbn [bind]. rewrite I1. cbn. split; [reflexivity|]. split; [congruence|]. constructor; auto.
Qed.
Lemma foldM_get {B} s (F : B -> entry -> result B) : forall es, NoDup (map key s) -> Forall (fun e => In e s) es -> forall b,
  foldM (fun c k => do e <- get k s; F c e) (map key es) b = foldM F es b.
Proof.
  induction es as [|e es IH]; intros Hn Hf b; [reflexivity|]. inversion Hf as [|? ? He Hf']; subst. cbn [map foldM]. rewrite (get_In s e Hn He). cbn [bind]. destruct (F b e); [cbn [bind]; apply IH; assumption|reflexivity].
Qed.

Lemma good_item s e c : Forall good s -> In e (on c s) -> exists p, oper e = Pulses [p] /\ good_pulse p /\ pc p = c /\ has_wf p = true /\ item e = (key e, abs e + t0 p, abs e + t0 p + dur p) /\ first_pulse (oper e) = Some p.
Proof.
  intros Hg He. apply filter_In in He. destruct He as [He Hc]. rewrite Forall_forall in Hg. specialize (Hg e He). unfold good in Hg. unfold is_pc in Hc. unfold item. destruct (first_pulse (oper e)) as [p|] eqn:E; [|discriminate].
  destruct Hg as [Hg1 Hg2]. exists p. apply Z.eqb_eq in Hc. repeat split; auto; try apply Hg2. rewrite Hg1 in E. cbn in E. destruct (has_wf p); congruence.
Qed.
Lemma wave_length p : good_pulse p -> has_wf p = true -> Z.of_nat (List.length (wave p)) = dur p /\ generate p = Ok (wave p).
Proof.
  intros [H1 [H2 H3]] Hw. unfold wave, generate, has_wf in *. destruct (sh p); [discriminate| |auto]. rewrite repeat_length. split; [lia|reflexivity].
Qed.
Lemma activeb_item p e n : item e = (key e, abs e + t0 p, abs e + t0 p + dur p) -> activeb n (item e) = (abs e + t0 p <=? n) && (n <? abs e + t0 p + dur p).
Proof. intros ->. reflexivity. Qed.

(** value of the entry at n *)
Definition val (n : Z) (e : entry) : Q := match first_pulse (oper e) with Some p => value p (abs e) n | None => 0%Q end.
Lemma val_inactive n e : activeb n (item e) = false -> val n e = 0%Q.
Proof. unfold val, item, value. destruct (first_pulse (oper e)) as [p|]; [|reflexivity]. unfold activeb, xs_start, xs_end. cbn. intros ->. reflexivity. Qed.
Lemma val_active s e c p n : Forall good s -> In e (on c s) -> oper e = Pulses [p] -> starts e <= n < ends e -> (val n e == nth (Z.to_nat (n - starts e)) (wave p) 0)%Q.
Proof.
  intros Hg He Ho Hn. destruct (good_item s e c Hg He) as [p' [H1 [H2 [H3 [H4 [H5 H6]]]]]]. assert (p' = p) by congruence. subst p'. unfold val. rewrite H6. unfold starts, ends in *. rewrite H5 in Hn |- *. unfold xs_start, xs_end in *. cbn [fst snd] in *.
  unfold value. rewrite (proj2 (Z.leb_le _ _)), (proj2 (Z.ltb_lt _ _)) by lia. cbn [andb]. unfold scale. destruct H2 as [_ [-> _]]. lra.
Qed.

(** one interval *)
Definition amp_of (e : entry) : Q := match first_pulse (oper e) with Some p => match sh p with Square a => a | _ => 0%Q end | None => 0%Q end.
Lemma square_fold d c s : forall es a, Forall good s -> Forall (fun e => In e (on c s) /\ square_entry e) es ->
  exists b, foldM (fun q e => Ok (fold_left (add_square d) (infos (oper e)) q)) es (Some {| pc := c; t0 := 0; dur := d; sh := Square a; refm := None |})
     = Ok (Some {| pc := c; t0 := 0; dur := d; sh := Square b; refm := None |}) /\ (b == a + qsum (map amp_of es))%Q.
Proof.
  induction es as [|e es IH]; intros a Hg Hf; [exists a; split; [reflexivity|cbn; lra]|]. inversion Hf as [|? ? [He Hq] Hf']; subst. cbn [foldM].
  destruct (good_item s e c Hg He) as [p [H1 [H2 [H3 [H4 [H5 H6]]]]]]. unfold square_entry in Hq. rewrite H6 in Hq. unfold is_square in Hq. destruct (sh p) as [|x|w] eqn:Es; try discriminate.
  rewrite H1. cbn [infos fold_left]. unfold add_square. rewrite Es. cbn [sh pc t0 dur refm bind]. destruct (IH (a + x)%Q Hg Hf') as [b [I1 I2]]. exists b. split; [exact I1|]. rewrite I2. cbn [map qsum]. unfold amp_of at 2. rewrite H6, Es. lra.
Qed.
Lemma square_all d c s es : Forall good s -> es <> [] -> Forall (fun e => In e (on c s) /\ square_entry e) es ->
  exists b, foldM (fun q e => Ok (fold_left (add_square d) (infos (oper e)) q)) es None
     = Ok (Some {| pc := c; t0 := 0; dur := d; sh := Square b; refm := None |}) /\ (b == qsum (map amp_of es))%Q.
Proof.
  intros Hg Hne Hf. destruct es as [|e es]; [congruence|]. inversion Hf as [|? ? [He Hq] Hf']; subst. cbn [foldM].
  destruct (good_item s e c Hg He) as [p [H1 [H2 [H3 [H4 [H5 H6]]]]]]. unfold square_entry in Hq. rewrite H6 in Hq. unfold is_square in Hq. destruct (sh p) as [|x|w] eqn:Es; try discriminate.
  rewrite H1. cbn [infos fold_left]. assert (add_square d None p = Some {| pc := c; t0 := 0; dur := d; sh := Square x; refm := None |}) as ->. { unfold add_square. rewrite Es, H3. destruct H2 as [_ [-> _]]. reflexivity. } cbn [bind]. destruct (square_fold d c s es x Hg Hf') as [b [I1 I2]]. exists b. split; [exact I1|]. rewrite I2. cbn [map qsum]. unfold amp_of at 2. rewrite H6, Es. lra.
Qed.

Lemma zip_add_length a : forall b, List.length a = List.length b -> List.length (zip_add a b) = List.length a.
Proof. induction a as [|x a IH]; intros [|y b] H; cbn in *; try discriminate; [reflexivity|]. f_equal. apply IH. lia. Qed.
Lemma zip_add_nth a : forall b j, List.length a = List.length b -> (nth j (zip_add a b) 0 == nth j a 0 + nth j b 0)%Q.
Proof. induction a as [|x a IH]; intros [|y b] j H; cbn in H; try discriminate; [destruct j; cbn; lra|]. destruct j; cbn; [lra|]. apply IH. lia. Qed.
Lemma nth_firstn {A} (d : A) : forall m j l, (j < m)%nat -> nth j (firstn m l) d = nth j l d.
Proof. induction m as [|m IH]; intros j l H; [lia|]. destruct l; [destruct j; reflexivity|]. destruct j; [reflexivity|]. cbn. apply IH. lia. Qed.
Lemma nth_skipn {A} (d : A) : forall m j l, nth j (skipn m l) d = nth (m + j) l d.
Proof. induction m as [|m IH]; intros j l; [reflexivity|]. destruct l; [destruct j; reflexivity|]. cbn. apply IH. Qed.
Lemma pyslice_ok {A} (d : A) a b l : 0 <= a <= b -> b <= Z.of_nat (List.length l) ->
  List.length (pyslice a b l) = Z.to_nat (b - a) /\ forall j, (j < Z.to_nat (b - a))%nat -> nth j (pyslice a b l) d = nth (Z.to_nat a + j) l d.
Proof.
  intros Ha Hb. unfold pyslice, pyidx. rewrite !(proj2 (Z.ltb_ge _ _)) by lia. rewrite !Z.min_l by lia. split.
  - rewrite firstn_length, skipn_length. lia.
  - intros j Hj. rewrite nth_firstn by exact Hj. apply nth_skipn.
Qed.

Definition iv_at (i : interval) (e : entry) : Prop := starts e <= i_start i /\ i_end i <= ends e.
Lemma arb_fold i c s : i_start i < i_end i -> Forall good s -> forall es comb,
  Forall (fun e => In e (on c s) /\ iv_at i e /\ i_end i <> ends e - 1) es -> List.length comb = Z.to_nat (i_end i - i_start i) ->
  exists comb', foldM (fun q e => foldM (add_wave i (abs e)) (infos (oper e)) q) es comb = Ok comb' /\ List.length comb' = List.length comb /\
    forall n, i_start i <= n < i_end i -> (nth (Z.to_nat (n - i_start i)) comb' 0 == nth (Z.to_nat (n - i_start i)) comb 0 + qsum (map (val n) es))%Q.
Proof.
  intros Hi Hg. induction es as [|e es IH]; intros comb Hf Hl; [exists comb; cbn; split; [reflexivity|]; split; [reflexivity|]; intros; lra|].
  inversion Hf as [|? ? [He [[Hs Hd] Hz]] Hf']; subst. cbn [foldM]. destruct (good_item s e c Hg He) as [p [H1 [H2 [H3 [H4 [H5 H6]]]]]]. rewrite H1. cbn [infos foldM]. unfold add_wave. destruct (wave_length p H2 H4) as [W1 W2]. rewrite W2. cbn [bind].
  assert (starts e = abs e + t0 p) as Es by (unfold starts; rewrite H5; reflexivity). assert (ends e = abs e + t0 p + dur p) as Ee by (unfold ends; rewrite H5; reflexivity).
  replace (i_start i - abs e - t0 p) with (i_start i - starts e) by lia.
  destruct (i_start i - starts e + (i_end i - i_start i) =? Z.of_nat (List.length (wave p)) - 1) eqn:E; [apply Z.eqb_eq in E; lia|].
  destruct (pyslice_ok 0%Q (i_start i - starts e) (i_start i - starts e + (i_end i - i_start i)) (wave p)) as [P1 P2]; [lia|lia|].
  replace (i_start i - starts e + (i_end i - i_start i) - (i_start i - starts e)) with (i_end i - i_start i) in P1, P2 by lia.
  set (sl := pyslice _ _ _) in *. unfold np_add. rewrite (proj2 (Nat.eqb_eq _ _)) by congruence. cbn [bind].
  destruct (IH (zip_add comb sl) Hf') as [comb' [I1 [I2 I3]]]; [rewrite zip_add_length by congruence; exact Hl|]. exists comb'. split; [exact I1|]. split; [rewrite I2; apply zip_add_length; congruence|].
  intros n Hn. rewrite (I3 n Hn), zip_add_nth by congruence. rewrite P2 by lia. cbn [map qsum]. rewrite (val_active s e c p n Hg He H1) by lia.
  replace (Z.to_nat (i_start i - starts e) + Z.to_nat (n - i_start i))%nat with (Z.to_nat (n - starts e)) by lia. lra.
Qed.

Definition vget (n : Z) (s : list entry) (k : Z) : Q := match get k s with Ok e => val n e | Err _ => 0%Q end.
Lemma sum_vget n s es : NoDup (map key s) -> Forall (fun e => In e s) es -> qsum (map (vget n s) (map key es)) = qsum (map (val n) es).
Proof. intros Hn Hf. rewrite map_map. f_equal. apply map_ext_in. intros e He. unfold vget. rewrite Forall_forall in Hf. rewrite (get_In s e Hn (Hf e He)). reflexivity. Qed.

Definition new_ok (s : list entry) (c : Z) (i : interval) (q : pulse) : Prop :=
  pc q = c /\ t0 q = 0 /\ dur q = i_end i - i_start i /\ has_wf q = true /\ good_pulse q /\
  forall n, i_start i <= n < i_end i -> (value q (i_start i) n == qsum (map (vget n s) (i_keys i)))%Q.

Lemma repeat_nth {A} (d x : A) n j : (j < n)%nat -> nth j (repeat x n) d = x.
Proof. revert j. induction n as [|n IH]; intros j H; [lia|]. destruct j; [reflexivity|]. cbn. apply IH. lia. Qed.

Lemma interval_ok s c i : NoDup (map key s) -> Forall good s -> no_hazard (on c s) -> i_start i < i_end i -> i_keys i <> [] ->
  (forall k, In k (i_keys i) -> exists e, In e (on c s) /\ key e = k /\ iv_at i e) ->
  (exists e, In e (on c s) /\ (i_end i = starts e \/ i_end i = ends e)) ->
  exists q, stack_interval ord s i = Ok [(i_start i, q)] /\ new_ok s c i q.
Proof.
  intros Hn Hg Hh Hi Hne Hk [ez [Hez Hzt]]. unfold stack_interval.
  assert (Hsub : forall e, In e (on c s) -> In e s) by (intros e He; apply filter_In in He; apply He).
  destruct (mapM_get s (fun e => In e (on c s) /\ iv_at i e) Hn (ord (i_keys i))) as [es [M1 [M2 M3]]].
  { intros k K. apply (Permutation_in _ (Hord _)) in K. destruct (Hk k K) as [e [H1 [H2 H3]]]. exists e. auto. }
  rewrite M1. cbn [bind].
  assert (Hes : Forall (fun e => In e s) es) by (eapply Forall_impl; [|exact M3]; cbn; tauto).
  assert (Hes_ne : es <> []). { intros ->. cbn in M2. pose proof (Hord (i_keys i)) as HP. rewrite <- M2 in HP. apply Permutation_nil in HP. auto. }
  assert (Hsum : forall n, (qsum (map (vget n s) (i_keys i)) == qsum (map (val n) es))%Q).
  { intros n. rewrite <- (sum_vget n s es Hn Hes), M2. apply qsum_perm, Permutation_map, Permutation_sym, Hord. }
  destruct (forallb (fun e => forallb is_square (infos (oper e))) es) eqn:Esq.
  - assert (Hq : Forall (fun e => In e (on c s) /\ square_entry e) es).
    { rewrite forallb_forall in Esq. rewrite Forall_forall in M3 |- *. intros e He. destruct (M3 e He) as [_ [H1 _]]. split; [exact H1|]. destruct (good_item s e c Hg H1) as [p [P1 [_ [_ [_ [_ P2]]]]]]. unfold square_entry. rewrite P2. specialize (Esq e He). rewrite P1 in Esq. cbn in Esq. rewrite andb_true_r in Esq. exact Esq. }
    unfold stack_square. rewrite <- M2, (foldM_get s (fun q e => Ok (fold_left (add_square (i_end i - i_start i)) (infos (oper e)) q)) es Hn Hes).
    destruct (square_all (i_end i - i_start i) c s es Hg Hes_ne Hq) as [b [B1 B2]]. rewrite B1. cbn [bind]. eexists. split; [reflexivity|]. unfold new_ok, good_pulse. cbn [pc t0 dur sh refm has_wf].
    repeat split; try lia. intros n Hin. rewrite Hsum. unfold value. cbn [t0 dur]. rewrite (proj2 (Z.leb_le _ _)), (proj2 (Z.ltb_lt _ _)) by lia. cbn [andb]. unfold scale, wave. cbn [refm sh dur]. rewrite repeat_nth by lia. rewrite Qmult_1_l, B2.
    apply qsum_map_ext. intros e He. rewrite Forall_forall in M3, Hq. destruct (M3 e He) as [_ [H1 [H2 H3]]]. destruct (good_item s e c Hg H1) as [p [P1 [P2 [_ [_ [P3 P4]]]]]]. rewrite (val_active s e c p n Hg H1 P1) by lia.
    unfold amp_of. rewrite P4. destruct (Hq e He) as [_ Hqe]. unfold square_entry in Hqe. rewrite P4 in Hqe. unfold is_square in Hqe. destruct (sh p) as [|x|w] eqn:Ew; try discriminate. unfold wave. rewrite Ew, repeat_nth; [reflexivity|].
    unfold starts, ends in *. rewrite P3 in *. unfold xs_start, xs_end in *. cbn [fst snd] in *. lia.
  - destruct es as [|e0 es0] eqn:Ees; [congruence|]. rewrite <- Ees in *. assert (H0 : In e0 es) by (rewrite Ees; left; reflexivity).
    assert (Hf : exists p0 l, flat_map (fun e => infos (oper e)) es = p0 :: l /\ pc p0 = c).
    { rewrite Forall_forall in M3. destruct (M3 e0 H0) as [_ [H1 _]]. destruct (good_item s e0 c Hg H1) as [p [P1 [_ [P2 _]]]]. rewrite Ees. cbn [flat_map]. rewrite P1. cbn. eauto. }
    destruct Hf as [p0 [l0 [-> Hp0]]]. unfold stack_arbitrary. rewrite <- M2, (foldM_get s (fun q e => foldM (add_wave i (abs e)) (infos (oper e)) q) es Hn Hes).
    destruct Hh as [Hh|Hh].
    { exfalso. assert (forallb (fun e => forallb is_square (infos (oper e))) es = true); [|congruence]. apply forallb_forall. intros e He. rewrite Forall_forall in M3. destruct (M3 e He) as [_ [H1 _]]. destruct (good_item s e c Hg H1) as [p [P1 [_ [_ [_ [_ P2]]]]]]. specialize (Hh e H1). unfold square_entry in Hh. rewrite P2 in Hh. rewrite P1. cbn. rewrite Hh. reflexivity. }
    destruct (arb_fold i c s Hi Hg es (repeat 0%Q (Z.to_nat (i_end i - i_start i)))) as [comb [C1 [C2 C3]]].
    { eapply Forall_impl; [|exact M3]. cbn. intros e [_ [H1 H2]]. split; [exact H1|]. split; [exact H2|]. apply (Hh e ez); auto. destruct H2. lia. }
    { apply repeat_length. }
    rewrite C1. cbn [bind]. rewrite repeat_length in C2. eexists. split; [reflexivity|]. unfold new_ok, good_pulse. cbn [pc t0 dur sh refm has_wf]. repeat split; try lia; auto.
    intros n Hin. rewrite Hsum. unfold value. cbn [t0 dur]. rewrite (proj2 (Z.leb_le _ _)), (proj2 (Z.ltb_lt _ _)) by lia. cbn [andb]. unfold scale, wave. cbn [refm sh]. replace (n - (i_start i + 0)) with (n - i_start i) by lia. rewrite (C3 n Hin), repeat_nth by lia. lra.
Qed.

(** all the intervals of a port-clock *)
Lemma group_events c s : map snd (filter (fun x => c =? fst x) (flat_map events_of s)) = flat_map ev2 (map item (on c s)).
Proof.
  induction s as [|e s IH]; [reflexivity|]. cbn [flat_map]. rewrite filter_app, map_app, IH. unfold on at 2. cbn [filter]. unfold is_pc at 1, events_of. destruct (first_pulse (oper e)) as [p|] eqn:E.
  - cbn [filter fst]. rewrite Z.eqb_sym. destruct (pc p =? c); cbn [filter map snd app]; [|reflexivity]. cbn [flat_map]. unfold item at 2. rewrite E. reflexivity.
  - reflexivity.
Qed.
Lemma item_key e : xk (item e) = key e. Proof. unfold item. destruct (first_pulse (oper e)); reflexivity. Qed.
Lemma items_keys es : map xk (map item es) = map key es. Proof. rewrite map_map. apply map_ext. intros; apply item_key. Qed.
Lemma NoDup_keys_filter f s : NoDup (map key s) -> NoDup (map key (filter f s)).
Proof.
  induction s as [|e s IH]; intros H; [constructor|]. cbn [map] in H. inversion H as [|? ? H1 H2]; subst. cbn [filter]. destruct (f e); [|auto]. cbn [map]. constructor; [|auto].
  intros A. apply H1. apply in_map_iff in A. destruct A as [x [E Hx]]. apply filter_In in Hx. apply in_map_iff. exists x. tauto.
Qed.

Definition newpair (s : list entry) (c : Z) (i : interval) (x : Z * pulse) : Prop := fst x = i_start i /\ new_ok s c i (snd x).
Lemma intervals_ok s c ivs : NoDup (map key s) -> Forall good s -> no_hazard (on c s) -> group_facts (map item (on c s)) ivs ->
  exists qs, mapM (stack_interval ord s) ivs = Ok (map (fun q => [q]) qs) /\ Forall2 (newpair s c) ivs qs.
Proof.
  intros Hn Hg Hh [_ _ Hiv]. induction ivs as [|i ivs IH]; [exists []; split; [reflexivity|constructor]|].
  destruct IH as [qs [I1 I2]]; [intros; apply Hiv; right; assumption|]. destruct (Hiv i (or_introl eq_refl)) as [A [B [B' [C [x [D1 D2]]]]]].
  destruct (interval_ok s c i Hn Hg Hh A B') as [q [Q1 Q2]].
  - intros k Hk. destruct (C k Hk) as [y [Hy [Hyk [Hy1 Hy2]]]]. apply in_map_iff in Hy. destruct Hy as [e [<- He]]. exists e. rewrite item_key in Hyk. repeat split; assumption.
  - apply in_map_iff in D1. destruct D1 as [e [<- He]]. exists e. split; [exact He|exact D2].
  - exists ((i_start i, q) :: qs). cbn [mapM]. rewrite Q1. cbn [bind]. rewrite I1. split; [reflexivity|]. constructor; [split; [reflexivity|exact Q2]|exact I2].
Qed.

Lemma number_keys qs : forall k, map key (number k qs) = map (fun j => k + Z.of_nat j) (seq 0 (List.length qs)).
Proof.
  induction qs as [|[t q] qs IH]; intros k; [reflexivity|]. cbn [number map List.length seq]. f_equal; [unfold key; cbn; lia|]. rewrite IH, <- seq_shift, map_map. apply map_ext. intros; lia.
Qed.
Lemma number_entries qs : forall k, map (fun e => (abs e, oper e)) (number k qs) = map (fun '(t, q) => (t, Pulses [q])) qs.
Proof. induction qs as [|[t q] qs IH]; intros k; [reflexivity|]. cbn. rewrite IH. reflexivity. Qed.
Lemma number_In qs k e : In e (number k qs) -> exists t q, In (t, q) qs /\ abs e = t /\ oper e = Pulses [q].
Proof. revert k. induction qs as [|[t q] qs IH]; intros k H; [destruct H|]. destruct H as [<-|H]; [exists t, q; cbn; auto|]. destruct (IH _ H) as [t' [q' [A B]]]. exists t', q'. split; [right; exact A|exact B]. Qed.
Lemma fresh_gt s e : In e s -> key e < fresh s.
Proof. unfold fresh. intros H. apply (in_map key) in H. induction (map key s) as [|x l IH]; [destruct H|]. cbn [fold_right]. destruct H as [->|H]; [lia|]. specialize (IH H). lia. Qed.
Lemma NoDup_app_disj {A} (l1 l2 : list A) : NoDup l1 -> NoDup l2 -> (forall x, In x l1 -> ~ In x l2) -> NoDup (l1 ++ l2).
Proof. induction 1 as [|x l Hx Hl IH]; intros H2 Hd; [exact H2|]. cbn. constructor; [rewrite in_app_iff; intros [K|K]; [auto|exact (Hd x (or_introl eq_refl) K)]|]. apply IH; [exact H2|]. intros y Hy. apply Hd. right. exact Hy. Qed.

Record step_facts (c : Z) (s s' : list entry) : Prop := {
  st_keys : NoDup (map key s');
  st_good : Forall good s';
  st_total : forall c' n, (total s' c' n == total s c' n)%Q;
  st_others : forall c', c' <> c -> on c' s' = on c' s;
  st_rest : filter (fun e => match first_pulse (oper e) with Some _ => false | None => true end) s' = filter (fun e => match first_pulse (oper e) with Some _ => false | None => true end) s;
  st_one : forall n, (List.length (playing c n s') <= 1)%nat }.

Lemma disjoint_count n : forall ivs, ForallOrdPairs (fun i j => i_end i <= i_start j) ivs -> (forall i, In i ivs -> i_start i < i_end i) -> (List.length (filter (inside n) ivs) <= 1)%nat.
Proof.
  induction ivs as [|i ivs IH]; intros Ho Hi; [cbn; lia|]. inversion Ho as [|? ? H1 H2]; subst. cbn [filter]. destruct (inside n i) eqn:E; [|apply IH; [exact H2|intros; apply Hi; right; assumption]].
  assert (filter (inside n) ivs = []) as ->; [|cbn; lia]. unfold inside in E. apply andb_true_iff in E. destruct E as [_ E]. apply Z.ltb_lt in E. clear IH H2 Ho.
  induction ivs as [|j ivs IH]; [reflexivity|]. inversion H1 as [|? ? Hj H1']; subst. cbn [filter]. unfold inside at 1. destruct (Z.leb_spec (i_start j) n); [lia|]. cbn [andb]. apply IH; [|exact H1']. intros x [Hx|Hx]; apply Hi; cbn; auto.
Qed.
Lemma qsum_ones {A} (p : A -> bool) l : (qsum (map (fun x => if p x then 1 else 0) l) == inject_Z (Z.of_nat (List.length (filter p l))))%Q.
Proof.
  induction l as [|x l IH]; [reflexivity|]. cbn [map qsum filter]. destruct (p x); rewrite IH; [|lra]. cbn [List.length]. rewrite Nat2Z.inj_succ. unfold Z.succ. rewrite inject_Z_plus. change (inject_Z 1) with 1%Q. lra.
Qed.

Lemma old_iff s c ivs e : NoDup (map key s) -> Forall good s -> group_facts (map item (on c s)) ivs -> In e s ->
  (mem (key e) (flat_map i_keys ivs) = true -> In e (on c s)) /\ (In e (on c s) -> mem (key e) (flat_map i_keys ivs) = false -> forall n, activeb n (item e) = false).
Proof.
  intros Hn Hg [G1 _ G3] He. split.
  - intros H. apply mem_iff, in_flat_map in H. destruct H as [i [Hi Hk]]. destruct (G3 i Hi) as [_ [_ [_ [C _]]]]. destruct (C _ Hk) as [x [Hx [Hxk _]]]. apply in_map_iff in Hx. destruct Hx as [e' [<- He']]. rewrite item_key in Hxk.
    assert (e' = e) as ->; [|exact He']. apply (key_inj s); auto. apply filter_In in He'. apply He'.
  - intros Ho Hm n. destruct (activeb n (item e)) eqn:Ea; [|reflexivity]. exfalso. set (v := fun k => if k =? key e then 1%Q else 0%Q). pose proof (G1 v n) as G.
    assert (ivsum v n ivs == 0)%Q as Z0. { apply qsum_map_0. intros i Hi. destruct (inside n i); [|reflexivity]. apply qsum_map_0. intros k Hk. unfold v. destruct (k =? key e) eqn:E; [|reflexivity]. apply Z.eqb_eq in E. subst k. apply mem_false in Hm. exfalso. apply Hm. apply in_flat_map. eauto. }
    assert (1 <= qsum (map (fun x => if activeb n x then v (xk x) else 0) (map item (on c s))))%Q; [|lra].
    eapply Qle_trans; [|apply (qsum_pos (fun x => if activeb n x then v (xk x) else 0%Q) _ (item e))]; [|intros x _; unfold v; destruct (activeb n x); [destruct (_ =? _)|]; lra|apply in_map, Ho].
    rewrite Ea. unfold v. rewrite item_key, Z.eqb_refl. lra.
Qed.

Lemma played_on s c e c' n : Forall good s -> In e (on c s) -> (played (oper e) (abs e) c' n == if c =? c' then val n e else 0)%Q.
Proof.
  intros Hg He. destruct (good_item s e c Hg He) as [p [P1 [_ [P2 [_ [_ P3]]]]]]. unfold val. rewrite P3. rewrite P1. cbn [played map qsum]. rewrite P2. destruct (c =? c'); lra.
Qed.

Lemma group_step s c : NoDup (map key s) -> Forall good s -> no_hazard (on c s) ->
  exists s', stack_group ord s (flat_map ev2 (map item (on c s))) = Ok s' /\ step_facts c s s'.
Proof.
  intros Hn Hg Hh. unfold stack_group.
  destruct (sweep_group (map item (on c s))) as [ivs [Hivs F]].
  { rewrite items_keys. apply NoDup_keys_filter, Hn. }
  { apply Forall_forall. intros x Hx. apply in_map_iff in Hx. destruct Hx as [e [<- He]]. destruct (good_item s e c Hg He) as [p [_ [[P _] [_ [_ [-> _]]]]]]. unfold xs_start, xs_end. cbn. lia. }
  rewrite Hivs. cbn [bind]. destruct (existsb _ ivs) eqn:Ex.
  - unfold stack_by_interval. destruct (intervals_ok s c ivs Hn Hg Hh F) as [qs [Q1 Q2]]. rewrite Q1. cbn [bind].
    assert (List.concat (map (fun q : Z * pulse => [q]) qs) = qs) as ->. { clear. induction qs as [|q qs IH]; [reflexivity|]. cbn. rewrite IH. reflexivity. }
    eexists. split; [reflexivity|]. set (old := flat_map i_keys ivs). set (news := number (fresh s) qs). set (kept := filter (fun e => negb (mem (key e) old)) s).
    assert (Hnew : forall e, In e news -> exists i q, In i ivs /\ oper e = Pulses [q] /\ abs e = i_start i /\ new_ok s c i q).
    { intros e He. apply number_In in He. destruct He as [t [q [Hq [E1 E2]]]]. clear -Q2 Hq E1 E2. induction Q2 as [|i [t' q'] ivs qs [H1 H2] Q2 IH]; [destruct Hq|]. cbn [fst snd] in *. destruct Hq as [Hq|Hq].
      - inversion Hq; subst. exists i, q. cbn. repeat split; auto; apply H2.
      - destruct (IH Hq) as [i' [q'' [A B]]]. exists i', q''. split; [right; exact A|exact B]. }
    assert (Hfirst : forall e, In e news -> exists q, first_pulse (oper e) = Some q /\ pc q = c /\ oper e = Pulses [q]).
    { intros e He. destruct (Hnew e He) as [i [q [_ [E1 [_ [E2 [_ [_ [E3 _]]]]]]]]]. exists q. rewrite E1. cbn. rewrite E3. auto. }
    constructor.
    + (* keys *) rewrite map_app. apply NoDup_app_disj; [apply NoDup_keys_filter, Hn| |].
      * unfold news. rewrite number_keys. apply FinFun.Injective_map_NoDup; [intros a b E; lia|apply seq_NoDup].
      * intros k Hk1 Hk2. apply in_map_iff in Hk1. destruct Hk1 as [e [<- He]]. apply filter_In in He. destruct He as [He _]. unfold news in Hk2. rewrite number_keys in Hk2. apply in_map_iff in Hk2. destruct Hk2 as [j [Ej _]]. pose proof (fresh_gt s e He). lia.
    + (* good *) apply Forall_app. split.
      * apply Forall_forall. intros e He. apply filter_In in He. rewrite Forall_forall in Hg. apply Hg, He.
      * apply Forall_forall. intros e He. destruct (Hnew e He) as [i [q [_ [E1 [_ [_ [_ [_ [E3 [E4 _]]]]]]]]]]. unfold good. rewrite E1. cbn. rewrite E3. auto.
    + (* total *) intros c' n. unfold total. rewrite map_app, qsum_app.
      assert (Hnews : (qsum (map (fun e => played (oper e) (abs e) c' n) news) == if c =? c' then ivsum (vget n s) n ivs else 0)%Q).
      { transitivity (qsum (map (fun x => played (snd x) (fst x) c' n) (map (fun e => (abs e, oper e)) news))); [rewrite map_map; cbn [fst snd]; reflexivity|]. unfold news. rewrite number_entries. clear -Q2.
        induction Q2 as [|i [t q] ivs qs [H1 H2] Q2 IH]; [cbn; destruct (c =? c'); reflexivity|]. cbn [map qsum]. rewrite IH. cbn [fst snd] in *. subst t. destruct H2 as [P1 [P2 [P3 [P4 [P5 P6]]]]]. cbn [played map qsum]. rewrite P1. destruct (c =? c') eqn:Ec; [|lra].
        unfold ivsum. cbn [map qsum]. fold (ivsum (vget n s) n ivs). unfold inside at 1. destruct ((i_start i <=? n) && (n <? i_end i)) eqn:En.
        - apply andb_true_iff in En. destruct En as [E1 E2]. apply Z.leb_le in E1. apply Z.ltb_lt in E2. rewrite P6 by lia. lra.
        - unfold value. rewrite P2, P3. replace (i_start i + 0) with (i_start i) by lia. replace (i_start i + (i_end i - i_start i)) with (i_end i) by lia. rewrite En. lra. }
      rewrite Hnews. unfold kept. rewrite qsum_filter.
      assert (Hold : ((if c =? c' then ivsum (vget n s) n ivs else 0) == qsum (map (fun e => if mem (key e) old then played (oper e) (abs e) c' n else 0) s))%Q).
      { transitivity (qsum (map (fun e => if is_pc c e then (if c =? c' then val n e else 0%Q) else 0%Q) s)).
        - destruct (c =? c') eqn:Ec.
          + destruct F as [F1 _ _]. rewrite F1. rewrite map_map. rewrite <- (qsum_filter (is_pc c) (val n) s). fold (on c s). apply qsum_map_ext. intros e He. rewrite item_key. destruct (activeb n (item e)) eqn:Ea; [|rewrite val_inactive by exact Ea; reflexivity]. unfold vget. rewrite (get_In s e Hn); [reflexivity|]. apply filter_In in He. apply He.
          + symmetry. apply qsum_map_0. intros e _. destruct (is_pc c e); reflexivity.
        - apply qsum_map_ext. intros e He. destruct (old_iff s c ivs e Hn Hg F He) as [O1 O2]. fold old in O1, O2. destruct (mem (key e) old) eqn:Em.
          + pose proof (O1 eq_refl) as Ho. assert (is_pc c e = true) as -> by (apply filter_In in Ho; apply Ho). symmetry. apply (played_on s); assumption.
          + destruct (is_pc c e) eqn:Ep; [|reflexivity]. destruct (c =? c'); [|reflexivity]. rewrite val_inactive; [reflexivity|]. apply O2; [apply filter_In; auto|reflexivity]. }
      rewrite Hold, <- qsum_map_plus. apply qsum_map_ext. intros e _. destruct (mem (key e) old); cbn [negb]; lra.
    + (* others *) intros c' Hc. unfold on. rewrite filter_app. assert (filter (is_pc c') news = []) as ->.
      { apply filter_none. intros e He. destruct (Hfirst e He) as [q [E1 [E2 _]]]. unfold is_pc. rewrite E1, E2. apply Z.eqb_neq. auto. }
      rewrite app_nil_r. unfold kept. assert (G : forall l, (forall e, In e l -> In e s) -> filter (is_pc c') (filter (fun e => negb (mem (key e) old)) l) = filter (is_pc c') l).
      { induction l as [|e l IH]; intros Hl; [reflexivity|]. cbn [filter]. destruct (mem (key e) old) eqn:Em; cbn [negb filter]; rewrite (IH (fun x Hx => Hl x (or_intror Hx))); [|reflexivity].
        destruct (old_iff s c ivs e Hn Hg F (Hl e (or_introl eq_refl))) as [O1 _]. specialize (O1 Em). apply filter_In in O1. destruct O1 as [_ O1]. unfold is_pc in *. destruct (first_pulse (oper e)); [|discriminate]. apply Z.eqb_eq in O1. rewrite (proj2 (Z.eqb_neq _ _)) by congruence. reflexivity. }
      apply G. auto.
    + (* rest *) rewrite filter_app. set (f := fun e : entry => match first_pulse (oper e) with Some _ => false | None => true end). assert (filter f news = []) as ->.
      { apply filter_none. intros e He. destruct (Hfirst e He) as [q [E1 _]]. unfold f. rewrite E1. reflexivity. }
      rewrite app_nil_r. assert (G : forall l, (forall e, In e l -> In e s) -> filter f (filter (fun e => negb (mem (key e) old)) l) = filter f l).
      { induction l as [|e l IH]; intros Hl; [reflexivity|]. cbn [filter]. destruct (mem (key e) old) eqn:Em; cbn [negb filter]; rewrite (IH (fun x Hx => Hl x (or_intror Hx))); [|reflexivity].
        destruct (old_iff s c ivs e Hn Hg F (Hl e (or_introl eq_refl))) as [O1 _]. specialize (O1 Em). apply filter_In in O1. destruct O1 as [_ O1]. unfold is_pc in O1. unfold f. destruct (first_pulse (oper e)); [reflexivity|discriminate]. }
      apply G. auto.
    + (* one *) intros n. unfold playing, on. rewrite !filter_app, app_length. assert (filter (fun e => activeb n (item e)) (filter (is_pc c) kept) = []) as ->.
      { apply filter_none. intros e He. apply filter_In in He. destruct He as [He Hp]. apply filter_In in He. destruct He as [He Hm]. apply negb_true_iff in Hm. destruct (old_iff s c ivs e Hn Hg F He) as [_ O2]. apply O2; [apply filter_In; auto|exact Hm]. }
      cbn [List.length Nat.add]. assert (filter (is_pc c) news = news) as ->.
      { apply filter_all. intros e He. destruct (Hfirst e He) as [q [E1 [E2 _]]]. unfold is_pc. rewrite E1. apply Z.eqb_eq, E2. }
      assert (Hc : forall k, List.length (filter (fun e => activeb n (item e)) (number k qs)) = List.length (filter (inside n) ivs)).
      { clear -Q2. induction Q2 as [|i [t q] ivs qs [H1 H2] Q2 IH]; intros k; [reflexivity|]. cbn [number filter]. cbn [fst snd] in *. subst t. destruct H2 as [P1 [P2 [P3 [P4 _]]]]. unfold item at 1. cbn [oper snd first_pulse]. rewrite P4. unfold activeb at 1, xs_start, xs_end, abs. cbn [fst snd]. rewrite P2, P3. replace (i_start i + 0) with (i_start i) by lia. replace (i_start i + (i_end i - i_start i)) with (i_end i) by lia. fold (inside n i). destruct (inside n i); cbn [List.length]; rewrite IH; reflexivity. }
      unfold news. rewrite Hc. destruct F as [_ F2 F3]. apply disjoint_count; [exact F2|]. intros i Hi. apply (F3 i Hi).
  - exists s. split; [reflexivity|]. constructor; auto; try reflexivity. intros n.
    destruct F as [F1 F2 F3]. pose proof (F1 (fun _ => 1%Q) n) as G. rewrite map_map in G.
    assert (Hcnt : (qsum (map (fun e => if activeb n (item e) then 1 else 0) (on c s)) == inject_Z (Z.of_nat (List.length (playing c n s))))%Q) by apply (qsum_ones (fun e => activeb n (item e))).
    rewrite Hcnt in G. clear Hcnt.
    assert (ivsum (fun _ => 1) n ivs <= 1)%Q as L.
    { assert (Hle : (ivsum (fun _ => 1%Q) n ivs <= inject_Z (Z.of_nat (List.length (filter (inside n) ivs))))%Q).
      { rewrite <- qsum_ones. unfold ivsum. clear -Ex. induction ivs as [|i ivs IH]; [cbn; lra|]. cbn [existsb] in Ex. apply orb_false_iff in Ex. destruct Ex as [E1 E2]. specialize (IH E2). cbn [map qsum]. destruct (inside n i); [|lra].
        apply Nat.ltb_ge in E1. destruct (i_keys i) as [|k [|k' ks]]; cbn in *; try lia; lra. }
      eapply Qle_trans; [exact Hle|]. pose proof (disjoint_count n ivs F2 (fun i Hi => proj1 (F3 i Hi))) as D. change 1%Q with (inject_Z 1). rewrite <- Zle_Qle. lia. }
    rewrite G in L. change 1%Q with (inject_Z 1) in L. rewrite <- Zle_Qle in L. lia.
Qed.

(** all port-clocks *)
Lemma distinct_In l k : In k (distinct l) <-> In k l.
Proof. induction l as [|x l IH]; [reflexivity|]. cbn. rewrite filter_In, IH. destruct (Z.eqb_spec x k); cbn; intuition congruence. Qed.
Lemma distinct_NoDup l : NoDup (distinct l).
Proof. induction l as [|x l IH]; [constructor|]. cbn. constructor; [|apply NoDup_filter, IH]. rewrite filter_In, Z.eqb_refl. intros [_ A]. discriminate. Qed.

Lemma groups_step s0 : forall cs s, NoDup cs -> NoDup (map key s) -> Forall good s -> (forall c, In c cs -> on c s = on c s0) -> (forall c, no_hazard (on c s0)) ->
  exists s', foldM (stack_group ord) (map (fun c => flat_map ev2 (map item (on c s0))) cs) s = Ok s' /\ NoDup (map key s') /\ Forall good s' /\
    (forall c n, (total s' c n == total s c n)%Q) /\ (forall c, ~ In c cs -> on c s' = on c s) /\
    filter (fun e => match first_pulse (oper e) with Some _ => false | None => true end) s' = filter (fun e => match first_pulse (oper e) with Some _ => false | None => true end) s /\
    (forall c n, In c cs -> (List.length (playing c n s') <= 1)%nat).
Proof.
  induction cs as [|c cs IH]; intros s Hnc Hn Hg Ho Hh; [exists s; cbn; repeat split; auto; try reflexivity; intros c n []|].
  inversion Hnc as [|? ? Hc Hnc']; subst. cbn [map foldM]. rewrite <- (Ho c (or_introl eq_refl)).
  destruct (group_step s c Hn Hg) as [s1 [E1 [K1 K2 K3 K4 K5 K6]]]; [rewrite (Ho c (or_introl eq_refl)); apply Hh|]. rewrite E1. cbn [bind].
  destruct (IH s1 Hnc' K1 K2) as [s2 [E2 [L1 [L2 [L3 [L4 [L5 L6]]]]]]]; [|exact Hh|].
  { intros c' Hc'. rewrite K4; [apply Ho; right; exact Hc'|]. intros ->. auto. }
  exists s2. split; [exact E2|]. split; [exact L1|]. split; [exact L2|]. split; [intros c' n; rewrite L3; apply K3|]. split.
  { intros c' Hc'. rewrite L4 by (intros A; apply Hc'; right; exact A). apply K4. intros ->. apply Hc'. left. reflexivity. }
  split; [rewrite L5; exact K5|]. intros c' n [<-|Hc']; [|apply L6, Hc']. unfold playing. rewrite (L4 c Hc). apply K6.
Qed.

Lemma level_step s : level_ok s -> exists s', foldM (stack_group ord) (group (flat_map events_of s)) s = Ok s' /\ NoDup (map key s') /\
    (forall c n, (total s' c n == total s c n)%Q) /\
    filter (fun e => match first_pulse (oper e) with Some _ => false | None => true end) s' = filter (fun e => match first_pulse (oper e) with Some _ => false | None => true end) s /\
    (forall c n, (List.length (playing c n s') <= 1)%nat).
Proof.
  intros [Hn [Hg Hh]]. unfold group. set (cs := distinct (map fst (flat_map events_of s))).
  assert (map (fun k => map snd (filter (fun x => k =? fst x) (flat_map events_of s))) cs = map (fun c => flat_map ev2 (map item (on c s))) cs) as ->.
  { apply map_ext. intros c. apply group_events. }
  destruct (groups_step s cs s (distinct_NoDup _) Hn Hg (fun c _ => eq_refl) Hh) as [s' [E [L1 [L2 [L3 [L4 [L5 L6]]]]]]]. exists s'. repeat split; auto.
  intros c n. destruct (in_dec Z.eq_dec c cs) as [Hc|Hc]; [apply L6, Hc|]. unfold playing. rewrite (L4 c Hc). assert (on c s = []) as ->; [|cbn; lia].
  apply filter_none. intros e He. unfold is_pc. destruct (first_pulse (oper e)) as [p|] eqn:E1; [|reflexivity]. destruct (pc p =? c) eqn:E2; [|reflexivity]. apply Z.eqb_eq in E2. exfalso. apply Hc. unfold cs. apply distinct_In. apply in_map_iff. eexists. split; [|apply in_flat_map; exists e; split; [exact He|]; unfold events_of; rewrite E1; left; reflexivity]. exact E2.
Qed.

Lemma op_ind2 (P : op -> Prop) : (forall l, P (Pulses l)) -> (forall l, Forall (fun '(_, _, x) => P x) l -> P (Sub l)) -> (forall i, P (Other i)) -> forall o, P o.
Proof.
  intros H1 H2 H3. fix IH 1. intros [l|l|i]; [apply H1| |apply H3]. apply H2. induction l as [|[[k t] x] l IHl]; constructor; [apply IH|exact IHl].
Qed.

(** a shift of the time origin *)
Lemma played_shift : forall o at_ d c n, played o (at_ + d) c (n + d) = played o at_ c n.
Proof.
  induction o as [l|l IH|i] using op_ind2; intros at_ d c n; cbn [played].
  - f_equal. apply map_ext. intros p. destruct (pc p =? c); [|reflexivity]. unfold value. replace (at_ + d + t0 p <=? n + d) with (at_ + t0 p <=? n) by (destruct (Z.leb_spec (at_ + t0 p) n), (Z.leb_spec (at_ + d + t0 p) (n + d)); lia || reflexivity).
    replace (n + d <? at_ + d + t0 p + dur p) with (n <? at_ + t0 p + dur p) by (destruct (Z.ltb_spec n (at_ + t0 p + dur p)), (Z.ltb_spec (n + d) (at_ + d + t0 p + dur p)); lia || reflexivity). replace (n + d - (at_ + d + t0 p)) with (n - (at_ + t0 p)) by lia. reflexivity.
  - f_equal. induction l as [|[[k t] x] l IHl]; [reflexivity|]. inversion IH as [|? ? Hx Hl]; subst. cbn [map]. f_equal; [|apply IHl, Hl]. replace (at_ + d + t) with (at_ + t + d) by lia. apply Hx.
  - reflexivity.
Qed.

Definition op_eq (o o' : op) : Prop := forall at_ c n, (played o' at_ c n == played o at_ c n)%Q.
Lemma stack_op_ok : forall o, op_ok o -> exists o', stack_op ord o = Ok o' /\ op_eq o o' /\ no_overlap o' /\ match o, o' with Sub _, Sub _ => True | _, _ => o' = o end.
Proof.
  induction o as [l|l IH|i] using op_ind2; intros Hok; [exists (Pulses l); repeat split; intros; reflexivity| |exists (Other i); repeat split; intros; reflexivity].
  destruct Hok as [Hlev Hch]. cbn [stack_op].
  match goal with |- context [bind (?g l) _] => set (go := g) end.
  assert (Hgo : exists l', go l = Ok l' /\ Forall2 (fun e e' => key e' = key e /\ abs e' = abs e /\ op_eq (oper e) (oper e') /\ no_overlap (oper e') /\ match oper e, oper e' with Sub _, Sub _ => True | _, _ => oper e' = oper e end) l l').
  { clear Hlev. induction l as [|[[k t] x] l IHl]; [exists []; split; [reflexivity|constructor]|]. inversion IH as [|? ? Hx Hl]; subst. destruct Hch as [Hc1 Hc2]. destruct (Hx Hc1) as [x' [X1 X2]]. destruct (IHl Hl Hc2) as [l' [L1 L2]].
    exists ((k, t, x') :: l'). split; [unfold go; fold go; rewrite X1; cbn [bind]; rewrite L1; reflexivity|]. constructor; [|exact L2]. cbn. auto. }
  destruct Hgo as [l' [Eg Hf]]. rewrite Eg. cbn [bind].
  (* first pulses are the same *)
  assert (Hsame : forall e e', match oper e, oper e' with Sub _, Sub _ => True | _, _ => oper e' = oper e end -> first_pulse (oper e') = first_pulse (oper e) /\ infos (oper e') = infos (oper e)).
  { intros e e' H. destruct (oper e), (oper e'); try (rewrite H); try discriminate; auto. }
  assert (Hk : map key l' = map key l). { clear -Hf. induction Hf as [|e e' l l' [H _] Hf IH]; [reflexivity|]. cbn. congruence. }
  assert (Hon : forall c, Forall2 (fun e e' => item e' = item e /\ (square_entry e -> square_entry e')) (on c l) (on c l')).
  { intros c. clear -Hf Hsame. unfold on. induction Hf as [|e e' l l' [H1 [H2 [_ [_ H3]]]] Hf IH]; [constructor|]. destruct (Hsame _ _ H3) as [S1 S2]. cbn [filter]. assert (is_pc c e' = is_pc c e) as -> by (unfold is_pc; rewrite S1; reflexivity). destruct (is_pc c e); [|exact IH]. constructor; [|exact IH]. unfold item, square_entry. rewrite S1, H1, H2. auto. }
  assert (Hlev' : level_ok l').
  { destruct Hlev as [A [B C]]. split; [rewrite Hk; exact A|]. split.
    - clear -B Hf Hsame. induction Hf as [|e e' l l' [H1 [H2 [_ [_ H3]]]] Hf IH]; [constructor|]. inversion B as [|? ? B1 B2]; subst. constructor; [|apply IH, B2]. destruct (Hsame _ _ H3) as [S1 _]. unfold good in *. rewrite S1. destruct (first_pulse (oper e)) as [p|] eqn:E; [|exact I]. destruct B1 as [B1 B3]. split; [|exact B3]. rewrite B1 in H3. destruct (oper e'); congruence.
    - intros c. specialize (C c). specialize (Hon c). assert (Hin : forall e', In e' (on c l') -> exists e, In e (on c l) /\ item e' = item e /\ (square_entry e -> square_entry e')).
      { clear -Hon. induction Hon as [|e e' l1 l2 H Hf IH]; intros x Hx; [destruct Hx|]. destruct Hx as [<-|Hx]; [exists e; split; [left; reflexivity|exact H]|]. destruct (IH x Hx) as [y [Y1 Y2]]. exists y. split; [right; exact Y1|exact Y2]. }
      destruct C as [C|C]; [left; intros e' He'; destruct (Hin e' He') as [e [E1 [_ E2]]]; apply E2, C, E1|]. right. intros e e' t He He' Ht. destruct (Hin e He) as [x [X1 [X2 _]]]. destruct (Hin e' He') as [y [Y1 [Y2 _]]]. unfold starts, ends in *. rewrite X2. rewrite Y2 in Ht. apply (C x y); assumption. }
  destruct (level_step l' Hlev') as [s' [E [L1 [L2 [L3 L4]]]]]. rewrite E. cbn [bind]. exists (Sub s'). split; [reflexivity|]. split; [|split; [|exact I]].
  - intros at_ c n. 
    assert (Ht : forall s, (played (Sub s) at_ c n == total s c (n - at_))%Q).
    { intros s. cbn [played]. unfold total. apply qsum_map_ext. intros [[k t] x] _. cbn [oper snd abs fst]. pose proof (played_shift x t at_ c (n - at_)) as Q. replace (n - at_ + at_) with n in Q by lia. rewrite <- Q. replace (t + at_) with (at_ + t) by lia. reflexivity. }
    rewrite !Ht. rewrite L2. unfold total. clear -Hf. induction Hf as [|e e' l l' [H1 [H2 [H3 _]]] Hf IH]; [reflexivity|]. cbn [map qsum]. rewrite IH, H2, (H3 (abs e) c (n - at_)). reflexivity.
  - cbn [no_overlap]. split; [exact L4|].
    assert (Hall : forall e, In e s' -> no_overlap (oper e)).
    { intros e He. destruct (first_pulse (oper e)) as [p|] eqn:Ep; [destruct (oper e); [exact I|discriminate|exact I]|].
      assert (In e (filter (fun e => match first_pulse (oper e) with Some _ => false | None => true end) s')) as Hi by (apply filter_In; rewrite Ep; auto). rewrite L3 in Hi. apply filter_In in Hi. destruct Hi as [Hi _]. clear -Hi Hf. induction Hf as [|x e' l l' [_ [_ [_ [H _]]]] Hf IH]; [destruct Hi|]. destruct Hi as [<-|Hi]; [exact H|auto]. }
    clear -Hall. induction s' as [|[[k t] x] s' IH]; [exact I|]. cbn. split; [exact (Hall (k, t, x) (or_introl eq_refl))|]. apply IH. intros e He. apply Hall. right. exact He.
Qed.
End Ord.

(** ** C30 *)
Lemma C30_0 : forall ord, (forall l, Permutation (ord l) l) -> forall s, op_ok (Sub s) ->
  exists s', stack_pulses ord s = Ok s' /\ (forall c n, (total s' c n == total s c n)%Q) /\ no_overlap (Sub s').
Proof.
  intros ord Hord s Hok. destruct (stack_op_ok ord Hord (Sub s) Hok) as [o [E [H1 [H2 H3]]]]. destruct o as [|l|]; try discriminate. exists l. unfold stack_pulses. rewrite E. cbn [bind]. split; [reflexivity|]. split; [|exact H2].
  intros c n. assert (forall s, (total s c n == played (Sub s) 0 c n)%Q) as T by (intros x; cbn [played]; unfold total; apply qsum_map_ext; intros [[k t] y] _; cbn; reflexivity). rewrite !T. apply H1.
Qed.

(** Partial: [op_ok] asks for one pulse_info per operation, no reference magnitude and, unless all pulses of the port-clock are square, that nothing begins or ends
    1 ns before the end of a pulse; without each of these the statement is false (refutations below). *)
Theorem C30_stacking_partial : forall ord, (forall l, Permutation (ord l) l) -> forall s, op_ok (Sub s) ->
  exists s', stack_pulses ord s = Ok s' /\ (forall c n, (total s' c n == total s c n)%Q) /\ no_overlap (Sub s').
Proof. exact C30_0. Qed.
Print Assumptions C30_stacking_partial.

Definition sq (c t d : Z) (a : Q) : pulse := {| pc := c; t0 := t; dur := d; sh := Square a; refm := None |}.
Definition wv (c : Z) (w : list Q) : pulse := {| pc := c; t0 := 0; dur := Z.of_nat (List.length w); sh := Wave w; refm := None |}.
(** Non-vacuity: overlapping squares on port-clock 0, an overlap of a square and an arbitrary pulse on port-clock 1 in a nested schedule *)
Example C30_example : let s := [(1, 0, Pulses [sq 0 0 20 (1#2)]); (2, 0, Pulses [sq 0 12 20 (3#10)]); (3, 100, Sub [(1, 0, Pulses [sq 1 0 4 1]); (2, 2, Pulses [wv 1 [1%Q; 2%Q; 3%Q; 4%Q]])])] in
  op_ok (Sub s) /\ stack_pulses (fun l => l) s = Ok [(3, 100, Sub [(3, 0, Pulses [sq 1 0 2 1]); (4, 2, Pulses [{| pc := 1; t0 := 0; dur := 2; sh := Wave [2%Q; 3%Q]; refm := None |}]);
        (5, 4, Pulses [{| pc := 1; t0 := 0; dur := 2; sh := Wave [3%Q; 4%Q]; refm := None |}])]); (4, 0, Pulses [sq 0 0 12 (1#2)]); (5, 12, Pulses [sq 0 0 8 (16#20)]); (6, 20, Pulses [sq 0 0 12 (3#10)])].
Proof.
  cbn zeta. split; [|vm_compute; reflexivity].
  cbn [op_ok fold_right]. split; [|split; [exact I|split; [exact I|split; [|exact I]]]].
  - split; [|split].
    + cbn. repeat constructor; cbn; intuition congruence.
    + repeat constructor; cbn; lia.
    + intros c. left. intros e He. unfold on in He. apply filter_In in He. destruct He as [[<-|[<-|[<-|[]]]] _]; cbn; auto.
  - split; [split; [|split]|repeat split].
    + cbn. repeat constructor; cbn; intuition congruence.
    + repeat constructor; cbn; lia.
    + intros c. right. intros e e' t He He' Ht Hs. apply filter_In in He, He'. destruct He as [He _], He' as [He' _]. destruct He as [<-|[<-|[]]]; destruct He' as [<-|[<-|[]]]; cbn in Ht, Hs |- *; lia.
Qed.

(** A pulse that begins 1 ns before the end of a non-square pulse: the last sample is played twice, the new pulses overlap. *)
Theorem C30_end_minus_one_refuted : exists s s' c n, stack_pulses (fun l => l) s = Ok s' /\ ~ (total s' c n == total s c n)%Q /\ List.length (playing c n s') = 2%nat.
Proof.
  exists [(1, 0, Pulses [wv 0 [1%Q; 2%Q; 3%Q; 4%Q]]); (2, 3, Pulses [sq 0 0 4 (1#2)])]. eexists. exists 0, 3. split; [vm_compute; reflexivity|]. split; [vm_compute; discriminate|vm_compute; reflexivity].
Qed.
Print Assumptions C30_end_minus_one_refuted.

(** Two pulses ending together and a third one beginning 1 ns earlier: compilation fails with a shape mismatch. *)
Theorem C30_shape_mismatch_refuted : exists s, stack_pulses (fun l => l) s = Err ValueError /\ Forall good s.
Proof.
  exists [(1, 0, Pulses [wv 0 [1%Q; 2%Q; 3%Q; 4%Q]]); (2, 0, Pulses [wv 0 [1%Q; 2%Q; 3%Q; 4%Q]]); (3, 3, Pulses [sq 0 0 4 (1#2)])]. split; [vm_compute; reflexivity|]. repeat constructor; cbn; lia.
Qed.
Print Assumptions C30_shape_mismatch_refuted.

(** An operation with two pulses (the second on another port): its amplitude is added to the first port and the second port goes silent. *)
Theorem C30_two_pulses_refuted : exists s s', stack_pulses (fun l => l) s = Ok s' /\ ~ (total s' 0 0 == total s 0 0)%Q /\ ~ (total s' 1 0 == total s 1 0)%Q.
Proof.
  exists [(1, 0, Pulses [sq 0 0 20 (1#2); sq 1 0 20 (1#4)]); (2, 10, Pulses [sq 0 0 20 (1#2)])]. eexists. split; [vm_compute; reflexivity|]. split; vm_compute; discriminate.
Qed.
Print Assumptions C30_two_pulses_refuted.

(** Reference magnitudes are not taken into account: the first one is used for the sum, or none. *)
Theorem C30_reference_magnitude_refuted : exists s s', stack_pulses (fun l => l) s = Ok s' /\ ~ (total s' 0 10 == total s 0 10)%Q.
Proof.
  exists [(1, 0, Pulses [{| pc := 0; t0 := 0; dur := 20; sh := Square (1#2); refm := Some 2%Q |}]); (2, 10, Pulses [sq 0 0 20 (1#2)])]. eexists. split; [vm_compute; reflexivity|]. vm_compute; discriminate.
Qed.
Print Assumptions C30_reference_magnitude_refuted.
