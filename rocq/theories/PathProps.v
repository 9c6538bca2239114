(** Every path object belongs to one port and names channels wired to that port. *)
From Verif Require Import Base CircModel CircProps CircProps5 PathModel PathStr PathSpec.
From Coq Require Import Ascii DecimalString Lia.
Open Scope string_scope.
Open Scope list_scope.
Open Scope Z_scope.

Lemma lacks_absent c s : Lacks c s <-> absent c s.
Proof. unfold Lacks. induction s as [|x s IH]; cbn; [tauto|]. rewrite <- IH. intuition congruence. Qed.

(** ** Slots *)
Lemma digits_acc u : forall a, digits (Zpos a) (NilEmpty.string_of_uint u) = Some (Zpos (Pos.of_uint_acc u a)).
Proof. induction u; intros a; [reflexivity|..]; cbn [NilEmpty.string_of_uint Pos.of_uint_acc digits];
  (match goal with |- match digit ?c with _ => _ end = _ => let d := eval vm_compute in (digit c) in change (digit c) with d end); cbv iota beta; rewrite <- IHu; f_equal; lia. Qed.
Lemma digits_uint u : digits 0 (NilEmpty.string_of_uint u) = Some (Z.of_uint u).
Proof. unfold Z.of_uint. change N.of_uint with Pos.of_uint. induction u; [reflexivity|exact IHu|..]; cbn [NilEmpty.string_of_uint Pos.of_uint digits];
  (match goal with |- match digit ?c with _ => _ end = _ => let d := eval vm_compute in (digit c) in change (digit c) with d end); cbv iota beta; match goal with |- digits ?z _ = _ => let z' := eval vm_compute in z in change z with z' end; apply digits_acc. Qed.
Lemma drop_uint u : drop_module 0 (NilEmpty.string_of_uint u) = NilEmpty.string_of_uint u.
Proof. induction u; [reflexivity|..]; simpl; now rewrite IHu. Qed.
Lemma slot_of m i : py_int (drop_module 0 m) = Ok i -> Slot m i.
Proof. intros h u n ->. assert (e : drop_module 0 ("module" ++ NilEmpty.string_of_uint u)%string = NilEmpty.string_of_uint u) by (rewrite <- (drop_uint u) at 2; cbn; destruct (NilEmpty.string_of_uint u); reflexivity).
  rewrite e in h. unfold py_int in h. rewrite digits_uint in h. destruct (NilEmpty.string_of_uint u); [discriminate|]. now inversion h. Qed.

(** ** Nodes *)
Lemma clusters_in hw c m : In (c, m) (clusters hw) <-> In (c, HCluster m) hw.
Proof. unfold clusters. rewrite in_flat_map. split.
  - intros ((n, d) & h & h'). destruct d; cbn in h'; [|easy|easy]. destruct h' as [e|[]]. now inversion e; subst.
  - intros h. eexists; split; [exact h|]. cbn; auto. Qed.
Lemma lo_names_in hw n : In n (lo_names hw) <-> In (n, HLO) hw.
Proof. unfold lo_names. rewrite in_flat_map. split.
  - intros ((n', d) & h & h'). destruct d; cbn in h'; [easy| |easy]. destruct h' as [e|[]]. now subst.
  - intros h. eexists; split; [exact h|]. cbn; auto. Qed.
Lemma first_part_spec n c : first_part n = c <-> Lacks "." c /\ (n = c \/ exists r, n = (c ++ "." ++ r)%string).
Proof. rewrite lacks_absent. unfold first_part. split.
  - intros <-. destruct (split_on "." n) as [|a l] eqn:D; [now destruct (split_nonempty "." n)|]. cbn. apply split_cons in D as (h & [(-> & ->)|(t & -> & h')]); split; auto. right; exists t; reflexivity.
  - intros (h & [->|(r & ->)]); [now rewrite split_absent|]. change ("." ++ r)%string with (String "." r). rewrite split_app, split_absent; auto. Qed.
Lemma is_path_spec hw n : is_path hw n = true <-> OfCluster hw n.
Proof. unfold is_path. rewrite existsb_exists. split.
  - intros ((c, m) & h & e). apply String.eqb_eq in e. symmetry in e. apply first_part_spec in e as (h1 & h2). apply clusters_in in h. now exists c, m.
  - intros (c & m & h & h1 & h2). exists (c, m). rewrite clusters_in; split; auto. apply String.eqb_eq. symmetry. apply first_part_spec; auto. Qed.
Lemma is_path_false hw n : is_path hw n = false <-> ~ OfCluster hw n.
Proof. rewrite <- is_path_spec. destruct (is_path hw n); intuition congruence. Qed.
Lemma from_path_inv n p : from_path n = Ok p -> split_on "." n = [p_cl p; p_mod p; p_ch p] /\ p_meas p = None /\ py_int (drop_module 0 (p_mod p)) = Ok (p_idx p).
Proof. unfold from_path. intros h. destruct (split_on "." n) as [|c [|m [|ch [|]]]]; try discriminate. apply bind_inv in h as (i & h & h'). inversion h'; subst; cbn; auto. Qed.
Lemma from_path_channel hw n p : is_path hw n = true -> from_path n = Ok p -> Channel hw n (p_cl p) (p_mod p) (p_ch p).
Proof. intros h e. apply from_path_inv in e as (e & _). pose proof (first_part_split _ _ _ e) as f. apply split_three in e as (-> & h1 & h2 & h3).
  unfold Channel. rewrite !lacks_absent. split; [reflexivity|]. repeat split; auto. unfold is_path in h. rewrite existsb_exists in h. destruct h as ((c, m) & h & e). apply String.eqb_eq in e. rewrite f in e. subst. apply clusters_in in h. eauto. Qed.
Lemma terminal_spec t x : Terminal t x <-> before_last t = Some x.
Proof. unfold Terminal. split.
  - intros (a & -> & h). apply lacks_absent in h. now apply before_last_app.
  - intros h. apply before_last_some in h as (a & -> & h). exists a. now rewrite lacks_absent. Qed.
Lemma mixer_nodes_in E x t : In t (mixer_nodes E x) <-> Terminal t x /\ exists n, Edge E t n.
Proof. unfold mixer_nodes. rewrite filter_In, nodes_in, terminal_spec. unfold Edge. destruct (before_last t); [|intuition congruence]. split.
  - intros (h & e). apply String.eqb_eq in e. subst; auto.
  - intros (e & h). inversion e; subst. split; auto. apply String.eqb_refl. Qed.

(** ** Folds *)
Lemma foldM_inv {A B} (P : B -> Prop) (f : B -> A -> result B) l b b' : foldM f l b = Ok b' -> P b -> (forall b x b', In x l -> P b -> f b x = Ok b' -> P b') -> P b'.
Proof. revert b; induction l as [|x l IH]; cbn; intros b h p s; [inversion h; now subst|]. apply bind_inv in h as (b1 & h1 & h2). eapply IH; eauto. Qed.
Lemma foldM_back {A B} (Le : B -> B -> Prop) (Q P : B -> Prop) (f : B -> A -> result B) l b b' :
  (forall x, Le x x) -> (forall x y z, Le x y -> Le y z -> Le x z) -> (forall x y, Le x y -> Q y -> Q x) ->
  (forall b x b', f b x = Ok b' -> Le b b') -> foldM f l b = Ok b' -> Q b' -> P b -> (forall b x b', In x l -> P b -> f b x = Ok b' -> Q b' -> P b') -> P b'.
Proof. intros R T An M h q. revert b h; induction l as [|x l IH]; cbn; intros b h p s; [inversion h; now subst|]. apply bind_inv in h as (b1 & h1 & h2).
  assert (L : Le b1 b') by (eapply foldM_inv with (P := fun y => Le b1 y); [exact h2|apply R|intros; eapply T; eauto]). eapply IH; eauto. Qed.
Lemma foldM_le {A B} (Le : B -> B -> Prop) (f : B -> A -> result B) l b b' : (forall x, Le x x) -> (forall x y z, Le x y -> Le y z -> Le x z) -> (forall b x b', f b x = Ok b' -> Le b b') -> foldM f l b = Ok b' -> Le b b'.
Proof. intros R T M h. eapply foldM_inv with (P := fun y => Le b y); [exact h|apply R|intros; eapply T; eauto]. Qed.

(** ** Dictionaries of dictionaries *)
Definition get2 {A} (d : dict (dict A)) (c k : string) : option A := match get d c with Some e => get e k | None => None end.
Lemma put_keys {A} (d : dict A) k v w : get d k = Some w -> map fst (put d k v) = map fst d.
Proof. induction d as [|(k', x) d IH]; cbn [get]; [discriminate|]. cbn [put]. destruct (String.eqb_spec k' k); cbn; intros h; [auto|]. now rewrite IH. Qed.
Lemma put2_spec d c k v d' : put2 d c k v = Ok d' -> map fst d' = map fst d /\ (forall c' k', get2 d' c' k' = if String.eqb c c' && String.eqb k k' then Some v else get2 d c' k').
Proof. unfold put2. destruct (get d c) eqn:D; [|discriminate]. intros h; inversion h; subst d'. split; [eapply put_keys; eauto|].
  intros c' k'. unfold get2. rewrite get_put. destruct (String.eqb_spec c c') as [<-|]; cbn; [|auto]. rewrite get_put, D. now destruct (String.eqb k k'). Qed.
Lemma get_in {A} (d : dict A) k v : get d k = Some v -> In (k, v) d.
Proof. induction d as [|(k', w) d IH]; cbn [get]; [discriminate|]. destruct (String.eqb_spec k' k) as [->|]; intros h; [inversion h; left; auto|right; auto]. Qed.
Lemma in_get {A} (d : dict A) k v : NoDup (map fst d) -> In (k, v) d -> get d k = Some v.
Proof. induction d as [|(k', w) d IH]; cbn; [easy|]. intros n. inversion n; subst. intros [e|h]; [inversion e; now rewrite String.eqb_refl|].
  destruct (String.eqb_spec k' k) as [->|]; [|auto]. exfalso. apply H1. apply in_map_iff. now exists (k, v). Qed.

(** ** Invariant *)
Definition PathOk hw E (port : string) (p : path) : Prop :=
  (forall ch, ch = p_ch p \/ (exists l, p_meas p = Some l /\ In ch l) -> Wired hw E port (p_cl p) (p_mod p) ch) /\ py_int (drop_module 0 (p_mod p)) = Ok (p_idx p).
(** the local oscillator is connected to the mixer *)
Definition LOAt hw E (x lo : string) : Prop := exists t n, Terminal t x /\ Edge E t n /\ OfLO hw n lo.
(** ghost state: the port a path object was created for and the mixer, if any *)
Definition ghost := list (string * option string).
(** what the path of a mixer is made from *)
Definition Made hw E (x : string) (p : path) : Prop := Behind hw E x (p_cl p) (p_mod p) (p_ch p) /\ exists mp ml, mixer_ends hw E x = Ok (mp, ml) /\ from_path mp = Ok p.
Definition HeapOk hw E (h : list path) (own : ghost) : Prop :=
  List.length own = List.length h /\
  (forall l p port x, nth_error h l = Some p -> nth_error own l = Some (port, x) -> PathOk hw E port p) /\
  (forall l p port x, nth_error h l = Some p -> nth_error own l = Some (port, Some x) -> AtMixer hw E port x /\ (HasDirect hw E port \/ Made hw E x p)).
Definition KeyOk (used : list (string * string)) (h : list path) (own : ghost) (d : dict (dict nat)) : Prop :=
  forall c key l, get2 d c key = Some l -> exists p port x clock, nth_error h l = Some p /\ nth_error own l = Some (port, x) /\ p_cl p = c /\ In (port, clock) used /\ key = pc_key port clock.
Definition LoOk hw E (used : list (string * string)) (h : list path) (own : ghost) (d : dict (dict nat)) : Prop :=
  forall c lo l, get2 d c lo = Some l -> exists p port x clock, nth_error h l = Some p /\ nth_error own l = Some (port, Some x) /\ p_cl p = c /\ In (port, clock) used /\ LOAt hw E x lo.
Definition Inv hw E used (st : state) (own : ghost) : Prop :=
  map fst (pcs st) = map fst (clusters hw) /\ map fst (los st) = map fst (clusters hw) /\ HeapOk hw E (heap st) own /\ KeyOk used (heap st) own (pcs st) /\ LoOk hw E used (heap st) own (los st).

Lemma set_nth_length {A} (l : list A) n x : List.length (set_nth l n x) = List.length l.
Proof. revert n; induction l; intros [|n]; cbn; auto. Qed.
Lemma set_nth_get {A} (l : list A) n x k : nth_error (set_nth l n x) k = if Nat.eqb n k then match nth_error l k with Some _ => Some x | None => None end else nth_error l k.
Proof. revert n k; induction l as [|y l IH]; intros [|n] [|k]; cbn; auto; try apply IH; now destruct (Nat.eqb n k). Qed.
Lemma add_meas_same p ch : p_cl (add_meas p ch) = p_cl p /\ p_mod (add_meas p ch) = p_mod p /\ p_idx (add_meas p ch) = p_idx p.
Proof. unfold add_meas. destruct (p_meas p); [destruct (memb ch l)|destruct (contains "input" ch)]; cbn; auto. Qed.
(** the channels of a path after an addition: the old ones and the new one *)
Definition Names (p : path) (ch : string) : Prop := ch = p_ch p \/ exists l, p_meas p = Some l /\ In ch l.
Lemma add_meas_names p ch c : Names (add_meas p ch) c <-> Names p c \/ c = ch.
Proof. unfold Names, add_meas. destruct (p_meas p) as [l|] eqn:D.
  - destruct (memb ch l) eqn:M; cbn; rewrite ?D.
    + apply memb_in in M. split; [tauto|]. intros [h| ->]; [auto|right; eauto].
    + split.
      * intros [->|(l' & e & h)]; [auto|]. inversion e; subst. apply in_app_or in h as [h|[->|[]]]; [left; right; eauto|auto].
      * intros [[->|(l' & e & h)]| ->]; [auto| |]; right; eexists; (split; [reflexivity|]); apply in_or_app; [left; congruence|right; cbn; auto].
  - destruct (contains "input" ch); cbn; split.
    + intros [->|(l' & e & h)]; [auto|]. inversion e; subst. destruct h as [->|[]]; auto.
    + intros [[->|(l' & e & h)]| ->]; [auto|discriminate|]. right; eexists; split; [reflexivity|cbn; auto].
    + intros [->|(l' & e & h)]; [auto|]. inversion e; subst. destruct h as [->|[]]; auto.
    + intros [[->|(l' & e & h)]| ->]; [|discriminate|auto]. right; eexists; split; [reflexivity|cbn; auto]. Qed.

Lemma heap_set hw E h own l q ch port x loc p :
  HeapOk hw E h own -> nth_error h l = Some q -> nth_error own l = Some (port, x) -> nth_error h loc = Some p -> nth_error own loc = Some (port, None) -> HasDirect hw E port ->
  p_cl p = p_cl q -> p_mod p = p_mod q -> ch = p_ch p -> HeapOk hw E (set_nth h l (add_meas q ch)) own.
Proof. intros (h1 & h2 & h3) e1 e2 e3 e4 hd e5 e6 ->. pose proof (add_meas_same q (p_ch p)) as (s1 & s2 & s3). split; [now rewrite set_nth_length|]. split.
  - intros l' p' port' x' e e'. rewrite set_nth_get in e. destruct (Nat.eqb_spec l l') as [<-|]; [|eauto]. rewrite e1 in e. inversion e; subst p'. rewrite e2 in e'. inversion e'; subst port' x'.
    destruct (h2 _ _ _ _ e1 e2) as (a & b). destruct (h2 _ _ _ _ e3 e4) as (a' & _). split; [|now rewrite s2, s3]. intros c hc. rewrite s1, s2. apply (add_meas_names q (p_ch p) c) in hc as [hc| ->]; [now apply a|]. rewrite <- e5, <- e6. apply a'. auto.
  - intros l' p' port' x' e e'. rewrite set_nth_get in e. destruct (Nat.eqb_spec l l') as [<-|]; [|eauto]. rewrite e1 in e. inversion e; subst p'. rewrite e2 in e'. inversion e'; subst port' x. destruct (h3 _ _ _ _ e1 e2) as (hm & _). split; [exact hm|left; assumption]. Qed.
Lemma nth_set_cl h l q ch l' p' : nth_error h l = Some q -> nth_error h l' = Some p' -> exists p'', nth_error (set_nth h l (add_meas q ch)) l' = Some p'' /\ p_cl p'' = p_cl p'.
Proof. intros e e'. rewrite set_nth_get. destruct (Nat.eqb_spec l l') as [<-|]; [|eauto]. rewrite e. eexists; split; [reflexivity|]. rewrite e in e'. inversion e'; subst. apply add_meas_same. Qed.
(** clusters of path objects do not change *)
Definition SameCl (h h' : list path) : Prop := forall l p, nth_error h l = Some p -> exists p', nth_error h' l = Some p' /\ p_cl p' = p_cl p.
Lemma samecl_keyok used h h' own d : SameCl h h' -> KeyOk used h own d -> KeyOk used h' own d.
Proof. intros s k c key l e. destruct (k _ _ _ e) as (p & port & x & clock & e1 & e2 & e3 & e4 & e5). destruct (s _ _ e1) as (p' & e1' & e6). exists p', port, x, clock. repeat split; auto. congruence. Qed.
Lemma samecl_look hw E used h h' own d : SameCl h h' -> LoOk hw E used h own d -> LoOk hw E used h' own d.
Proof. intros s k c key l e. destruct (k _ _ _ e) as (p & port & x & clock & e1 & e2 & e3 & e4 & e5). destruct (s _ _ e1) as (p' & e1' & e6). exists p', port, x, clock. repeat split; auto. congruence. Qed.

(** ** Keys are never removed *)
Definition Keys (st : state) (c key : string) : Prop := exists l, get2 (pcs st) c key = Some l.
Definition Le (st st' : state) : Prop := forall c key, Keys st c key -> Keys st' c key.
Definition Clean (st : state) : Prop := forall c key, Keys st c key -> exists x y, split_on "-" key = [x; y].
Lemma le_refl st : Le st st. Proof. intros c k h; auto. Qed.
Lemma le_trans a b c : Le a b -> Le b c -> Le a c. Proof. intros h h' x y k; auto. Qed.
Lemma clean_anti a b : Le a b -> Clean b -> Clean a. Proof. intros h k c key e. eapply k, h, e. Qed.
Lemma put2_mono d c k v d' c' k' l : put2 d c k v = Ok d' -> get2 d c' k' = Some l -> exists l', get2 d' c' k' = Some l'.
Proof. intros h e. apply put2_spec in h as (_ & h). rewrite h. destruct (_ && _)%bool; eauto. Qed.
Lemma direct_clock_le port loc st clock st' : direct_clock port loc st clock = Ok st' -> Le st st'.
Proof. unfold direct_clock. intros h. apply bind_inv in h as ((hh, rep) & _ & h). destruct rep; [inversion h; subst; exact (le_refl _)|].
  destruct (nth_error hh loc); [|discriminate]. apply bind_inv in h as (d & h & h'). inversion h'; subst. intros c k (l & e). eapply put2_mono; eauto. Qed.
Lemma nbr_step_le hw E port clks st n st' : nbr_step hw E port clks st n = Ok st' -> Le st st'.
Proof. unfold nbr_step. intros h. destruct (is_path hw n).
  - apply bind_inv in h as (p & _ & h). apply (foldM_le Le _ _ _ _ le_refl le_trans (direct_clock_le _ _)) in h. exact h.
  - destruct (before_last n); [|inversion h; subst; apply le_refl]. apply bind_inv in h as ((mp, ml) & _ & h). apply bind_inv in h as (p & _ & h). apply bind_inv in h as (lo & _ & h). apply bind_inv in h as (d & h & h'). inversion h'; subst.
    intros c k (l & e). cbn. unfold Keys; cbn. refine (foldM_inv (fun d => exists l, get2 d c k = Some l) _ _ _ _ h _ _); [eauto|]. intros b x b' _ (l' & e') hp. eapply put2_mono; eauto. Qed.
Lemma port_step_le hw E st x st' : port_step hw E st x = Ok st' -> Le st st'.
Proof. unfold port_step. destruct x as (port, clks). destruct (memb port (nodes E)); [|discriminate]. intros h. eapply foldM_le; [apply le_refl|apply le_trans| |exact h]. intros; eapply nbr_step_le; eauto. Qed.

(** ** Preservation *)
Lemma direct_clock_inv hw E used port loc st clock st' own :
  NoDup (map fst (clusters hw)) -> Inv hw E used st own -> nth_error own loc = Some (port, None) -> HasDirect hw E port -> In (port, clock) used ->
  direct_clock port loc st clock = Ok st' -> Clean st' -> Inv hw E used st' own.
Proof. intros nd (i1 & i2 & i3 & i4 & i5) eo hd hu h cl. pose proof (clean_anti _ _ (direct_clock_le _ _ _ _ _ h) cl) as cl0. unfold direct_clock in h. apply bind_inv in h as ((hh, rep) & h1 & h2).
  assert (HH : HeapOk hw E hh own /\ SameCl (heap st) hh).
  { refine (foldM_inv (fun hr => HeapOk hw E (fst hr) own /\ SameCl (heap st) (fst hr)) _ _ _ _ h1 _ _).
    - split; [exact i3|]. intros l p e; eauto.
    - intros (g, r) (c, d) (g', r') hin (a & b) e. cbn [fst] in *. destruct (get d (pc_key port clock)) as [l|] eqn:G; [|inversion e; subst; auto].
      destruct (nth_error g loc) as [p|] eqn:N1; [|discriminate]. destruct (nth_error g l) as [q|] eqn:N2; [|discriminate]. destruct (_ && _)%bool eqn:C; [|discriminate]. inversion e; subst g' r'. apply andb_prop in C as (C1 & C2). apply String.eqb_eq in C1, C2.
      assert (G2 : get2 (pcs st) c (pc_key port clock) = Some l) by (unfold get2; rewrite (in_get _ _ _ ltac:(rewrite i1; exact nd) hin); exact G).
      destruct (i4 _ _ _ G2) as (p' & port' & x & clock' & _ & e2 & _ & _ & e5). destruct (cl0 c (pc_key port clock)) as (u & v & S); [red; eauto|]. destruct (key_inj _ _ _ _ _ _ S e5) as (-> & ->).
      cbn [fst]. split; [exact (heap_set hw E g own l q (p_ch p) _ x loc p a N2 e2 N1 eo hd C1 C2 eq_refl)|]. intros l' p'' e''. destruct (b _ _ e'') as (p3 & e3 & e4). destruct (nth_set_cl g l q (p_ch p) l' p3 N2 e3) as (p4 & e6 & e7). exists p4; split; congruence. }
  destruct HH as (HH & SC). destruct rep.
  - inversion h2; subst; clear h2. unfold Inv; cbn. repeat (split; [assumption|]). split; [eapply samecl_keyok; eauto|eapply samecl_look; eauto].
  - destruct (nth_error hh loc) as [p|] eqn:N; [|discriminate]. apply bind_inv in h2 as (d & h2 & h3). inversion h3; subst; clear h3. unfold Inv; cbn. apply put2_spec in h2 as (k1 & k2).
    split; [congruence|]. split; [auto|]. split; [auto|]. split; [|eapply samecl_look; eauto]. intros c key l e. rewrite k2 in e. destruct (_ && _)%bool eqn:B; [|eapply samecl_keyok; eauto].
    apply andb_prop in B as (B1 & B2). apply String.eqb_eq in B1, B2. inversion e; subst. exists p, port, None, clock. auto. Qed.

Lemma heap_app hw E h own p port x : HeapOk hw E h own -> PathOk hw E port p -> (forall m, x = Some m -> AtMixer hw E port m /\ Made hw E m p) -> HeapOk hw E (h ++ [p]) (own ++ [(port, x)]).
Proof. intros (h1 & h2 & h3) hp hx. split; [rewrite !app_length; cbn; lia|].
  assert (C : forall l p' o, nth_error (h ++ [p]) l = Some p' -> nth_error (own ++ [(port, x)]) l = Some o -> (nth_error h l = Some p' /\ nth_error own l = Some o) \/ (p' = p /\ o = (port, x))).
  { intros l p' o e e'. destruct (Nat.lt_ge_cases l (List.length h)).
    - rewrite nth_error_app1 in e, e' by lia. auto.
    - rewrite nth_error_app2 in e, e' by lia. rewrite h1 in e'. destruct (l - List.length h)%nat as [|k]; cbn in *; [inversion e; inversion e'; auto|destruct k; discriminate]. }
  split.
  - intros l p' port' x' e e'. destruct (C _ _ _ e e') as [(a & b)|(a & b)]; [eauto|]. inversion b; subst; auto.
  - intros l p' port' x' e e'. destruct (C _ _ _ e e') as [(a & b)|(a & b)]; [eauto|]. inversion b; subst. destruct (hx _ eq_refl); auto. Qed.
Lemma nth_app_some {A} (l m : list A) k x : nth_error l k = Some x -> nth_error (l ++ m) k = Some x.
Proof. intros h. rewrite nth_error_app1; auto. apply nth_error_Some. congruence. Qed.
Lemma nth_app_last {A} (l : list A) x n : n = List.length l -> nth_error (l ++ [x]) n = Some x.
Proof. intros ->. rewrite nth_error_app2, Nat.sub_diag; auto. Qed.
Lemma keyok_app used h own d p o : KeyOk used h own d -> KeyOk used (h ++ [p]) (own ++ [o]) d.
Proof. intros k c key l e. destruct (k _ _ _ e) as (p' & port & x & clock & e1 & e2 & e3). exists p', port, x, clock. split; [now apply nth_app_some|]. split; [now apply nth_app_some|auto]. Qed.
Lemma look_app hw E used h own d p o : LoOk hw E used h own d -> LoOk hw E used (h ++ [p]) (own ++ [o]) d.
Proof. intros k c key l e. destruct (k _ _ _ e) as (p' & port & x & clock & e1 & e2 & e3). exists p', port, x, clock. split; [now apply nth_app_some|]. split; [now apply nth_app_some|auto]. Qed.

Lemma mixer_ends_spec hw E x mp ml : mixer_ends hw E x = Ok (mp, ml) -> is_path hw mp = true /\ (exists t, Terminal t x /\ Edge E t mp) /\ LOAt hw E x ml.
Proof. unfold mixer_ends. intros h. apply bind_inv in h as ((a, b) & h & h'). destruct a as [a|]; [|discriminate]. destruct b as [b|]; [|discriminate]. inversion h'; subst; clear h'.
  pose (P := fun r : option string * option string => (forall a, fst r = Some a -> is_path hw a = true /\ exists t, Terminal t x /\ Edge E t a) /\ (forall b, snd r = Some b -> LOAt hw E x b)).
  assert (H : P (Some mp, Some ml)).
  { refine (foldM_inv P _ _ _ _ h _ _); [split; cbn; discriminate|]. intros (u, v) n (u', v') hin (p1 & p2) e. cbn in p1, p2. apply in_flat_map in hin as (t & h1 & h2). apply mixer_nodes_in in h1 as (h1 & _). apply neighbors_in in h2.
    destruct (is_path hw n) eqn:I.
    - inversion e; subst. split; cbn; [|auto]. intros a ea; inversion ea; subst. split; auto. exists t; auto.
    - destruct (is_lo_port hw n) eqn:J; [|inversion e; subst; split; auto]. destruct (before_last n) as [w|] eqn:B; [|discriminate]. inversion e; subst. split; cbn; [auto|]. intros b0 eb; inversion eb; subst.
      exists t, n. split; [auto|split; [exact h2|]]. unfold OfLO. split.
      + unfold is_lo_port in J. apply memb_in in J. apply lo_names_in in J. exists (first_part n). split; [auto|]. destruct (proj1 (first_part_spec n _) eq_refl) as (q1 & q2). split; [exact q1|].
        destruct q2 as [q2|q2]; [|exact q2]. exfalso. rewrite <- q2 in q1. apply lacks_absent, before_last_absent in q1. congruence.
      + now apply terminal_spec. }
  destruct H as (p1 & p2). cbn in p1, p2. destruct (p1 _ eq_refl). auto. Qed.

Lemma from_path_names hw E port n p : is_path hw n = true -> Edge E port n -> from_path n = Ok p -> PathOk hw E port p.
Proof. intros h1 h2 h3. pose proof (from_path_channel _ _ _ h1 h3) as hc. apply from_path_inv in h3 as (_ & h3 & h4). split; [|auto]. intros ch [->|(l & e & _)]; [|congruence]. left. exists n; auto. Qed.

Lemma optical_in x clks c : optical_clock x clks = Some c -> In c clks.
Proof. unfold optical_clock. destruct (flat_map _ _) as [|c' l] eqn:D; [discriminate|]. intros h; inversion h; subst. assert (H : In c (c :: l)) by (left; auto). rewrite <- D in H. apply in_flat_map in H as ((mp, cp) & _ & H). destruct (contains mp x); [|destruct H]. apply filter_In in H. tauto. Qed.

Lemma nbr_step_inv hw E used port clks st n st' own :
  NoDup (map fst (clusters hw)) -> Inv hw E used st own -> Edge E port n -> clks <> [] -> (forall c, In c clks -> In (port, c) used) -> nbr_step hw E port clks st n = Ok st' -> Clean st' -> exists own', Inv hw E used st' own'.
Proof. intros nd I he ne hu h cl. unfold nbr_step in h. destruct (is_path hw n) eqn:D.
  - apply bind_inv in h as (p & h1 & h2). exists (own ++ [(port, None)]). destruct I as (i1 & i2 & i3 & i4 & i5).
    assert (hd : HasDirect hw E port) by (exists n; split; auto; now apply is_path_spec).
    refine (foldM_back Le Clean (fun s => Inv hw E used s (own ++ [(port, None)])) _ _ _ _ le_refl le_trans clean_anti (direct_clock_le _ _) h2 cl _ _).
    + unfold Inv; cbn. split; auto. split; auto. split; [apply heap_app; auto; [eapply from_path_names; eauto|discriminate]|]. split; [now apply keyok_app|now apply look_app].
    + intros b c b' hin ib e cb. eapply direct_clock_inv; eauto. apply nth_app_last. symmetry. apply i3.
  - destruct (before_last n) as [x|] eqn:B; [|inversion h; subst; eauto]. apply bind_inv in h as ((mp, ml) & h1 & h). apply bind_inv in h as (p & h2 & h). apply bind_inv in h as (lo & h3 & h). apply bind_inv in h as (d & h4 & h). inversion h; subst; clear h.
    assert (MD : exists mp' ml', mixer_ends hw E x = Ok (mp', ml') /\ from_path mp' = Ok p) by eauto. apply mixer_ends_spec in h1 as (m1 & (t & m2 & m3) & m4). exists (own ++ [(port, Some x)]). destruct I as (i1 & i2 & i3 & i4 & i5).
    assert (AM : AtMixer hw E port x) by (exists n; split; [now apply terminal_spec|split; [auto|now apply is_path_false]]).
    assert (BH : Behind hw E x (p_cl p) (p_mod p) (p_ch p)) by (exists t, mp; split; [auto|split; [auto|eapply from_path_channel; eauto]]).
    assert (L : List.length own = List.length (heap st)) by apply i3.
    assert (PO : PathOk hw E port p). { pose proof (from_path_inv _ _ h2) as (_ & a & b). split; [|auto]. intros ch [->|(l & e & _)]; [|congruence]. right. exists x; auto. }
    unfold Inv; cbn. apply put2_spec in h3 as (k1 & k2).
    assert (HD : map fst d = map fst (clusters hw) /\ KeyOk used (heap st ++ [p]) (own ++ [(port, Some x)]) d).
    { refine (foldM_inv (fun d => map fst d = map fst (clusters hw) /\ KeyOk used (heap st ++ [p]) (own ++ [(port, Some x)]) d) _ _ _ _ h4 _ _); [split; [auto|now apply keyok_app]|].
      intros b c b' hin (b1 & b2) e. apply put2_spec in e as (e1 & e2). split; [congruence|]. intros c' key l e. rewrite e2 in e. destruct (_ && _)%bool eqn:C; [|auto]. apply andb_prop in C as (C1 & C2). apply String.eqb_eq in C1, C2. inversion e; subst.
      exists p, port, (Some x), (match optical_clock x clks with Some c0 => c0 | None => c end). split; [now apply nth_app_last|]. split; [now apply nth_app_last|]. split; [auto|]. split; [|auto]. apply hu. destruct (optical_clock x clks) eqn:O; [eapply optical_in; eauto|auto]. }
    destruct HD as (HD1 & HD2). split; [auto|]. split; [congruence|]. split.
    { apply heap_app; auto. intros m e; inversion e; subst; split; [auto|split; auto]. }
    split; [auto|]. intros c key l e. rewrite k2 in e. destruct (_ && _)%bool eqn:C; [|now apply (look_app hw E used _ _ _ p (port, Some x) i5)]. apply andb_prop in C as (C1 & C2). apply String.eqb_eq in C1, C2. inversion e; subst.
    destruct clks as [|c0 clks]; [easy|]. exists p, port, x, c0. split; [now apply nth_app_last|]. split; [now apply nth_app_last|]. split; [auto|]. split; [|auto]. apply hu; left; auto. Qed.

(** ** All ports *)
Lemma put_in {A} (d : dict A) k v k' w : In (k', w) (put d k v) -> (k' = k /\ w = v) \/ (In (k', w) d).
Proof. induction d as [|(k0, w0) d IH]; cbn [put]; [intros [e|[]]; inversion e; auto|]. destruct (String.eqb_spec k0 k) as [->|]; cbn; intros [e|h]; [inversion e; auto|auto|auto|]. apply IH in h as [h|h]; auto. Qed.
Lemma p2c_in used port clks : In (port, clks) (port_to_clocks used) -> clks <> [] /\ forall c, In c clks -> In (port, c) used.
Proof. unfold port_to_clocks.
  assert (G : forall l d, (forall p cs, In (p, cs) d -> cs <> [] /\ forall c, In c cs -> In (p, c) used) -> incl l used -> forall p cs, In (p, cs) (fold_left (fun d '(p, c) => put d p (match get d p with Some l => l ++ [c] | None => [c] end)) l d) -> cs <> [] /\ forall c, In c cs -> In (p, c) used).
  { induction l as [|(q, e) l IH]; cbn; intros d hd hl p cs h; [auto|]. eapply IH; [|intros x hx; apply hl; right; exact hx|exact h]. intros p' cs' h'. apply put_in in h' as [(-> & ->)|h']; [|auto].
    assert (In (q, e) used) by (apply hl; left; auto). destruct (get d q) as [l0|] eqn:D.
    - apply get_in in D. destruct (hd _ _ D). split; [destruct l0; discriminate|]. intros c hc. apply in_app_or in hc as [hc|[->|[]]]; auto.
    - split; [discriminate|]. intros c [->|[]]; auto. }
  apply (G used []); [intros p cs []|intros x h; exact h]. Qed.
Lemma port_step_inv hw E used port clks st st' own :
  NoDup (map fst (clusters hw)) -> Inv hw E used st own -> clks <> [] -> (forall c, In c clks -> In (port, c) used) -> port_step hw E st (port, clks) = Ok st' -> Clean st' -> exists own', Inv hw E used st' own'.
Proof. intros nd I ne hu h cl. unfold port_step in h. destruct (memb port (nodes E)); [|discriminate].
  refine (foldM_back Le Clean (fun s => exists o, Inv hw E used s o) _ _ _ _ le_refl le_trans clean_anti _ h cl _ _); [intros; eapply nbr_step_le; eauto|eauto|].
  intros b n b' hin (o & ib) e cb. eapply nbr_step_inv; eauto. now apply neighbors_in. Qed.
Lemma get2_empty {A} (l : dict A) c k : get2 (map (fun '(n, _) => (n, @nil (string * nat))) l) c k = None.
Proof. unfold get2. destruct (get _ c) eqn:D; auto. apply get_in in D. apply in_map_iff in D as ((n, x) & e & _). inversion e; subst. reflexivity. Qed.
Lemma empty_keys {A} (l : dict A) : map fst (map (fun '(n, _) => (n, @nil (string * nat))) l) = map fst l.
Proof. rewrite map_map. apply map_ext. now intros (a, b). Qed.
Theorem all_paths_inv hw E used st : NoDup (map fst (clusters hw)) -> all_paths hw E used = Ok st -> Clean st -> exists own, Inv hw E used st own.
Proof. unfold all_paths. intros nd h cl.
  refine (foldM_back Le Clean (fun s => exists o, Inv hw E used s o) _ _ _ _ le_refl le_trans clean_anti (port_step_le hw E) h cl _ _).
  - exists []. unfold Inv; cbn. rewrite empty_keys. split; [auto|]. split; [auto|]. split; [split; [reflexivity|split; intros [|?]; cbn; discriminate]|]. split; intros c k l0 e; rewrite get2_empty in e; discriminate.
  - intros b (port, clks) b' hin (o & ib) e cb. apply p2c_in in hin as (ne & hu). eapply port_step_inv; eauto. Qed.
