(** Each port on its own: what the walk over its neighbours leaves for its clocks. *)
From Verif Require Import Base CircModel CircProps CircProps5 PathModel PathStr PathSpec PathProps PathProps2 PathProps3.
From Coq Require Import Ascii Lia Permutation.
Open Scope string_scope.
Open Scope list_scope.
Open Scope Z_scope.

Fixpoint iter_add (n : nat) (q : path) (ch : string) : path := match n with O => q | S k => iter_add k (add_meas q ch) ch end.
(** the paths of a port by cluster, [n] being its number of clocks *)
Definition lstep (hw : dict hwdesc) (E : list (string * string)) (n : nat) (L : dict path) (nbr : string) : result (dict path) :=
  if is_path hw nbr then
    do p <- from_path nbr;
    match L with
    | [] => Ok [(p_cl p, p)]
    | [(c, q)] => if String.eqb (p_cl p) c && String.eqb (p_mod p) (p_mod q) then Ok [(c, iter_add n q (p_ch p))] else Err ValueError
    | _ => Err ValueError
    end
  else match before_last nbr with
       | None => Ok L
       | Some x => do r <- mixer_ends hw E x; let '(mp, _) := r in do p <- from_path mp; Ok (put L (p_cl p) p)
       end.
Definition lport hw E (n : nat) (port : string) : result (dict path) := if memb port (nodes E) then foldM (lstep hw E n) (neighbors E port) [] else Err KeyError.

Definition entry : Type := string * (list string * dict path).
Definition Cells (st : state) (loc : string -> string -> nat) (e : entry) : Prop :=
  forall c, match get (snd (snd e)) c with
            | Some p => nth_error (heap st) (loc (fst e) c) = Some p /\ p_cl p = c /\ forall k, In k (fst (snd e)) -> get2 (pcs st) c (pc_key (fst e) k) = Some (loc (fst e) c)
            | None => forall k, In k (fst (snd e)) -> get2 (pcs st) c (pc_key (fst e) k) = None
            end.
Record R (hw : dict hwdesc) (st : state) (done : list entry) (loc : string -> string -> nat) : Prop := {
  r_cells : forall e, In e done -> Cells st loc e;
  r_inj : forall e e' c c' p p', In e done -> In e' done -> get (snd (snd e)) c = Some p -> get (snd (snd e')) c' = Some p' -> loc (fst e) c = loc (fst e') c' -> fst e = fst e' /\ c = c';
  r_keys : forall c key l, get2 (pcs st) c key = Some l -> exists e k, In e done /\ In k (fst (snd e)) /\ key = pc_key (fst e) k;
  r_cl : map fst (pcs st) = map fst (clusters hw);
  r_lo : map fst (los st) = map fst (clusters hw);
  r_nodup : forall e, In e done -> NoDup (map fst (snd (snd e)));
  r_sub : forall e c p, In e done -> get (snd (snd e)) c = Some p -> In c (map fst (clusters hw)) }.
(** different port-clock combinations have different names *)
Definition KeysInj (done : list entry) : Prop := NoDup (map fst done) /\ forall e e' k k', In e done -> In e' done -> In k (fst (snd e)) -> In k' (fst (snd e')) -> pc_key (fst e) k = pc_key (fst e') k' -> fst e = fst e' /\ k = k'.

(** ** The loop over the clusters *)
Definition inner (key : string) (loc : nat) : list path * bool -> string * dict nat -> result (list path * bool) :=
  fun '(h, rep) '(_, d) =>
    match get d key with
    | None => Ok (h, rep)
    | Some l => match nth_error h loc, nth_error h l with
                | Some p, Some q => if String.eqb (p_cl p) (p_cl q) && String.eqb (p_mod p) (p_mod q) then Ok (set_nth h l (add_meas q (p_ch p)), true) else Err ValueError
                | _, _ => Err OtherErr
                end
    end.
Lemma direct_clock_eq port loc st clock : direct_clock port loc st clock =
  (do r <- foldM (inner (pc_key port clock) loc) (pcs st) (heap st, false);
   let '(h, rep) := r in
   if (rep : bool) then Ok {| heap := h; pcs := pcs st; los := los st |}
   else match nth_error h loc with
        | Some p => do d <- put2 (pcs st) (p_cl p) (pc_key port clock) loc; Ok {| heap := h; pcs := d; los := los st |}
        | None => Err OtherErr
        end).
Proof. reflexivity. Qed.
Lemma inner_none key loc ds : forall hr, (forall c d, In (c, d) ds -> get d key = None) -> foldM (inner key loc) ds hr = Ok hr.
Proof. induction ds as [|(c, d) ds IH]; cbn [foldM]; intros (h, r) hd; auto. cbn [inner]. rewrite (hd c d (or_introl eq_refl)). cbn. apply IH. intros; eapply hd; right; eauto. Qed.
Lemma get2_in {A} (d : dict (dict A)) c e k : NoDup (map fst d) -> In (c, e) d -> get2 d c k = get e k.
Proof. intros nd h. unfold get2. now rewrite (in_get _ _ _ nd h). Qed.
Lemma foldM_app' {A B} (f : B -> A -> result B) l m b : foldM f (l ++ m) b = (do b' <- foldM f l b; foldM f m b').
Proof. revert b; induction l as [|x l IH]; cbn; intros b; auto. destruct (f b x); cbn; auto. Qed.
Lemma inner_one key loc ds c0 l h p q : NoDup (map fst ds) -> get2 ds c0 key = Some l -> (forall c, c <> c0 -> get2 ds c key = None) -> nth_error h loc = Some p -> nth_error h l = Some q ->
  foldM (inner key loc) ds (h, false) = if String.eqb (p_cl p) (p_cl q) && String.eqb (p_mod p) (p_mod q) then Ok (set_nth h l (add_meas q (p_ch p)), true) else Err ValueError.
Proof. intros nd g go e1 e2. assert (H : exists d, In (c0, d) ds). { unfold get2 in g. destruct (get ds c0) as [d|] eqn:D; [|discriminate]. apply get_in in D. eauto. }
  destruct H as (d & H). pose proof (get2_in _ _ _ key nd H) as gd. apply in_split in H as (a & b & ->).
  assert (O : forall c d', In (c, d') (a ++ b) -> get d' key = None). { intros c d' hi. assert (c <> c0). { rewrite map_app in nd. cbn in nd. intros ->. apply NoDup_remove_2 in nd. apply nd. rewrite <- map_app. apply in_map_iff. now exists (c0, d'). } rewrite <- (get2_in _ c d' key nd); [apply go; auto|]. apply in_app_or in hi as [hi|hi]; apply in_or_app; cbn; auto. }
  rewrite foldM_app', inner_none by (intros; eapply O; apply in_or_app; eauto). cbn [bind foldM]. cbn [inner]. rewrite <- gd, g, e1, e2. destruct (_ && _)%bool; [|reflexivity]. cbn [bind]. apply inner_none. intros; eapply O; apply in_or_app; eauto. Qed.
(** same cluster and module as before *)
Definition Frame (h h' : list path) : Prop := forall l p, nth_error h l = Some p -> exists p', nth_error h' l = Some p' /\ p_cl p' = p_cl p /\ p_mod p' = p_mod p.
Lemma inner_err key loc ds c l p q : forall hr, In c (map fst ds) -> NoDup (map fst ds) -> get2 ds c key = Some l -> nth_error (fst hr) loc = Some p -> nth_error (fst hr) l = Some q -> (p_cl p <> p_cl q \/ p_mod p <> p_mod q) -> exists e, foldM (inner key loc) ds hr = Err e.
Proof. revert p q; induction ds as [|(c', d) ds IH]; intros p q (h, r) hc nd g e1 e2 ne; [destruct hc|]. cbn [foldM]. destruct (string_dec c' c) as [->|n].
  - unfold get2 in g. cbn [get] in g. rewrite String.eqb_refl in g. cbn [inner]. rewrite g. cbn [fst] in e1, e2. rewrite e1, e2. destruct (String.eqb_spec (p_cl p) (p_cl q)); [destruct (String.eqb_spec (p_mod p) (p_mod q)); [tauto|]|]; cbn; eauto.
  - destruct (inner key loc (h, r) (c', d)) as [hr'|ex] eqn:I; [|cbn; eauto]. cbn [bind]. cbn [map] in hc, nd. inversion nd; subst. destruct hc as [hc|hc]; [easy|]. assert (g' : get2 ds c key = Some l). { unfold get2 in *. cbn [get] in g. destruct (String.eqb_spec c' c); [easy|auto]. }
    cbn [inner] in I. cbn [fst] in *. destruct (get d key) as [l'|]; [|inversion I; subst; eapply IH; eauto]. rewrite e1 in I. destruct (nth_error h l') as [q'|] eqn:N; [|discriminate]. destruct (_ && _)%bool; [|discriminate]. inversion I; subst hr'; clear I.
    assert (F : Frame h (set_nth h l' (add_meas q' (p_ch p)))). { intros k x hx. rewrite set_nth_get. destruct (Nat.eqb_spec l' k) as [->|]; [|eauto]. rewrite hx. eexists; split; [reflexivity|]. rewrite N in hx. inversion hx; subst. pose proof (add_meas_same x (p_ch p)) as (s1 & s2 & _). auto. }
    destruct (F _ _ e1) as (p' & a1 & a2 & a3). destruct (F _ _ e2) as (q'' & b1 & b2 & b3). eapply IH; [exact hc|auto|exact g'|exact a1|exact b1|rewrite a2, a3, b2, b3; auto]. Qed.

Lemma get2_cluster {A} (d : dict (dict A)) c k l : get2 d c k = Some l -> In c (map fst d).
Proof. unfold get2. destruct (get d c) eqn:D; [|discriminate]. apply get_in in D. intros _. apply in_map_iff. eexists; split; [|exact D]; auto. Qed.
Lemma put2_total d c k v : In c (map fst d) -> exists d', put2 d c k v = Ok d'.
Proof. unfold put2. intros h. apply in_map_iff in h as ((c', e) & eq & h). cbn in eq; subst. destruct (get d c) eqn:D; [eauto|]. exfalso. clear - h D. induction d as [|(k', w) d IH]; [destruct h|]. cbn [get] in D. destruct (String.eqb_spec k' c); [discriminate|]. destruct h as [e'|h]; [inversion e'; congruence|auto]. Qed.

(** ** A port wired to a first channel *)
Lemma direct_first port p clks : forall st, NoDup (map fst (pcs st)) -> In (p_cl p) (map fst (pcs st)) -> NoDup clks -> (forall c k, In k clks -> get2 (pcs st) c (pc_key port k) = None) -> forall loc, nth_error (heap st) loc = Some p ->
  exists d, foldM (direct_clock port loc) clks st = Ok {| heap := heap st; pcs := d; los := los st |} /\ map fst d = map fst (pcs st) /\
    (forall c key, get2 d c key = if String.eqb (p_cl p) c && existsb (fun k => String.eqb (pc_key port k) key) clks then Some loc else get2 (pcs st) c key).
Proof. induction clks as [|k clks IH]; intros st nd hc nk hn loc hl.
  - exists (pcs st). split; [destruct st; reflexivity|]. split; auto. intros; cbn. now rewrite andb_false_r.
  - cbn [foldM]. rewrite direct_clock_eq, inner_none by (intros c d hi; rewrite <- (get2_in _ c d _ nd hi); apply hn; left; auto). cbn [bind]. rewrite hl. destruct (put2_total (pcs st) (p_cl p) (pc_key port k) loc hc) as (d & hd). rewrite hd. cbn [bind].
    pose proof (put2_spec _ _ _ _ _ hd) as (s1 & s2). inversion nk; subst.
    destruct (IH {| heap := heap st; pcs := d; los := los st |}) with (loc := loc) as (d' & e1 & e2 & e3); cbn [heap pcs los] in *; auto; try (rewrite s1; auto).
    + intros c k' hk. rewrite s2. destruct (String.eqb_spec (pc_key port k) (pc_key port k')) as [e|]; [apply key_inj_clock in e; subst; easy|]. rewrite andb_false_r. apply hn. right; auto.
    + exists d'. split; [exact e1|]. split; [congruence|]. intros c key. rewrite e3, s2. cbn [existsb]. destruct (String.eqb (p_cl p) c), (String.eqb (pc_key port k) key); cbn; auto. now destruct (existsb _ clks). Qed.
(** ** A port wired to a further channel *)
Lemma set_nth_same {A} (l : list A) n x y : nth_error l n = Some x -> set_nth (set_nth l n y) n x = l.
Proof. revert n; induction l as [|z l IH]; intros [|n]; cbn; intros h; try discriminate; [now inversion h|]. now rewrite IH. Qed.
Lemma set_nth_twice {A} (l : list A) n x y : set_nth (set_nth l n y) n x = set_nth l n x.
Proof. revert n; induction l as [|z l IH]; intros [|n]; cbn; auto. now rewrite IH. Qed.
Lemma set_nth_id {A} (l : list A) n x : nth_error l n = Some x -> set_nth l n x = l.
Proof. revert n; induction l as [|z l IH]; intros [|n]; cbn; intros h; try discriminate; [now inversion h|]. now rewrite IH. Qed.
Lemma direct_more port p c0 l clks loc : forall st q, NoDup (map fst (pcs st)) -> loc <> l -> (forall k, In k clks -> get2 (pcs st) c0 (pc_key port k) = Some l) -> (forall c k, c <> c0 -> In k clks -> get2 (pcs st) c (pc_key port k) = None) ->
  nth_error (heap st) loc = Some p -> nth_error (heap st) l = Some q -> p_cl p = p_cl q -> p_mod p = p_mod q ->
  foldM (direct_clock port loc) clks st = Ok {| heap := set_nth (heap st) l (iter_add (List.length clks) q (p_ch p)); pcs := pcs st; los := los st |}.
Proof. induction clks as [|k clks IH]; intros st q nd hne hk ho hp hq e1 e2.
  - cbn. rewrite set_nth_id; auto. destruct st; auto.
  - cbn [foldM]. rewrite direct_clock_eq. rewrite (inner_one _ _ _ c0 l _ p q nd (hk k (or_introl eq_refl)) (fun c n => ho c k n (or_introl eq_refl)) hp hq). rewrite e1, e2, !String.eqb_refl. cbn [andb bind].
    pose proof (add_meas_same q (p_ch p)) as (a1 & a2 & _).
    rewrite (IH {| heap := set_nth (heap st) l (add_meas q (p_ch p)); pcs := pcs st; los := los st |} (add_meas q (p_ch p))); cbn [heap pcs los]; auto; try congruence.
    + cbn. now rewrite set_nth_twice.
    + intros; apply hk; right; auto.
    + intros; apply ho; [auto|right; auto].
    + rewrite set_nth_get. destruct (Nat.eqb_spec l loc); [congruence|auto].
    + rewrite set_nth_get, Nat.eqb_refl, hq. auto. Qed.
