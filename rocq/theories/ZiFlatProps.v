(** Lemmas for C50: dictionaries, and the loop of flatten_schedule. *)
From Verif Require Import Base LibProps ZiModel ZiProps ZiFlat.
From Coq Require Import Permutation Qfield Lqa.
Open Scope Q_scope.

(** * Dictionaries *)
Lemma zget_in {B} (d : list (Z * B)) k v : zget d k = Some v -> In (k, v) d.
Proof. induction d as [|[k' v'] d IH]; cbn [zget]; intros h; [discriminate|]. destruct (Z.eqb_spec k k') as [->|]; [injection h as ->; now left|right; auto]. Qed.
Lemma zget_some {B} (d : list (Z * B)) k v : NoDup (map fst d) -> In (k, v) d -> zget d k = Some v.
Proof. induction d as [|[k' v'] d IH]; cbn [zget map fst]; intros hn h; [destruct h|]. inversion hn as [|? ? n1 n2]; subst. destruct h as [h|h]; [injection h as -> ->; now rewrite Z.eqb_refl|]. destruct (Z.eqb_spec k k') as [->|]; [|auto]. exfalso. apply n1. apply in_map_iff. exists (k', v). auto. Qed.
Lemma zput_get {B} (d : list (Z * B)) k v k' : zget (zput d k v) k' = if Z.eqb k' k then Some v else zget d k'.
Proof. induction d as [|[k1 v1] d IH]; cbn [zput zget]; [destruct (Z.eqb k' k); reflexivity|]. destruct (Z.eqb_spec k k1) as [->|n]; cbn [zget]; [destruct (Z.eqb k' k1); reflexivity|]. destruct (Z.eqb_spec k' k1) as [->|]; [|exact IH]. destruct (Z.eqb_spec k1 k); [congruence|reflexivity]. Qed.
Lemma zput_keys {B} (d : list (Z * B)) k v x : In x (map fst (zput d k v)) <-> x = k \/ In x (map fst d).
Proof. induction d as [|[k1 v1] d IH]; cbn [zput map fst In]; [intuition|]. destruct (Z.eqb_spec k k1) as [->|n]; cbn [map fst In]; [intuition|]. rewrite IH. intuition. Qed.
Lemma zput_nodup {B} (d : list (Z * B)) k v : NoDup (map fst d) -> NoDup (map fst (zput d k v)).
Proof. induction d as [|[k1 v1] d IH]; cbn [zput map fst]; intros h; [repeat constructor; auto|]. inversion h as [|? ? n1 n2]; subst. destruct (Z.eqb_spec k k1) as [->|n]; cbn [map fst]; constructor; auto. rewrite zput_keys. intuition. Qed.
Lemma sput_new {B} (d : list (string * B)) k v : ~ In k (map fst d) -> sput d k v = d ++ [(k, v)].
Proof. induction d as [|[k1 v1] d IH]; cbn [sput map fst In]; intros h; [reflexivity|]. destruct (String.eqb_spec k k1) as [->|n]; [exfalso; apply h; now left|]. cbn [app]. f_equal. apply IH. tauto. Qed.
Lemma sget_none {B} (d : list (string * B)) k : sget d k = None <-> ~ In k (map fst d).
Proof. induction d as [|[k1 v1] d IH]; cbn [sget map fst In]; [intuition|]. destruct (String.eqb_spec k k1) as [->|n]; [split; [discriminate|intros h; exfalso; apply h; now left]|]. rewrite IH. intuition. Qed.
Lemma sget_in' {B} (d : list (string * B)) k v : sget d k = Some v -> In (k, v) d.
Proof. induction d as [|[k1 v1] d IH]; cbn [sget]; intros h; [discriminate|]. destruct (String.eqb_spec k k1) as [->|]; [injection h as ->; now left|right; auto]. Qed.
Lemma sget_mid {B} (l1 l2 : list (string * B)) k v : ~ In k (map fst l1) -> sget (l1 ++ (k, v) :: l2) k = Some v.
Proof. induction l1 as [|[k1 v1] l1 IH]; cbn [sget app map fst In]; intros h; [now rewrite String.eqb_refl|]. destruct (String.eqb_spec k k1) as [->|]; [exfalso; apply h; now left|]. apply IH. tauto. Qed.
Lemma spop_none {B} (l : list (string * B)) k : ~ In k (map fst l) -> spop l k = l.
Proof. induction l as [|[k1 v1] l IH]; cbn [spop filter map fst In]; intros h; [reflexivity|]. destruct (String.eqb_spec k1 k) as [->|]; [exfalso; apply h; now left|]. cbn [negb]. f_equal. apply IH. tauto. Qed.
Lemma spop_app {B} (l1 l2 : list (string * B)) k : spop (l1 ++ l2) k = spop l1 k ++ spop l2 k.
Proof. apply filter_app. Qed.
Lemma spop_mid {B} (l1 l2 : list (string * B)) k v : ~ In k (map fst (l1 ++ l2)) -> spop (l1 ++ (k, v) :: l2) k = l1 ++ l2.
Proof. rewrite map_app, in_app_iff. intros h. rewrite spop_app. cbn [spop filter fst]. rewrite String.eqb_refl. cbn [negb]. change (filter _ l2) with (spop l2 k). rewrite !spop_none; tauto. Qed.
Lemma spops {B} ks : forall l : list (string * B), fold_left spop ks l = filter (fun p => negb (existsb (String.eqb (fst p)) ks)) l.
Proof. induction ks as [|k ks IH]; intros l; cbn [fold_left existsb]; [symmetry; induction l as [|x l IHl]; [reflexivity|exact (f_equal (cons x) IHl)]|]. rewrite IH. unfold spop. induction l as [|[k1 v1] l IHl]; cbn [filter fst]; [reflexivity|]. destruct (String.eqb k1 k); cbn [negb orb filter fst]; [exact IHl|]. destruct (existsb _ ks); cbn [negb]; [exact IHl|now rewrite IHl]. Qed.
Lemma zpops {B} ks : forall l : list (Z * B), fold_left zpop ks l = filter (fun p => negb (existsb (Z.eqb (fst p)) ks)) l.
Proof. induction ks as [|k ks IH]; intros l; cbn [fold_left existsb]; [symmetry; induction l as [|x l IHl]; [reflexivity|exact (f_equal (cons x) IHl)]|]. rewrite IH. unfold zpop. induction l as [|[k1 v1] l IHl]; cbn [filter fst]; [reflexivity|]. destruct (Z.eqb k1 k); cbn [negb orb filter fst]; [exact IHl|]. destruct (existsb _ ks); cbn [negb]; [exact IHl|now rewrite IHl]. Qed.
Lemma zget_filter {B} (p : Z -> bool) (d : list (Z * B)) k : p k = true -> zget (filter (fun x => p (fst x)) d) k = zget d k.
Proof. intros h. induction d as [|[k1 v1] d IH]; cbn [filter fst zget]; [reflexivity|]. destruct (p k1) eqn:e; cbn [zget]; destruct (Z.eqb_spec k k1) as [->|]; auto. congruence. Qed.
Lemma zget_map {B C} (f : B -> C) (d : list (Z * B)) k : zget (map (fun p => (fst p, f (snd p))) d) k = option_map f (zget d k).
Proof. induction d as [|[k1 v1] d IH]; cbn [map fst snd zget]; [reflexivity|]. destruct (Z.eqb k k1); [reflexivity|exact IH]. Qed.
Lemma foldM_app' {S X} (f : S -> X -> result S) l1 : forall l2 s, foldM f (l1 ++ l2) s = bind (foldM f l1 s) (foldM f l2).
Proof. induction l1 as [|x l1 IH]; intros l2 s; cbn [app foldM bind]; [reflexivity|]. destruct (f s x); cbn [bind]; [apply IH|reflexivity]. Qed.

Lemma forall2_weaken {X Y} (P P2 : X -> Y -> Prop) l1 l2 : (forall a b, P a b -> P2 a b) -> Forall2 P l1 l2 -> Forall2 P2 l1 l2.
Proof. intros h f. induction f; constructor; auto. Qed.

Section Props.
Context {A R : Type}.
Variables (hash : A -> Z) (uuid : nat -> string).
Notation item := (@item A R).
Notation flatten := (@flatten A R hash uuid).

(** Induction over schedules in schedules. *)
Lemma item_induction (P : item -> Prop) : (forall a, P (Leaf a)) -> (forall ops schs res, Forall (fun p => P (snd p)) ops -> P (Sub ops schs res)) -> forall i, P i.
Proof. intros hl hs. fix go 1. intros [a|ops schs res]; [apply hl|apply hs]. induction ops as [|[k x] ops IH]; constructor; [apply go|exact IH]. Qed.

(** the operations of a schedule, flattened *)
Fixpoint flatten_ops (l : list (Z * item)) (m : nat) : result (list (Z * item) * nat) :=
  match l with [] => Ok ([], m) | (k, x) :: r => do y <- flatten x m; do z <- flatten_ops r (snd y); Ok ((k, fst y) :: fst z, snd z) end.
Definition own_first (res : list (string * R)) (ops1 : list (Z * item)) : list (string * R) :=
  fold_left (fun d q => match sget d (fst q) with None => d ++ [q] | Some _ => d end) (fold_left (fun d p => match snd p with Leaf _ => d | Sub _ _ r => fold_left (fun d q => sput d (fst q) (snd q)) r d end) ops1 res) res.
Lemma flatten_sub ops schs res n : flatten (Sub ops schs res) n =
  do f <- flatten_ops ops n;
  do st <- foldM (flatten_one hash uuid) schs ((fst f, schs, snd f), ([], []));
  let '((ops2, schs2, n2), (ok, sk)) := st in Ok (Sub (fold_left zpop ok ops2) (fold_left spop sk schs2) (own_first res (fst f)), n2).
Proof. reflexivity. Qed.

(** An entry of schedulables [e] plays [p]: an operation and its time. *)
Definition plays (ops : list (Z * item)) (e : string * (Z * option Q)) (p : A * Q) : Prop := zget ops (fst (snd e)) = Some (Leaf (fst p)) /\ exists t, snd (snd e) = Some t /\ t == snd p.
(** What is known about a flattened schedule. *)
Definition flat (i i' : item) : Prop :=
  match i with
  | Leaf a => i' = Leaf a
  | Sub ops schs _ => exists ops' schs' res', i' = Sub ops' schs' res' /\ Forall2 (plays ops') schs' (timeline i) /\ (forall p, In p (timeline i) -> In (fst p) (leaves i)) /\ NoDup (map fst schs') /\ NoDup (map fst ops') /\ (forall k y, zget ops' k = Some y -> is_leaf y \/ In k (map fst ops) /\ forall x, In x schs -> fst (snd x) <> k)
  end.

(** ** Inserting an inner schedule *)
Section Loop.
(** the flattened operations of the schedule, and the operations that may be inserted *)
Variables (ops1 : list (Z * item)) (good : A -> Prop).
Hypothesis clash : forall k y a, zget ops1 k = Some y -> good a -> hash a = k -> y = Leaf a.
Hypothesis inj : forall a b, good a -> good b -> hash a = hash b -> a = b.
(** operation_dict during the loop: what was there, and inserted operations under their hashes *)
Definition grown (ops : list (Z * item)) : Prop := (forall k y, zget ops1 k = Some y -> zget ops k = Some y) /\ (forall k y, zget ops k = Some y -> zget ops1 k = Some y \/ exists a, good a /\ y = Leaf a /\ k = hash a) /\ (NoDup (map fst ops1) -> NoDup (map fst ops)).
Lemma grown_refl : grown ops1. Proof. repeat split; auto. Qed.
Lemma grown_put ops a : grown ops -> good a -> grown (zput ops (hash a) (Leaf a)) /\ forall k y, zget ops k = Some y -> zget (zput ops (hash a) (Leaf a)) k = Some y.
Proof. intros (g1 & g2 & g3) ha. assert (K : forall k y, zget ops k = Some y -> zget (zput ops (hash a) (Leaf a)) k = Some y). { intros k y h. rewrite zput_get. destruct (Z.eqb_spec k (hash a)) as [->|]; [|exact h]. destruct (g2 _ _ h) as [h1|(b & hb & -> & e)]; [now rewrite (clash _ _ _ h1 ha eq_refl)|]. now rewrite (inj _ _ ha hb e). }
  split; [|exact K]. repeat split; [intros k y h; apply K, g1, h| |intros h; apply zput_nodup; auto]. intros k y h. rewrite zput_get in h. destruct (Z.eqb_spec k (hash a)) as [->|]; [injection h as <-; right; exists a; auto|auto]. Qed.

Hypothesis uinj : forall m n, uuid m = uuid n -> m = n.
Lemma insert_inner_ok iops (t0 : Q) : forall ischs tl, Forall2 (plays iops) ischs tl -> (forall p, In p tl -> good (fst p)) -> forall ops schs n, grown ops -> (forall m, (n <= m)%nat -> ~ In (uuid m) (map fst schs)) ->
  exists ops' new n', foldM (insert_inner hash uuid iops (Some t0)) ischs (ops, schs, n) = Ok (ops', schs ++ new, n') /\ grown ops' /\ (forall k y, zget ops k = Some y -> zget ops' k = Some y) /\ (n <= n')%nat
    /\ (forall x, In x (map fst new) -> exists m, x = uuid m /\ (n <= m < n')%nat) /\ NoDup (map fst new) /\ Forall2 (fun e p => plays ops' e p /\ good (fst p)) new (map (fun p => (fst p, t0 + snd p)) tl) /\ Forall2 (fun e p => fst (snd e) = hash (fst p)) new (map (fun p => (fst p, t0 + snd p)) tl).
Proof. intros ischs tl hf. induction hf as [|e p ischs tl hp hf IH]; intros hg ops schs n gr fr.
  - exists ops, [], n. cbn. rewrite app_nil_r. split; [reflexivity|]. split; [exact gr|]. split; [auto|]. split; [lia|]. split; [intros x []|]. split; [constructor|]. split; constructor.
  - destruct hp as (hp1 & t & hp2 & hp3). cbn [foldM]. unfold insert_inner at 1. rewrite hp1, hp2. cbn [insert_op bind].
    pose proof (hg p (or_introl eq_refl)) as gp. destruct (grown_put ops (fst p) gr gp) as [gr' keep].
    rewrite (sput_new schs (uuid n)) by (apply fr; lia).
    destruct (IH (fun q hq => hg q (or_intror hq)) (zput ops (hash (fst p)) (Leaf (fst p))) (schs ++ [(uuid n, (hash (fst p), Some (t + t0)))]) (S n) gr') as (ops' & new & n' & e1 & e2 & e3 & e4 & e5 & e5' & e6 & e7).
    { intros m hm. rewrite map_app, in_app_iff. cbn [map fst In]. intros [h|[h|[]]]; [apply (fr m); [lia|exact h]|]. apply uinj in h. lia. }
    exists ops', ((uuid n, (hash (fst p), Some (t + t0))) :: new), n'. rewrite e1, <- app_assoc. split; [reflexivity|]. split; [exact e2|]. split; [intros k y h; auto|]. split; [lia|].
    split; [intros x [<-|hx]; [exists n; split; [reflexivity|lia]|destruct (e5 x hx) as (m & -> & hm); exists m; split; [reflexivity|lia]]|].
    split; [cbn [map fst]; constructor; [intros hx; destruct (e5 _ hx) as (m & h & hm); apply uinj in h; lia|exact e5']|].
    split; cbn [map]; constructor; auto. split; [|exact gp]. split; cbn [fst snd]; [apply e3; rewrite zput_get, Z.eqb_refl; reflexivity|]. exists (t + t0). split; [reflexivity|]. rewrite hp3. ring. Qed.

(** ** The loop over the schedulables *)
(** [tls]: what the operation under a key plays *)
Variable tls : Z -> option (list (A * Q)).
Definition block (x : string * (Z * option Q)) : list (A * Q) := match snd (snd x), tls (fst (snd x)) with Some t, Some l => map (fun p => (fst p, t + snd p)) l | _, _ => [] end.
(** an operation of the schedule is an operation, or a flat schedule *)
Definition known (k : Z) (y : item) (l : list (A * Q)) : Prop :=
  match y with
  | Leaf a => l = [(a, 0)] /\ good a
  | Sub iops ischs _ => Forall2 (plays iops) ischs l /\ forall p, In p l -> good (fst p)
  end.
Definition is_sub (y : item) : bool := match y with Leaf _ => false | Sub _ _ _ => true end.
Definition sub_at (x : string * (Z * option Q)) : bool := match zget ops1 (fst (snd x)) with Some y => is_sub y | None => false end.
Lemma flatten_loop n0 : forall rest done ops new n ok sk,
  (forall x, In x rest -> exists t y l, snd (snd x) = Some t /\ zget ops1 (fst (snd x)) = Some y /\ tls (fst (snd x)) = Some l /\ known (fst (snd x)) y l) ->
  grown ops -> (n0 <= n)%nat ->
  NoDup (map fst (filter sub_at done ++ rest ++ new)) -> (forall m, ~ In (uuid m) (map fst (done ++ rest))) -> (forall x, In x (map fst new) -> In x (map fst done) \/ exists m, x = uuid m /\ (m < n)%nat) ->
  Forall2 (fun e p => plays ops e p /\ good (fst p)) new (flat_map block done) ->
  (forall k, In k ok <-> exists x, In x done /\ sub_at x = true /\ fst (snd x) = k) -> sk = rev (map fst (filter sub_at done)) ->
  exists ops' new' n' ok' sk', foldM (flatten_one hash uuid) rest ((ops, filter sub_at done ++ rest ++ new, n), (ok, sk)) = Ok ((ops', filter sub_at (done ++ rest) ++ new', n'), (ok', sk')) /\ grown ops' /\ (n <= n')%nat
    /\ NoDup (map fst (filter sub_at (done ++ rest) ++ new')) /\ Forall2 (fun e p => plays ops' e p /\ good (fst p)) new' (flat_map block (done ++ rest))
    /\ (forall k, In k ok' <-> exists x, In x (done ++ rest) /\ sub_at x = true /\ fst (snd x) = k) /\ sk' = rev (map fst (filter sub_at (done ++ rest))).
Proof. induction rest as [|x rest IH]; intros done ops new n ok sk hk gr hn nd uf nn pl hok hsk.
  - rewrite app_nil_r. cbn [app foldM] in *. exists ops, new, n, ok, sk. auto 10.
  - destruct (hk x (or_introl eq_refl)) as (t & y & l & x1 & x2 & x3 & x4). cbn [foldM]. unfold flatten_one at 1. destruct gr as (g1 & g2 & g3). rewrite (g1 _ _ x2).
    assert (BL : block x = map (fun p => (fst p, t + snd p)) l) by (unfold block; rewrite x1, x3; reflexivity).
    assert (CUT : forall new2, ((filter sub_at done ++ x :: rest) ++ new2) = filter sub_at done ++ x :: rest ++ new2) by (intros; rewrite <- app_assoc; reflexivity).
    rewrite map_app in nd. cbn [map app] in nd. pose proof (NoDup_remove_2 _ _ _ nd) as nx. pose proof (NoDup_remove_1 _ _ _ nd) as nd'. rewrite <- map_app in nx, nd'.
    destruct y as [a|iops ischs ires].
    + (* an operation *) assert (SA : sub_at x = false) by (unfold sub_at; rewrite x2; reflexivity). destruct x4 as [-> ga]. cbn [bind].
      assert (MV : move_to_end (filter sub_at done ++ (x :: rest) ++ new) (fst x) = filter sub_at (done ++ [x]) ++ rest ++ new ++ [x]).
      { unfold move_to_end. cbn [app]. destruct x as [kx vx]. cbn [fst snd] in *. rewrite sget_mid by (intros q; apply nx; rewrite map_app, in_app_iff; now left). rewrite spop_mid by exact nx. rewrite filter_app. cbn [filter]. rewrite SA, app_nil_r, <- !app_assoc. reflexivity. }
      cbn [bind]. rewrite MV. destruct (IH (done ++ [x]) ops (new ++ [x]) n ok sk) as (ops' & new' & n' & ok' & sk' & r1 & r2).
      * intros z hz. apply hk. now right.
      * repeat split; auto.
      * exact hn.
      * rewrite filter_app. cbn [filter]. rewrite SA, app_nil_r. eapply Permutation_NoDup; [|exact nd]. rewrite !map_app. cbn [map]. change (fst x :: map fst rest ++ map fst new) with ([fst x] ++ (map fst rest ++ map fst new)). apply Permutation_app_head. rewrite (app_assoc (map fst rest)). apply Permutation_app_comm.
      * rewrite <- app_assoc. exact uf.
      * intros z hz. rewrite map_app, in_app_iff in hz. rewrite map_app, in_app_iff. destruct hz as [hz|hz]; [destruct (nn z hz) as [q|q]; [auto|now right]|left; right; exact hz].
      * rewrite flat_map_app. apply Forall2_app; [exact pl|]. cbn [flat_map]. rewrite BL, app_nil_r. cbn [map fst snd]. constructor; [|constructor]. split; [|exact ga]. split; cbn [fst snd]; [apply g1, x2|]. exists t. split; [exact x1|ring].
      * intros k. rewrite hok. split; intros (z & h1 & h2 & h3); exists z; (split; [|auto]); [apply in_app_iff; now left|]. apply in_app_iff in h1. destruct h1 as [h1|[<-|[]]]; [exact h1|congruence].
      * rewrite filter_app. cbn [filter]. rewrite SA, app_nil_r. exact hsk.
      * exists ops', new', n', ok', sk'. rewrite <- app_assoc in r1, r2. cbn [app] in r1, r2. split; [exact r1|exact r2].
    + (* a schedule *) assert (SA : sub_at x = true) by (unfold sub_at; rewrite x2; reflexivity). destruct x4 as [f2 ga]. rewrite x1.
      destruct (insert_inner_ok iops t ischs l f2 ga ops (filter sub_at done ++ (x :: rest) ++ new) n) as (ops2 & new2 & n2 & e1 & e2 & e3 & e4 & e5 & e5' & e6 & _); [repeat split; auto| |].
      { intros m hm hi. rewrite !map_app, !in_app_iff in hi. destruct hi as [hi|[hi|hi]].
        - apply (uf m). rewrite map_app, in_app_iff. left. apply in_map_iff in hi. destruct hi as (z & q1 & q2). apply filter_In in q2. apply in_map_iff. exists z. split; [exact q1|apply q2].
        - apply (uf m). rewrite map_app, in_app_iff. now right.
        - destruct (nn _ hi) as [q|(m' & q & q')]; [apply (uf m); rewrite map_app, in_app_iff; now left|apply uinj in q; lia]. }
      rewrite e1. cbn [bind]. destruct (IH (done ++ [x]) ops2 (new ++ new2) n2 (fst (snd x) :: ok) (fst x :: sk)) as (ops' & new' & n' & ok' & sk' & r1 & r2).
      * intros z hz. apply hk. now right.
      * exact e2.
      * lia.
      * rewrite filter_app. cbn [filter]. rewrite SA. replace ((filter sub_at done ++ [x]) ++ rest ++ new ++ new2) with ((filter sub_at done ++ x :: rest ++ new) ++ new2) by (rewrite <- !app_assoc; cbn [app]; rewrite <- !app_assoc; reflexivity). rewrite map_app. apply LibProps.nodup_app_intro.
        -- rewrite map_app. cbn [map]. exact nd.
        -- exact e5'.
        -- intros z h1 h2. destruct (e5 z h2) as (m & -> & hm). rewrite map_app, in_app_iff in h1. cbn [map In] in h1. rewrite map_app, in_app_iff in h1.
           assert (U : ~ In (uuid m) (map fst done) /\ ~ In (uuid m) (map fst (x :: rest))) by (split; intros q; apply (uf m); rewrite map_app, in_app_iff; auto). cbn [map In] in U.
           assert (FD : In (uuid m) (map fst (filter sub_at done)) -> In (uuid m) (map fst done)). { intros q. apply in_map_iff in q. destruct q as (w & q1 & q2). apply filter_In in q2. apply in_map_iff. exists w. tauto. }
           rewrite ?in_app_iff in h1. assert (NW : ~ In (uuid m) (map fst new)). { intros q. destruct (nn _ q) as [q1|(m' & q1 & q2)]; [tauto|apply uinj in q1; lia]. } tauto.
      * rewrite <- app_assoc. exact uf.
      * intros z hz. rewrite map_app, in_app_iff in hz. rewrite map_app, in_app_iff. destruct hz as [hz|hz]; [destruct (nn z hz) as [q|(m & q & q')]; [auto|right; exists m; split; [exact q|lia]]|]. destruct (e5 z hz) as (m & q & q'). right. exists m. split; [exact q|lia].
      * rewrite flat_map_app. apply Forall2_app. { eapply forall2_weaken; [|exact pl]. intros e p ((q1 & q2) & q3). split; [|exact q3]. split; [apply e3, q1|exact q2]. } cbn [flat_map]. rewrite BL, app_nil_r. exact e6.
      * intros k. cbn [In]. rewrite hok. split; [intros [<-|(z & h1 & h2 & h3)]; [exists x; split; [apply in_app_iff; right; now left|auto]|exists z; split; [apply in_app_iff; now left|auto]]|]. intros (z & h1 & h2 & h3). apply in_app_iff in h1. destruct h1 as [h1|[<-|[]]]; [right; exists z; auto|now left].
      * rewrite filter_app. cbn [filter]. rewrite SA, map_app, rev_app_distr, hsk. reflexivity.
      * exists ops', new', n', ok', sk'. rewrite <- app_assoc in r1, r2. cbn [app] in r1, r2. rewrite filter_app in r1. cbn [filter] in r1. rewrite SA in r1. rewrite <- !app_assoc in r1. cbn [app] in r1. rewrite <- !app_assoc. split; [exact r1|]. destruct r2 as (r2 & r3 & r4). split; [exact r2|]. split; [lia|exact r4]. Qed.
End Loop.
End Props.
