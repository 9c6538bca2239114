(** C45: classes, numbers, dictionaries with replaced entries. *)
From Coq Require Import DecimalString DecimalZ DecimalFacts Ascii.
From Verif Require Import Base PathModel JsonModel JsonSpec JsonProps.
Open Scope string_scope.
Open Scope list_scope.

(** ** Classes *)
Lemma rsplit_dotless n : dotless n -> rsplit n = None.
Proof. induction n as [|c n IH]; [reflexivity|]. cbn [dotless rsplit]. intros [h1 h2]. rewrite IH by exact h2. destruct (Ascii.eqb_spec c "."%char); [contradiction|reflexivity]. Qed.
Lemma rsplit_path m n : dotless n -> rsplit (m ++ "." ++ n)%string = Some (m, n).
Proof. intros h. induction m as [|c m IH]; cbn [append rsplit].
  - rewrite rsplit_dotless by exact h. reflexivity.
  - cbn [append rsplit] in IH. rewrite IH. reflexivity. Qed.
Lemma classes_dotless s c : classes s = Some c -> rsplit s = None.
Proof. unfold classes. destruct (List.find _ DEFAULT_TYPES) eqn:E.
  - intros _. apply find_some in E as [hi e]. apply String.eqb_eq in e. subst s. repeat (destruct hi as [<-|hi]; [reflexivity|]). contradiction.
  - clear E. destruct (List.find _ enums) eqn:E; [|discriminate]. intros _. apply find_some in E as [hi e]. apply String.eqb_eq in e. subst s. repeat (destruct hi as [<-|hi]; [reflexivity|]). contradiction. Qed.
Lemma get_type_path w c : importable w c -> get_type w (export_path c) = Ok c.
Proof. intros (h1 & h2 & h3 & h4). unfold get_type, export_path. destruct (String.eqb_spec (cmod c) "__main__"); [contradiction|].
  destruct (classes _) eqn:E.
  - apply classes_dotless in E. rewrite rsplit_path in E by exact h2. discriminate.
  - unfold import_object. rewrite rsplit_path by exact h2. rewrite h3. reflexivity. Qed.

(** ** Numbers *)
Lemma dec_round z : Z_of_dec (dec_Z z) = Some z.
Proof. unfold Z_of_dec, dec_Z. rewrite NilZero.isi; [now rewrite DecimalZ.of_to|..]; intros e; pose proof (DecimalZ.of_to z) as h; rewrite e in h; cbn in h; subst z; discriminate. Qed.

(** ** Dictionaries *)
Lemma dget_dput k v d : dget (VStr k) (dput (VStr k) v d) = Some v.
Proof. induction d as [|[k' v'] d IH]; cbn [dput dget]; [rewrite key_str, String.eqb_refl; reflexivity|]. destruct (key_eqb k' (VStr k)) eqn:E; cbn [dget]; rewrite E; auto. Qed.
Lemma dget_dput_ne k k2 v d : k <> k2 -> dget (VStr k) (dput (VStr k2) v d) = dget (VStr k) d.
Proof. intros h. induction d as [|[k' v'] d IH]; cbn [dput dget]; [rewrite key_str; destruct (String.eqb_spec k2 k); congruence|].
  destruct (key_eqb k' (VStr k2)) eqn:E; cbn [dget]; [|now rewrite IH].
  assert (e : key_eqb k' (VStr k) = false). { assert (text k' = Some k2) by (destruct k'; cbn in E |- *; try discriminate; try (destruct f; discriminate); apply String.eqb_eq in E; now subst).
    rewrite (text_key _ _ _ H). destruct (String.eqb_spec k2 k); congruence. } now rewrite e. Qed.
Lemma dput_dput k u v d : dput (VStr k) v (dput (VStr k) u d) = dput (VStr k) v d.
Proof. induction d as [|[k' v'] d IH]; cbn [dput]; [rewrite key_str, String.eqb_refl; reflexivity|]. destruct (key_eqb k' (VStr k)) eqn:E; cbn [dput]; rewrite E; [reflexivity|]. now rewrite IH. Qed.
Lemma dput_same k v d : dget (VStr k) d = Some v -> dput (VStr k) v d = d.
Proof. induction d as [|[k' v'] d IH]; cbn [dput dget]; [discriminate|]. destruct (key_eqb k' (VStr k)); intros h; [now inversion h|]. now rewrite IH. Qed.
Lemma dput_comm k1 k2 u v d x y : k1 <> k2 -> dget (VStr k1) d = Some x -> dget (VStr k2) d = Some y ->
  dput (VStr k1) u (dput (VStr k2) v d) = dput (VStr k2) v (dput (VStr k1) u d).
Proof. intros n. induction d as [|[k' v'] d IH]; [discriminate|]. cbn [dget]. intros h1 h2. cbn [dput]. destruct (key_eqb k' (VStr k1)) eqn:E1, (key_eqb k' (VStr k2)) eqn:E2; cbn [dput]; rewrite ?E1, ?E2; auto.
  - exfalso. apply n. destruct k'; cbn in E1, E2; try discriminate; try (destruct f; discriminate); apply String.eqb_eq in E1, E2; congruence.
  - now rewrite IH. Qed.
Lemma dput_keys k v d x : dget (VStr k) d = Some x -> map fst (dput (VStr k) v d) = map fst d.
Proof. induction d as [|[k' v'] d IH]; [discriminate|]. cbn [dget dput]. destruct (key_eqb k' (VStr k)); intros h; cbn; [reflexivity|]. now rewrite IH. Qed.

Section W.
Variable w : world.
Notation RT := (stored w).
Notation ren := (fun p : val * val => (restore w (fst p), restore w (snd p))).

Lemma restore_key k s : key_eqb (restore w k) (VStr s) = key_eqb k (VStr s).
Proof. destruct k; try reflexivity. destruct f; reflexivity. Qed.
Lemma dget_restore k d : dget (VStr k) (map ren d) = option_map (restore w) (dget (VStr k) d).
Proof. induction d as [|[k' v] d IH]; [reflexivity|]. cbn [map dget fst snd]. rewrite restore_key. destruct (key_eqb k' (VStr k)); auto. Qed.
Lemma dput_restore k v d : dput (VStr k) (restore w v) (map ren d) = map ren (dput (VStr k) v d).
Proof. induction d as [|[k' v'] d IH]; [reflexivity|]. cbn [map dput fst snd]. rewrite restore_key. destruct (key_eqb k' (VStr k)); cbn [map fst snd]; [reflexivity|]. now rewrite IH. Qed.
Lemma aget_map k a : aget k (map (fun p => (fst p, restore w (snd p))) a) = option_map (restore w) (aget k a).
Proof. induction a as [|[k' v] a IH]; [reflexivity|]. cbn [map aget fst snd]. destruct (_ =? _)%string; auto. Qed.
Lemma text_restore k s : text k = Some s -> restore w k = VStr s.
Proof. destruct k; cbn; intros h; inversion h; reflexivity. Qed.
Lemma restore_text k s : text k = Some s -> text (restore w k) = Some s.
Proof. intros h. now rewrite (text_restore _ _ h). Qed.

Lemma restore_scalar_key a b : scalar_key a -> scalar_key b -> key_eqb (restore w a) (restore w b) = key_eqb a b.
Proof. destruct a, b; cbn; try contradiction; intros; try reflexivity;
  repeat match goal with f : flt |- _ => destruct f; try contradiction end; try reflexivity. Qed.
Lemma distinct_restore d : distinct_keys d -> Allp (fun p => scalar_key (fst p)) d -> distinct_keys (map ren d).
Proof. induction d as [|[k v] d IH]; [auto|]. cbn. intros [h1 h2] [h3 h4]. split; [|now apply IH].
  apply Allp_Forall. apply Forall_map. apply Forall_forall. intros [k' v'] hi. cbn. rewrite restore_scalar_key; [exact (Allp_in _ _ _ h1 hi)|exact h3|exact (Allp_in _ _ _ h4 hi)]. Qed.
Lemma hashable_restore k : scalar_key k -> hashable_key (restore w k) = true.
Proof. destruct k; cbn; try contradiction; auto. Qed.

Lemma string_keys_distinct d : string_keys d -> distinct_keys d.
Proof. intros (ks & e & n & _). exact (distinct_str d ks e n). Qed.
Lemma string_keys_restore d : string_keys d -> string_keys (map ren d).
Proof. intros (ks & e & n & h). exists ks. split; [|auto]. rewrite map_map. rewrite <- e. apply map_ext_in. intros [k v] hi. cbn.
  assert (hh : In (text k) (map Some ks)) by (rewrite <- e; exact (in_map (fun p => text (fst p)) _ _ hi)).
  apply in_map_iff in hh as (s & es & _). symmetry in es. rewrite (text_restore _ _ es), es. reflexivity. Qed.
Lemma string_keys_fst d d' : map fst d = map fst d' -> string_keys d -> string_keys d'.
Proof. intros e (ks & h1 & h2). exists ks. split; [|exact h2]. rewrite <- h1, <- (map_map fst text), <- (map_map fst text d), e. reflexivity. Qed.
Lemma string_keys_no_hook d : string_keys d -> dget (VStr "deserialization_type") d = None.
Proof. intros (ks & e & _ & h). apply dget_absent; rewrite ?e.
  - intros hi. apply in_map_iff in hi as (s & es & hs). inversion es. subst. contradiction.
  - apply Forall_forall. intros p hi. assert (hh : In (text (fst p)) (map Some ks)) by (rewrite <- e; exact (in_map (fun p => text (fst p)) _ _ hi)). apply in_map_iff in hh as (s & es & _). now exists s. Qed.
Lemma string_keys_text d p : string_keys d -> In p d -> exists s, text (fst p) = Some s.
Proof. intros (ks & e & _) hi. assert (hh : In (text (fst p)) (map Some ks)) by (rewrite <- e; exact (in_map (fun p => text (fst p)) _ _ hi)). apply in_map_iff in hh as (s & es & _). now exists s. Qed.

(** A dictionary without the reserved key. *)
Lemma rt_plain_dict d d' : string_keys d' -> Forall2 (entry w) d d' -> RT (VDict d) (VDict d').
Proof. intros h f. apply (rt_dict w d d'); [exact f|now apply string_keys_distinct|]. unfold decode_dict. now rewrite string_keys_no_hook. Qed.

(** Entries that may still differ at the keys in [E]. *)
Definition entry_ex (E : string -> Prop) (p q : val * val) : Prop := exists s, text (fst p) = Some s /\ fst q = VStr s /\ (E s \/ RT (snd p) (snd q)).
Lemma entries_put E k v v' d d' : Forall2 (entry_ex E) d d' -> distinct_keys d -> RT v v' -> dget (VStr k) d <> None ->
  Forall2 (entry_ex (fun s => E s /\ s <> k)) (dput (VStr k) v d) (dput (VStr k) v' d').
Proof. intros f. induction f as [|[a x] [b y] d d' (s & e1 & e2 & h) f IH]; intros hd hr hk; [now destruct hk|]. cbn in e1, e2, h, hd. subst b. destruct hd as [hd1 hd2]. cbn [dput dget] in *.
  rewrite (text_key _ _ _ e1) in *. rewrite key_str. destruct (String.eqb_spec s k) as [->|hn].
  - constructor; [exists k; cbn; auto|]. clear IH hk. rewrite Allp_Forall in hd1. clear hd2. induction f as [|[a' x'] [b' y'] d d' (s' & e1' & e2' & h') f IH2]; [constructor|]. inversion hd1; subst. constructor; [|now apply IH2].
    exists s'. cbn in *. split; [exact e1'|]. split; [exact e2'|]. destruct h' as [h'|h']; [|now right]. left. split; [exact h'|]. intros ->. destruct a, a'; cbn in e1, e1'; inversion e1; inversion e1'; subst; cbn in H1; rewrite String.eqb_refl in H1; discriminate.
  - constructor; [exists s; cbn; split; [exact e1|split; [reflexivity|]]; destruct h; [left|right]; auto|]. apply IH; auto. Qed.
Lemma entry_ex_none d d' E : (forall s, ~ E s) -> Forall2 (entry_ex E) d d' -> Forall2 (entry w) d d'.
Proof. intros h f. induction f as [|p q d d' (s & e1 & e2 & hh) f IH]; constructor; [|exact IH]. exists s. destruct hh; [now destruct (h s)|auto]. Qed.

(** ** Objects stored as a class path and data *)
Lemma decode_state2 c x : importable w c -> decode_dict w [(VStr "deserialization_type", VStr (export_path c)); (VStr "data", x)]
  = setstate w c [(VStr "deserialization_type", VStr (export_path c)); (VStr "data", x)].
Proof. intros h. unfold decode_dict. change (dget (VStr "deserialization_type") [(VStr "deserialization_type", VStr (export_path c)); (VStr "data", x)]) with (Some (VStr (export_path c))).
  change (dget (VStr "mode") [(VStr "deserialization_type", VStr (export_path c)); (VStr "data", x)]) with (@None val). cbn iota beta.
  rewrite get_type_path by exact h. cbn [bind is_str]. destruct h as (_ & _ & _ & hb). rewrite hb. reflexivity. Qed.
Lemma rt_state2 c d d' x : importable w c -> RT d d' -> setstate w c [(VStr "deserialization_type", VStr (export_path c)); (VStr "data", d')] = Ok x ->
  RT (state2 (VStr (export_path c)) d) x.
Proof. intros hi hd hs. unfold state2. eapply rt_dict; [| |rewrite decode_state2 by exact hi; exact hs].
  - constructor; [apply entry_str, rt_str|]. constructor; [now apply entry_str|]. constructor.
  - cbn. repeat split. Qed.
End W.
