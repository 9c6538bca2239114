(** Model of quantify_scheduler/backends/qblox/register_manager.py, with register names as strings. *)
From Coq Require Import Ascii Decimal DecimalString Permutation.
From Verif Require Import Base.
Open Scope string_scope.

(** f"R{idx}" (register_manager.py l.14-16) *)
Definition reg_name (n : nat) : string := "R" ++ NilZero.string_of_uint (Nat.to_uint n).

(** register_manager.py l.13-16; constants.py l.78 NUMBER_OF_REGISTERS = 64 *)
Definition initial : list string := map reg_name (seq 0 64).

(** str.isdigit, int() on ASCII strings (the unicode digits that isdigit accepts as well are not modelled) *)
Definition is_digit (c : ascii) : bool := let n := nat_of_ascii c in (Nat.leb 48 n) && (Nat.leb n 57).
Definition all_digits (l : list ascii) : bool := negb (match l with [] => true | _ => false end) && forallb is_digit l.
Definition int_of (l : list ascii) : nat := fold_left (fun a c => (10 * a + (nat_of_ascii c - 48))%nat) l 0%nat.

(** register_manager.py l.80-121 [_verify_valid_register]: note [>] where [>=] is meant *)
Definition verify (name : string) : result unit :=
  match list_ascii_of_string name with
  | [] => Err ValueError
  | c :: ds =>
      if negb (Ascii.eqb c "R") then Err ValueError
      else if negb (all_digits ds) then Err ValueError
      else if Nat.ltb 64 (int_of ds) then Err ValueError
      else Ok tt
  end.

(** register_manager.py l.18-40 [allocate_register] *)
Definition allocate (avail : list string) : result (string * list string) :=
  match avail with [] => Err IndexError | r :: rest => Ok (r, rest) end.

(** register_manager.py l.42-64 [free_register] *)
Definition free_register (name : string) (avail : list string) : result (list string) :=
  do _ <- verify name;
  if existsb (String.eqb name) avail then Err RuntimeError else Ok (name :: avail).

(** ** Specification: histories of calls *)
Inductive call := Allocate | Free (name : string).
(** what the caller sees *)
Inductive outcome := Got (name : string) | Freed | Raised (e : exn).

Definition do_call (c : call) (avail : list string) : outcome * list string :=
  match c with
  | Allocate => match allocate avail with Ok (r, a) => (Got r, a) | Err e => (Raised e, avail) end
  | Free n => match free_register n avail with Ok a => (Freed, a) | Err e => (Raised e, avail) end
  end.

Fixpoint history (cs : list call) (avail : list string) : list outcome * list string :=
  match cs with
  | [] => ([], avail)
  | c :: r => let '(o, a) := do_call c avail in let '(os, a') := history r a in (o :: os, a')
  end.

(** the registers in use according to the caller: what was returned by Allocate and not freed since *)
Fixpoint in_use (cs : list call) (os : list outcome) (live : list string) : list string :=
  match cs, os with
  | Allocate :: cs, Got r :: os => in_use cs os (r :: live)
  | Free n :: cs, Freed :: os => in_use cs os (remove string_dec n live)
  | _ :: cs, _ :: os => in_use cs os live
  | _, _ => live
  end.

Definition legal (name : string) : Prop := exists n, (n < 64)%nat /\ name = reg_name n.
(** the caller frees only names R0..R63 *)
Definition sane (c : call) : Prop := match c with Allocate => True | Free n => legal n end.

(** ** Proofs *)
Lemma initial_legal r : In r initial <-> legal r.
Proof.
  unfold initial, legal. rewrite in_map_iff. split.
  - intros [n [<- H]]. apply in_seq in H. exists n. split; [lia|reflexivity].
  - intros [n [H ->]]. exists n. split; [reflexivity|apply in_seq; lia].
Qed.

Lemma initial_NoDup : NoDup initial.
Proof.
  assert (H : forall l : list string, (fix nd l := match l with [] => true | x :: r => negb (existsb (String.eqb x) r) && nd r end) l = true -> NoDup l).
  { induction l as [|x l IH]; intros H; [constructor|]. apply andb_true_iff in H. destruct H as [H1 H2]. constructor; [|auto].
    intros Hin. apply negb_true_iff in H1. assert (existsb (String.eqb x) l = true) by (apply existsb_exists; exists x; split; [exact Hin|apply String.eqb_refl]). congruence. }
  apply H. vm_compute. reflexivity.
Qed.

Lemma verify_legal r : legal r -> verify r = Ok tt.
Proof.
  rewrite <- initial_legal. intros H.
  assert (HF : forallb (fun r => match verify r with Ok _ => true | _ => false end) initial = true) by (vm_compute; reflexivity).
  rewrite forallb_forall in HF. specialize (HF r H). destruct (verify r) as [[]|]; [reflexivity|discriminate].
Qed.

(** available and in-use registers together are always exactly R0..R63 *)
Definition Inv (avail live : list string) : Prop := Permutation (avail ++ live) initial.

Lemma Inv_NoDup a l : Inv a l -> NoDup (a ++ l).
Proof. intros H. eapply Permutation_NoDup; [apply Permutation_sym; exact H|apply initial_NoDup]. Qed.
Lemma Inv_legal a l r : Inv a l -> (In r (a ++ l) <-> legal r).
Proof.
  intros H. rewrite <- initial_legal. split; intros Hin; [exact (Permutation_in _ H Hin)|exact (Permutation_in _ (Permutation_sym H) Hin)].
Qed.

Lemma existsb_eqb n a : existsb (String.eqb n) a = true <-> In n a.
Proof.
  rewrite existsb_exists. split; [intros [x [H1 H2]]; apply String.eqb_eq in H2; congruence|].
  intros H. exists n. split; [exact H|apply String.eqb_refl].
Qed.

Lemma remove_perm n l : NoDup l -> In n l -> Permutation l (n :: remove string_dec n l).
Proof.
  induction l as [|x l IH]; intros Hn Hi; [destruct Hi|]. destruct Hi as [ -> |Hin].
  - inversion Hn; subst. cbn. destruct (string_dec n n); [|congruence]. rewrite notin_remove by assumption. reflexivity.
  - inversion Hn; subst. cbn. destruct (string_dec n x) as [->|Hne]; [contradiction|].
    rewrite perm_swap. constructor. auto.
Qed.

Lemma do_call_inv c a l : sane c -> Inv a l ->
  let '(o, a') := do_call c a in Inv a' (in_use [c] [o] l) /\
  match c with
  | Allocate => match o with Got r => legal r /\ ~ In r l | Raised e => e = IndexError /\ List.length l = 64%nat | Freed => False end
  | Free n => match o with Freed => In n l | Raised e => e = RuntimeError /\ ~ In n l | Got _ => False end
  end.
Proof.
  intros Hs HI. pose proof (Inv_NoDup _ _ HI) as HN. destruct c as [|n]; cbn [do_call].
  - unfold allocate. destruct a as [|r rest].
    + split; [exact HI|]. split; [reflexivity|]. apply Permutation_length in HI. cbn [app] in HI. rewrite HI. reflexivity.
    + cbn [in_use]. split.
      * unfold Inv in *. rewrite <- Permutation_middle. exact HI.
      * split; [apply (Inv_legal _ _ r HI); left; reflexivity|].
        cbn [app] in HN. inversion HN; subst. intros Hin. apply H1. apply in_or_app. auto.
  - unfold free_register. rewrite (verify_legal _ Hs). cbn [bind].
    destruct (existsb (String.eqb n) a) eqn:E.
    + apply existsb_eqb in E. split; [exact HI|]. split; [reflexivity|]. intros Hin.
      apply in_split in E. destruct E as [a1 [a2 ->]]. rewrite <- app_assoc in HN. cbn in HN. apply NoDup_remove_2 in HN.
      apply HN. rewrite app_assoc. apply in_or_app. auto.
    + assert (Hna : ~ In n a) by (rewrite <- existsb_eqb; congruence).
      assert (Hl : In n l). { apply (Inv_legal _ _ n HI) in Hs. apply in_app_or in Hs. destruct Hs; [contradiction|assumption]. }
      split; [|exact Hl]. cbn [in_use]. unfold Inv in *. rewrite <- HI. cbn [app]. rewrite (Permutation_middle a).
      apply Permutation_app_head. symmetry. apply remove_perm; [|exact Hl].
      clear -HN. induction a as [|x a IH]; [exact HN|]. cbn in HN. inversion HN; auto.
Qed.

Lemma in_use_cons c cs o os l : in_use (c :: cs) (o :: os) l = in_use cs os (in_use [c] [o] l).
Proof. destruct c, o; reflexivity. Qed.

Lemma history_inv cs : forall a l, Forall sane cs -> Inv a l ->
  Inv (snd (history cs a)) (in_use cs (fst (history cs a)) l).
Proof.
  induction cs as [|c cs IH]; intros a l Hs HI; [exact HI|]. inversion Hs; subst. cbn [history].
  pose proof (do_call_inv c a l H1 HI) as HD. destruct (do_call c a) as [o a']. destruct HD as [HD _].
  specialize (IH a' _ H2 HD). destruct (history cs a') as [os a'']. cbn [fst snd] in *. rewrite in_use_cons. exact IH.
Qed.

(** ** C17 *)
(** After any history of calls (frees only of names R0..R63): the registers in use are distinct and among R0..R63;
    the next allocation returns a register that is not in use, and fails (IndexError) exactly when all 64 are;
    freeing succeeds exactly for the registers in use (RuntimeError otherwise). *)
Theorem C17_registers_partial : forall cs, Forall sane cs ->
  let '(os, avail) := history cs initial in
  let live := in_use cs os [] in
  NoDup live /\ (forall r, In r live -> legal r) /\
  (fst (do_call Allocate avail) = Raised IndexError <-> List.length live = 64%nat) /\
  ((List.length live < 64)%nat -> exists r, fst (do_call Allocate avail) = Got r /\ legal r /\ ~ In r live) /\
  (forall n, In n live -> fst (do_call (Free n) avail) = Freed) /\
  (forall n, legal n -> ~ In n live -> fst (do_call (Free n) avail) = Raised RuntimeError).
Proof.
  intros cs Hs. assert (HI0 : Inv initial []) by (unfold Inv; rewrite app_nil_r; reflexivity).
  pose proof (history_inv cs initial [] Hs HI0) as HI. destruct (history cs initial) as [os avail]. cbn [fst snd] in HI.
  set (live := in_use cs os []) in *. clearbody live. pose proof (Inv_NoDup _ _ HI) as HN.
  assert (HNl : NoDup live) by (clear -HN; induction avail as [|x a IH]; [exact HN|]; cbn in HN; inversion HN; auto).
  assert (HL : forall r, In r live -> legal r) by (intros r Hr; apply (Inv_legal _ _ r HI); apply in_or_app; auto).
  pose proof (Permutation_length HI) as Hlen. rewrite app_length in Hlen. change (List.length initial) with 64%nat in Hlen.
  split; [exact HNl|]. split; [exact HL|].
  pose proof (do_call_inv Allocate avail live I HI) as HA. 
  split; [|split; [|split]].
  - unfold do_call, allocate in *. destruct avail as [|r rest]; cbn [fst List.length] in *.
    + split; [intros _; lia|reflexivity].
    + split; [discriminate|lia].
  - intros Hlt. unfold do_call, allocate in *. destruct avail as [|r rest]; cbn [fst List.length] in *; [lia|].
    destruct HA as [_ HA]. exists r. split; [reflexivity|exact HA].
  - intros n Hn. pose proof (do_call_inv (Free n) avail live (HL n Hn) HI) as HF.
    destruct (do_call (Free n) avail) as [[r| |e] a']; cbn [fst]; destruct HF as [_ HF]; [contradiction|reflexivity|].
    destruct HF; contradiction.
  - intros n Hl Hn. pose proof (do_call_inv (Free n) avail live Hl HI) as HF.
    destruct (do_call (Free n) avail) as [[r| |e] a']; cbn [fst]; destruct HF as [_ HF]; [contradiction|contradiction|].
    destruct HF as [-> _]. reflexivity.
Qed.

(** Malformed names are rejected and change nothing: not starting with R, something else than digits, index above 64. *)
Theorem C17_malformed_rejected : forall name avail,
  match list_ascii_of_string name with
  | [] => True
  | c :: ds => c <> "R"%char \/ all_digits ds = false \/ (64 < int_of ds)%nat
  end -> do_call (Free name) avail = (Raised ValueError, avail).
Proof.
  intros name avail H. unfold do_call, free_register, verify. destruct (list_ascii_of_string name) as [|c ds]; [reflexivity|].
  destruct (Ascii.eqb c "R") eqn:E1; [|reflexivity]. apply Ascii.eqb_eq in E1. destruct (all_digits ds) eqn:E2; [|reflexivity].
  cbn [negb]. destruct (Nat.ltb 64 (int_of ds)) eqn:E3; [reflexivity|]. apply Nat.ltb_ge in E3. destruct H as [H|[H|H]]; [contradiction|discriminate|lia].
Qed.

(** The general statement is false: R64 does not exist, but can be freed, and is then handed out... *)
Theorem C17_R64_refuted : fst (history [Free "R64"; Allocate] initial) = [Freed; Got "R64"].
Proof. vm_compute. reflexivity. Qed.
(** ... and so can other spellings of a register that is not in use, or that is: the register is then handed out twice. *)
Theorem C17_alias_refuted : fst (history [Allocate; Free "R00"; Allocate] initial) = [Got "R0"; Freed; Got "R00"].
Proof. vm_compute. reflexivity. Qed.

Example C17_example : Forall sane [Allocate; Allocate; Free "R0"; Allocate; Free "R5"] /\
  fst (history [Allocate; Allocate; Free "R0"; Allocate; Free "R5"] initial) = [Got "R0"; Got "R1"; Freed; Got "R0"; Raised RuntimeError].
Proof.
  split; [|vm_compute; reflexivity]. repeat constructor; cbn; [exists 0%nat|exists 5%nat]; (split; [lia|reflexivity]).
Qed.
