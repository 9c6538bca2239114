(** C74: the names of channels, what [init], [assign] and [finish] keep. *)
From Verif Require Import Base CircModel PathModel PathProps JsonModel QbModel QbSpec QbProps FreqModel FreqProps AcqSetModel ZiIds InitModel.
From Coq Require Import Ascii DecimalString DecimalZ.
Local Open Scope string_scope.
Local Open Scope list_scope.

(** The name of the [n]-th channel of a mode and direction *)
Definition chan (mode dir : string) (n : nat) : string := (mode ++ "_" ++ dir ++ "_" ++ dec_n n)%string.
Inductive Mode : string -> Prop := m_complex : Mode "complex" | m_real : Mode "real" | m_digital : Mode "digital".
Inductive Dir : string -> Prop := d_out : Dir "output" | d_in : Dir "input".
(** The connectors it consists of *)
Definition lines (mode : string) (n : nat) : list Z := if String.eqb mode "complex" then [2 * Z.of_nat n; 2 * Z.of_nat n + 1]%Z else [Z.of_nat n].

Lemma split_lacks c s : lacks c s -> split_on c s = [s].
Proof. induction s as [|x s IH]; intros h; [reflexivity|]. cbn in h |- *. destruct h as [h1 h2]. destruct (Ascii.eqb x c) eqn:E; [apply Ascii.eqb_eq in E; congruence|]. now rewrite (IH h2). Qed.
Lemma split_sep c s r : lacks c s -> split_on c (s ++ String c r)%string = s :: split_on c r.
Proof. induction s as [|x s IH]; intros h; [cbn; now rewrite Ascii.eqb_refl|]. cbn in h |- *. destruct h as [h1 h2]. destruct (Ascii.eqb x c) eqn:E; [apply Ascii.eqb_eq in E; congruence|]. now rewrite (IH h2). Qed.
Lemma dec_lacks n : lacks "_"%char (dec_n n).
Proof. apply lacks_dec. unfold digit_like. cbn. intuition discriminate. Qed.
Lemma split_chan mode dir n : Mode mode -> Dir dir -> split_on "_" (chan mode dir n) = [mode; dir; dec_n n].
Proof. intros m h. unfold chan. change "_" with (String "_"%char "") at 1 2. assert (lacks "_"%char mode) by (destruct m; cbn; intuition discriminate). assert (lacks "_"%char dir) by (destruct h; cbn; intuition discriminate).
  cbn [append]. rewrite split_sep by auto. rewrite split_sep by auto. now rewrite split_lacks by apply dec_lacks. Qed.
Lemma int_dec n : py_int (dec_n n) = Ok (Z.of_nat n).
Proof. unfold dec_n, dec_Z, NilZero.string_of_int. assert (E := DecimalZ.of_to (Z.of_nat n)). destruct (Z.to_int (Z.of_nat n)) as [u|u] eqn:T.
  - cbn [Z.of_int] in E. unfold NilZero.string_of_uint. destruct u; [cbn in E; cbn; now rewrite <- E|..]; match goal with |- py_int (NilEmpty.string_of_uint ?v) = _ => pose proof (digits_uint v) as D; unfold py_int; rewrite D, E; reflexivity end.
  - destruct n; [discriminate|]. discriminate. Qed.

Lemma contains_refl p q : forall m, contains p (m ++ p ++ q)%string = true.
Proof. induction m as [|x m IH]; [|cbn [append contains]; rewrite IH; apply orb_true_r]. cbn [append]. assert (H : String.prefix p (p ++ q) = true) by (induction p as [|y p IHp]; [destruct q; reflexivity|]; cbn; destruct (ascii_dec y y); [exact IHp|congruence]).
  destruct (p ++ q)%string; cbn [contains]; rewrite H; reflexivity. Qed.

(** *** Connectors *)
Lemma io_lines mode n : io_indices mode (dec_n n) = Ok (lines mode n).
Proof. unfold io_indices. rewrite int_dec. reflexivity. Qed.
Lemma outputs_chan mode dir n : Mode mode -> Dir dir -> output_indices (chan mode dir n) = Ok (if String.eqb dir "output" then lines mode n else []).
Proof. intros m h. unfold output_indices. rewrite split_chan by auto. destruct h; [apply io_lines|reflexivity]. Qed.
Lemma inputs_chan mode dir n : Mode mode -> Dir dir -> input_indices (chan mode dir n) None = Ok (if String.eqb dir "input" then lines mode n else []).
Proof. intros m h. unfold input_indices. rewrite split_chan by auto. destruct h; [reflexivity|apply io_lines]. Qed.
Lemma measure_chan mode n mode' n' : Mode mode -> Mode mode' -> input_indices (chan mode "output" n) (Some [chan mode' "input" n']) = Ok (lines mode' n').
Proof. intros m h. unfold input_indices. rewrite !split_chan by (auto; constructor). apply io_lines. Qed.
Definition class (mode : string) : chclass := if String.eqb mode "complex" then CComplex else if String.eqb mode "real" then CReal else CDigital.
Lemma class_chan mode dir n : Mode mode -> class_of (chan mode dir n) = Ok (class mode).
Proof. intros m. unfold class_of, chan. destruct m; reflexivity. Qed.
(** a channel contains the word "digital" exactly when it is one *)
Lemma contains_step p x s : contains p (String x s) = String.prefix p (String x s) || contains p s.
Proof. reflexivity. Qed.
Lemma lacks_contains c p : forall s, ~ lacks c p -> lacks c s -> contains p s = false.
Proof. intros s n. assert (P : forall s, lacks c s -> String.prefix p s = false).
  { induction p as [|x p IH]; [now destruct n|]. intros [|y t] h; [reflexivity|]. cbn. destruct (ascii_dec x y) as [->|]; [|reflexivity]. cbn in h. destruct h as [h1 h2]. apply IH; [|exact h2]. intros l. apply n. cbn. auto. }
  induction s as [|x s IH]; intros l; [change (String.prefix p "" || false = false); rewrite P by exact l; reflexivity|]. rewrite contains_step. rewrite P by exact l. cbn [orb]. apply IH. now destruct l. Qed.
Lemma lacks_cat c a b : lacks c a -> lacks c b -> lacks c (a ++ b)%string.
Proof. induction a as [|x a IH]; [auto|]. cbn. intuition auto. Qed.
Lemma dec_no c n : ~ digit_like c -> lacks c (dec_n n).
Proof. apply lacks_dec. Qed.
Ltac nod := unfold digit_like; cbn; intuition discriminate.
Ltac lack := unfold chan; repeat (apply lacks_cat; [cbn; intuition discriminate|]); apply dec_no; nod.
Lemma digital_chan mode dir n : Mode mode -> Dir dir -> contains "digital" (chan mode dir n) = String.eqb mode "digital".
Proof. intros m h. destruct m; cbn [String.eqb Ascii.eqb Bool.eqb].
  1,2: apply (lacks_contains "g"%char); [cbn; intuition congruence|destruct h; lack].
  change (contains "digital" ("" ++ "digital" ++ ("_" ++ dir ++ "_" ++ dec_n n)) = true)%string. apply contains_refl. Qed.
Lemma complex_chan mode dir n : Mode mode -> Dir dir -> contains "complex" (chan mode dir n) = String.eqb mode "complex".
Proof. intros m h. destruct m; cbn [String.eqb Ascii.eqb Bool.eqb].
  2,3: apply (lacks_contains "x"%char); [cbn; intuition congruence|destruct h; lack].
  change (contains "complex" ("" ++ "complex" ++ ("_" ++ dir ++ "_" ++ dec_n n)) = true)%string. apply contains_refl. Qed.
Lemma real_contains dir n : contains "real" (chan "real" dir n) = true.
Proof. change (contains "real" ("" ++ "real" ++ ("_" ++ dir ++ "_" ++ dec_n n)) = true)%string. apply contains_refl. Qed.
Lemma real_digital dir n : Dir dir -> contains "real" (chan "digital" dir n) = false.
Proof. intros h. apply (lacks_contains "e"%char); [cbn; intuition congruence|]. destruct h; lack. Qed.
