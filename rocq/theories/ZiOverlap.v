(** C46: acquisitions of one channel do not overlap in an accepted schedule. *)
From Verif Require Import Base ZiModel ZiSpec ZiProps ZiShift ZiCompile ZiExamples.
From Coq Require Import Permutation Qfield Lqa.
Open Scope Q_scope.

Lemma apart_first l : forall a, neighbours_overlap (a :: l) = false -> (forall r, In r (a :: l) -> 0 <= r_duration r) -> forall b, In b l -> r_time a + r_duration a <= r_time b.
Proof. induction l as [|c l IH]; intros a h hd b hb; [destruct hb|]. cbn [neighbours_overlap] in h. apply orb_false_iff in h. destruct h as [h1 h2].
  assert (AC : r_time a + r_duration a <= r_time c). { unfold Qlt_bool in h1. apply negb_false_iff in h1. apply Qle_bool_iff in h1. exact h1. }
  destruct hb as [<-|hb]; [exact AC|]. pose proof (IH c h2 (fun r hr => hd r (or_intror hr)) b hb) as CB. pose proof (hd c (or_intror (or_introl eq_refl))) as DC. lra. Qed.
Lemma apart_all l : neighbours_overlap l = false -> (forall r, In r l -> 0 <= r_duration r) -> forall i j a b, (i < j)%nat -> nth_error l i = Some a -> nth_error l j = Some b -> r_time a + r_duration a <= r_time b.
Proof. induction l as [|c l IH]; intros h hd i j a b hij ha hb; [destruct i; discriminate|]. destruct j as [|j]; [lia|]. cbn in hb. destruct i as [|i]; cbn in ha.
  - injection ha as <-. eapply apart_first; eauto. eapply nth_error_In; eauto.
  - apply (IH) with (i := i) (j := j); auto; [destruct l; [reflexivity|]; cbn [neighbours_overlap] in h; apply orb_false_iff in h; apply h| |lia]. intros r hr. apply hd. now right. Qed.
Lemma filter_nth {A} (p : A -> bool) l : forall i j a b, (i < j)%nat -> nth_error l i = Some a -> nth_error l j = Some b -> p a = true -> p b = true -> exists i' j', (i' < j')%nat /\ nth_error (filter p l) i' = Some a /\ nth_error (filter p l) j' = Some b.
Proof. induction l as [|c l IH]; intros i j a b hij ha hb pa pb; [destruct i; discriminate|]. destruct j as [|j]; [lia|]. cbn in hb. destruct i as [|i]; cbn in ha.
  - injection ha as ->. cbn [filter]. rewrite pa. assert (In b (filter p l)) as hi by (apply filter_In; split; [eapply nth_error_In; eauto|exact pb]). apply In_nth_error in hi. destruct hi as (n & hn). exists 0%nat, (S n). split; [lia|]. split; [reflexivity|exact hn].
  - destruct (IH i j a b ltac:(lia) ha hb pa pb) as (i' & j' & h1 & h2 & h3). cbn [filter]. destruct (p c); [exists (S i'), (S j')|exists i', j']; (split; [lia|]); auto. Qed.

(** Of two acquisitions of one channel the second starts when the first has ended, at the earliest. *)
Theorem C46_acquisitions_apart srt s devs lat cfg : compile srt s devs lat = Ok cfg -> exists l, corrected_table srt s devs lat = Ok l /\
  ((forall e, In e l -> 0 <= r_duration (e_row e)) -> forall i j e f ch, (i < j)%nat -> nth_error l i = Some e -> nth_error l j = Some f -> r_is_acq (e_row e) = true -> r_is_acq (e_row f) = true -> e_channel e = Some ch -> e_channel f = Some ch -> r_time (e_row e) + r_duration (e_row e) <= r_time (e_row f)).
Proof. intros h. destruct (compile_inv _ _ _ _ _ h) as (l & ops & wf & hl & ho & _). exists l. split; [exact hl|]. intros hd i j e f ch hij he hf ae af ce cf.
  assert (NO : neighbours_overlap (map e_row (filter (fun e' => on_channel ch e' && r_is_acq (e_row e')) l)) = false). { unfold ensure_no_overlap in ho. destruct (existsb _ l) eqn:ex in ho; [discriminate|]. rewrite <- not_true_iff_false in ex. apply not_true_iff_false. intros q. apply ex. apply existsb_exists. exists e. split; [eapply nth_error_In; eauto|]. rewrite ce. exact q. }
  assert (ON : forall x, e_channel x = Some ch -> r_is_acq (e_row x) = true -> on_channel ch x && r_is_acq (e_row x) = true). { intros x cx ax. rewrite ax. unfold on_channel, chan_eqb. rewrite cx, String.eqb_refl, Nat.eqb_refl. reflexivity. }
  destruct (filter_nth (fun x => on_channel ch x && r_is_acq (e_row x)) _ _ _ _ _ hij he hf (ON e ce ae) (ON f cf af)) as (i' & j' & k1 & k2 & k3).
  apply (apart_all _ NO) with (i := i') (j := j'); [|exact k1|now apply map_nth_error|now apply map_nth_error].
  intros r hr. apply in_map_iff in hr. destruct hr as (x & <- & hx). apply filter_In in hx. apply hd, hx. Qed.

(** Met by an accepted schedule with two acquisitions on one channel. *)
Example apart_met : accepted (compile by_time (sched [(acq_at "SSB(a)" 0, ns 205); (acq_at "SSB(b)" 1, ns 1500)]) [uhfqa] []) = true /\ forallb (fun e => Qle_bool 0 (r_duration (e_row e))) (table by_time (sched [(acq_at "SSB(a)" 0, ns 205); (acq_at "SSB(b)" 1, ns 1500)]) [uhfqa] []) = true.
Proof. vm_compute. auto. Qed.
