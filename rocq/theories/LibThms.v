(** C44: the library experiment schedules. *)
From Verif Require Import Base TimingModel TimingSpec LibModel LibSpec LibProps LibEngine LibProps2.
Open Scope Q_scope.
Open Scope string_scope.
Open Scope list_scope.

Definition b_t1 (q : string) (base i : nat) (tau : Q) : list entry :=
  [ ("Reset " ++ dec i, mk_tc None None 0, ResetGate [q]); ("pi " ++ dec i, mk_tc None None 0, XGate q);
    ("Measurement " ++ dec i, mk_tc None (Some PtStart) tau, MeasureGate [q] None None) ]%string.

(** T1: for every setpoint a reset, a pi pulse, and a measurement that starts tau after the start of the pi pulse *)
Theorem C44_t1 : forall u gdur gdelay times q reps,
  Uuids u -> as_array times <> [] -> OnlyMeasureDelays gdelay ->
  exists s tl, t1_sched u times q reps = Ok s /\ l_reps s = reps /\ Timeline gdur gdelay s tl /\ List.length tl = (3 * List.length (as_array times))%nat /\
    forall i tau, nth_error (as_array times) i = Some tau ->
    exists t_reset t_pi t_meas,
      Segment tl (3 * i) [ ("Reset " ++ dec i, ResetGate [q], t_reset); ("pi " ++ dec i, XGate q, t_pi); ("Measurement " ++ dec i, MeasureGate [q] None None, t_meas) ]%string /\
      AfterPrevious gdur gdelay tl (3 * i) /\ t_pi == t_reset + gdur (ResetGate [q]) /\ t_meas == t_pi + tau.
Proof. intros u gdur gdelay times q reps hu hne hd. unfold t1_sched. set (xs := as_array times) in *.
  lib_run u gdur gdelay hu (b_t1 q) hne T h1 h2 h3.
  exists (ext (new reps) (blocks (b_t1 q) 0 0 xs)), (tl_of (blocks (b_t1 q) 0 0 xs) T). split; [exact h1|]. split; [reflexivity|]. split; [exact h2|].
  split; [rewrite tl_len; now apply blocks_len|]. intros i tau hi.
  destruct (block_at (b_t1 q) xs i tau 3 T (fun _ _ _ => eq_refl) hi) as (hs & _). exists (T (3 * i + 0)%nat), (T (3 * i + 1)%nat), (T (3 * i + 2)%nat).
  split; [seg_ok hs|]. split; [lib_first (b_t1 q) 3%nat hi h3 hd|]. split; [lib_prev (b_t1 q) 3%nat hi h3 hd 0%nat | lib_prev (b_t1 q) 3%nat hi h3 hd 1%nat]. Qed.

Definition b_ramsey (u : nat -> string) (q : string) (det : Q) (base i : nat) (tau : Q) : list entry :=
  [ ("Reset " ++ dec i, mk_tc None None 0, ResetGate [q]); (u (base + 1)%nat, mk_tc None None 0, X90Gate q);
    (u (base + 2)%nat, mk_tc None (Some PtStart) tau, RxyGate 90 (360 * det * tau) q); ("Measurement " ++ dec i, mk_tc None None 0, MeasureGate [q] None None) ]%string.

(** Ramsey: the second pi/2 pulse starts tau after the first; its phase is 360 degrees times the detuning times tau *)
Theorem C44_ramsey : forall u gdur gdelay times q det reps,
  Uuids u -> as_array times <> [] -> OnlyMeasureDelays gdelay ->
  exists s tl, ramsey_sched u times q det reps = Ok s /\ l_reps s = reps /\ Timeline gdur gdelay s tl /\ List.length tl = (4 * List.length (as_array times))%nat /\
    forall i tau, nth_error (as_array times) i = Some tau ->
    exists n1 n2 t_reset t_first t_second t_meas,
      Segment tl (4 * i) [ ("Reset " ++ dec i, ResetGate [q], t_reset); (n1, X90Gate q, t_first); (n2, RxyGate 90 (360 * det * tau) q, t_second);
                           ("Measurement " ++ dec i, MeasureGate [q] None None, t_meas) ]%string /\
      AfterPrevious gdur gdelay tl (4 * i) /\ t_first == t_reset + gdur (ResetGate [q]) /\ t_second == t_first + tau /\
      t_meas == t_second + gdur (RxyGate 90 (360 * det * tau) q).
Proof. intros u gdur gdelay times q det reps hu hne hd. unfold ramsey_sched. set (xs := as_array times) in *.
  set (b := b_ramsey u q det). lib_run u gdur gdelay hu (b_ramsey u q det) hne T h1 h2 h3.
  exists (ext (new reps) (blocks b 0 0 xs)), (tl_of (blocks b 0 0 xs) T). split; [exact h1|]. split; [reflexivity|]. split; [exact h2|].
  split; [rewrite tl_len; now apply blocks_len|]. intros i tau hi.
  destruct (block_at b xs i tau 4 T (fun _ _ _ => eq_refl) hi) as (hs & _).
  do 2 eexists; exists (T (4 * i + 0)%nat), (T (4 * i + 1)%nat), (T (4 * i + 2)%nat), (T (4 * i + 3)%nat).
  split; [seg_ok hs|]. split; [lib_first b 4%nat hi h3 hd|]. split; [lib_prev b 4%nat hi h3 hd 0%nat|]. split; [lib_prev b 4%nat hi h3 hd 1%nat | lib_prev b 4%nat hi h3 hd 2%nat]. Qed.
