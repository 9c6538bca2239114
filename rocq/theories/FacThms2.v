(** C62: the pulses of gates. *)
From Coq Require Import Ascii.
From Verif Require Import Base DevModel DevSpec DevProps DevProps2 DevProps3 DevThms DevThms2 DevConf DevConfSpec DevConfProps DevConfThms DevConfThms2 DevConfThms4 TimingModel FacModel FacSpec FacProps FacThms.
Local Open Scope string_scope.

(** [x] is the element or edge [m] of the device after a session, and [cfg] the configuration made then *)
Definition configured (cfg : config) (m : string) (x : instr) : Prop :=
  exists n ops w d, session n ops = (w, d) /\ device_config w d = Ok cfg /\ In m (members d) /\ find_instrument w m = Ok x.

Definition setting (cfg : config) := setting_in (celements cfg ++ cedges cfg).

Lemma called : forall cfg m x op f g gate sg body, configured cfg m x -> In (op, Some f, g) (factories_of (icls x)) -> f <> "non_implemented_pulse" -> (forall k, In k g -> lookup k gate <> None) ->
  lookup f factories = Some (sg, body) ->
  exists a, gate_op cfg m op false gate [] = body a /\
    (forall k v, In k g -> lookup k gate = Some v -> at_ a k = v) /\
    (forall k v, ~ In k g -> setting cfg m op k = Some v -> at_ a k = v) /\
    (forall k v, In (k, Some v) sg -> ~ In k g -> setting cfg m op k = None -> at_ a k = v) /\
    (forall k s p v, In (op, k, s, p) (settings_of (icls x)) -> ~ In k g -> value x s p = Some v -> at_ a k = CV v) /\
    (forall k s, In (op, k, s) (op_clocks (icls x)) -> ~ In k g -> at_ a k = str (m ++ "." ++ s)) /\
    (forall s, In (op, s) (references_of (icls x)) -> ~ In "reference_magnitude" g -> exists r v, reference_of x s = Some r /\ ref_get r = Ok v /\ at_ a "reference_magnitude" = CR v).
Proof.
  intros cfg m x op f g gate sg body [n [ops [w [d [Sn [H [Hm Hx]]]]]]] Hf Nf G L.
  destruct (C62_arguments _ _ _ _ _ _ _ _ _ _ gate [] Sn H Hm Hx Hf Nf G) as [sg' [body' [a [L' [E [P1 [P2 P3]]]]]]]. rewrite L in L'. injection L' as <- <-.
  exists a. split; [exact E|]. unfold at_, setting.
  assert (Q : forall k v, ~ In k g -> setting_in (celements cfg ++ cedges cfg) m op k = Some v -> lookup k a = Some v) by (intros k v A B; now rewrite (P2 _ _ A B)).
  refine (conj _ (conj _ (conj _ (conj _ (conj _ _))))).
  - intros k v A B. now rewrite (P1 _ _ A B).
  - intros k v A B. now rewrite (Q _ _ A B).
  - intros k v A B C. now rewrite (P3 _ _ A B C).
  - intros k s p v A B C. destruct (C59_settings _ _ _ _ _ _ _ _ _ _ _ Sn H Hm Hx A) as [v' [V S]]. rewrite C in V. injection V as <-. now rewrite (Q _ _ B S).
  - intros k s A B. pose proof (C59_clocks_used _ _ _ _ _ _ _ _ _ _ Sn H Hm Hx A) as S. now rewrite (Q _ _ B S).
  - intros s A B. destruct (C59_reference_magnitude _ _ _ _ _ _ _ _ _ Sn H Hm Hx A) as [r [v [R [V S]]]]. exists r, v. repeat split; auto. now rewrite (Q _ _ B S).
Qed.
Lemma no_setting : forall cfg m x op k t, configured cfg m x -> In (op, t) (templates (icls x)) -> ~ In k (map fst (tkws t)) -> setting cfg m op k = None.
Proof.
  intros cfg m x op k t [n [ops [w [d [Sn [H [Hm Hx]]]]]]] It Ik. destruct (entry _ _ _ _ _ _ _ Sn H Hm Hx) as [o [Ho Lo]]. destruct (operations_entry _ _ _ _ _ Ho It) as [c [Lc Ec]].
  unfold setting, setting_in. rewrite Lo, Lc. apply lookup_none. destruct (eval_op_parts _ _ _ _ Ec) as [_ [_ ->]]. exact Ik.
Qed.
Lemma fl_number : forall v q, number v = Some q -> fl (CV v) = Ok (Some q).
Proof. intros v q H. unfold fl. destruct v; try discriminate H; cbn in *; now rewrite ?H. Qed.
Lemma made_one : forall n (e : dict) q t, fl (at_ e "t0") = Ok (Some q) -> fl (at_ e "duration") = Ok (Some t) -> made n [e] [] = Ok (DOp n [e] []).
Proof. intros n e q t A B. unfold made. cbn [app mapM]. unfold arith. rewrite A, B. reflexivity. Qed.
Lemma made_acq : forall n (e : dict) q t, fl (at_ e "t0") = Ok (Some q) -> fl (at_ e "duration") = Ok (Some t) -> made n [] [e] = Ok (DOp n [] [e]).
Proof. intros n e q t A B. unfold made. cbn [app mapM]. unfold arith. rewrite A, B. reflexivity. Qed.
Lemma interpolated_ok : forall a t p q, fl a = Ok (Some p) -> fl t = Ok (Some q) -> exists g, interpolated a t = Ok (numq g) /\ g == p * q / 180.
Proof. intros a t p q A B. unfold interpolated, divide, arith. rewrite A, B. cbn -[Qdiv Qmult]. eexists. split; [reflexivity|]. reflexivity. Qed.
Ltac fs := unfold fields; repeat (apply Forall_cons || apply Forall_nil); cbn [fst snd]; try reflexivity.
Ltac side := first [solve [eassumption] | solve [find_in] | solve [cbn; repeat (first [left; reflexivity | right])] | solve [cbn; intuition discriminate] | idtac].
Ltac in_gate G := intros k K; cbn in K; repeat (destruct K as [<-|K]; [congruence|]); destruct K.

(** The pulse of Rxy(theta, phi) on a transmon: a DRAG pulse with the amplitude of the calibrated pi pulse scaled by theta / 180, and phase phi. *)
Theorem C62_rxy_transmon : forall cfg m x gate va a vm vt t port vth theta phi, configured cfg m x -> icls x = BasicTransmonElement ->
  value x "rxy" "amp180" = Some va -> number va = Some a -> value x "rxy" "motzoi" = Some vm -> value x "rxy" "duration" = Some vt -> number vt = Some t ->
  value x "ports" "microwave" = Some port -> lookup "theta" gate = Some vth -> fl vth = Ok (Some theta) -> lookup "phi" gate = Some phi ->
  exists e amp ref, gate_op cfg m "Rxy" false gate [] = Ok (DOp "DRAGPulse" [e] []) /\ amp == a * (theta / 180) /\
    (exists r, reference_of x "rxy" = Some r /\ ref_get r = Ok ref) /\
    fields e [("wf_func", str "quantify_scheduler.waveforms.drag"); ("G_amp", numq amp); ("D_amp", CV vm); ("phase", phi); ("duration", CV vt); ("port", CV port); ("clock", str (m ++ ".01"));
              ("nr_sigma", CV (VInt 4)); ("reference_magnitude", CR ref); ("t0", zero)].
Proof.
  intros cfg m x gate va a vm vt t port vth theta phi C X A1 A2 M T1 T2 P Th1 Th2 Ph.
  destruct (called cfg m x "Rxy" "rxy_drag_pulse" ["theta"; "phi"] gate rxy_drag_sig rxy_drag_pulse C) as [ar [E [G [_ [_ [S [K R]]]]]]]; rewrite ?X; [find_in | discriminate | in_gate G | reflexivity |].
  rewrite X in S, K, R. destruct (R "rxy") as [r [ref [R1 [R2 R3]]]]; [find_in | cbn; intuition discriminate|].
  unfold rxy_drag_pulse in E. rewrite (S "amp180" "rxy" "amp180" va), (G "theta" vth), (S "motzoi" "rxy" "motzoi" vm), (G "phi" phi), (S "duration" "rxy" "duration" vt), (S "port" "ports" "microwave" port), (K "clock" "01"), R3 in E by side.
  destruct (interpolated_ok (CV va) vth a theta (fl_number _ _ A2) Th2) as [g [Eg Hg]]. rewrite Eg in E. cbn [bind] in E. unfold drag_pulse, drag_entry in E.
  erewrite made_one in E; [|reflexivity | exact (fl_number _ _ T2)]. eexists _, g, ref. split; [exact E|]. split; [rewrite Hg; field|]. split; [eauto|]. fs.
Qed.
Theorem C62_rxy_spin : forall cfg m x gate va a vt t port vth theta phi, configured cfg m x -> icls x = BasicSpinElement ->
  value x "rxy" "amp180" = Some va -> number va = Some a -> value x "rxy" "duration" = Some vt -> number vt = Some t ->
  value x "ports" "microwave" = Some port -> lookup "theta" gate = Some vth -> fl vth = Ok (Some theta) -> lookup "phi" gate = Some phi ->
  exists e amp ref, gate_op cfg m "Rxy" false gate [] = Ok (DOp "GaussPulse" [e] []) /\ amp == a * (theta / 180) /\
    (exists r, reference_of x "rxy" = Some r /\ ref_get r = Ok ref) /\
    fields e [("wf_func", str "quantify_scheduler.waveforms.drag"); ("G_amp", numq amp); ("D_amp", zero); ("phase", phi); ("duration", CV vt); ("port", CV port); ("clock", str (m ++ ".f_larmor"));
              ("nr_sigma", CV (VInt 4)); ("reference_magnitude", CR ref); ("t0", zero)].
Proof.
  intros cfg m x gate va a vt t port vth theta phi C X A1 A2 T1 T2 P Th1 Th2 Ph.
  destruct (called cfg m x "Rxy" "rxy_gauss_pulse" ["theta"; "phi"] gate rxy_gauss_sig rxy_gauss_pulse C) as [ar [E [G [_ [_ [S [K R]]]]]]]; rewrite ?X; [find_in | discriminate | in_gate G | reflexivity |].
  rewrite X in S, K, R. destruct (R "rxy") as [r [ref [R1 [R2 R3]]]]; [find_in | cbn; intuition discriminate|].
  unfold rxy_gauss_pulse in E. rewrite (S "amp180" "rxy" "amp180" va), (G "theta" vth), (G "phi" phi), (S "duration" "rxy" "duration" vt), (S "port" "ports" "microwave" port), (K "clock" "f_larmor"), R3 in E by side.
  destruct (interpolated_ok (CV va) vth a theta (fl_number _ _ A2) Th2) as [g [Eg Hg]]. rewrite Eg in E. cbn [bind] in E. unfold gauss_pulse, drag_entry in E.
  erewrite made_one in E; [|reflexivity | exact (fl_number _ _ T2)]. eexists _, g, ref. split; [exact E|]. split; [rewrite Hg; field|]. split; [eauto|]. fs.
Qed.
(** On an NV centre the shape is that of the parameter pulse_shape. *)
Theorem C62_rxy_nv : forall cfg m x gate va a vs shape vt t port vth theta phi, configured cfg m x -> icls x = BasicElectronicNVElement ->
  value x "rxy" "amp180" = Some va -> number va = Some a -> value x "rxy" "skewness" = Some vs -> value x "rxy" "pulse_shape" = Some (VStr shape) -> value x "rxy" "duration" = Some vt -> number vt = Some t ->
  value x "ports" "microwave" = Some port -> lookup "theta" gate = Some vth -> fl vth = Ok (Some theta) -> lookup "phi" gate = Some phi -> In shape ["SkewedHermitePulse"; "GaussPulse"] ->
  exists e amp, gate_op cfg m "Rxy" false gate [] = Ok (DOp shape [e] []) /\ amp == a * (theta / 180) /\
    fields e [("phase", phi); ("duration", CV vt); ("port", CV port); ("clock", str (m ++ ".spec")); ("reference_magnitude", none); ("t0", zero)] /\
    (shape = "SkewedHermitePulse" -> fields e [("wf_func", str "quantify_scheduler.waveforms.skewed_hermite"); ("amplitude", numq amp); ("skewness", CV vs)]) /\
    (shape = "GaussPulse" -> fields e [("wf_func", str "quantify_scheduler.waveforms.drag"); ("G_amp", numq amp); ("D_amp", zero)]).
Proof.
  intros cfg m x gate va a vs shape vt t port vth theta phi C X A1 A2 Sk Sh T1 T2 P Th1 Th2 Ph Hs.
  destruct (called cfg m x "Rxy" "rxy_pulse" ["theta"; "phi"] gate rxy_sig rxy_pulse C) as [ar [E [G [_ [D [S [K _]]]]]]]; rewrite ?X; [find_in | discriminate | in_gate G | reflexivity |].
  rewrite X in S, K. unfold rxy_pulse in E.
  rewrite (S "amp180" "rxy" "amp180" va), (G "theta" vth), (S "skewness" "rxy" "skewness" vs), (S "pulse_shape" "rxy" "pulse_shape" (VStr shape)), (G "phi" phi), (S "duration" "rxy" "duration" vt), (S "port" "ports" "microwave" port), (K "clock" "spec") in E by side.
  assert (R : at_ ar "reference_magnitude" = none).
  { apply (D _ none); [cbn; repeat (first [left; reflexivity|right]) | cbn; intuition discriminate|]. eapply (no_setting _ _ _ _ _ _ C); [rewrite X; cbn [templates]; find_in | cbn; intuition discriminate]. }
  rewrite R in E. destruct (interpolated_ok (CV va) vth a theta (fl_number _ _ A2) Th2) as [g [Eg Hg]]. rewrite Eg in E. cbn [bind] in E. unfold gauss_pulse, skewed_hermite_pulse, drag_entry in E.
  assert (Hg' : g == a * (theta / 180)) by (rewrite Hg; field).
  destruct Hs as [<-|[<-|[]]]; cbn [is_str] in E;
    [change ("SkewedHermitePulse" =? "SkewedHermitePulse") with true in E | change ("GaussPulse" =? "SkewedHermitePulse") with false in E; change ("GaussPulse" =? "GaussPulse") with true in E]; cbv iota in E;
    (erewrite made_one in E; [|reflexivity | exact (fl_number _ _ T2)]); eexists _, g; (split; [exact E|]); (split; [exact Hg'|]); (split; [fs|]); split; intros Q; try discriminate Q; fs.
Qed.
(** Rz is a shift of the phase of the clock, by theta and without duration; the other gates *)
Theorem C62_rz : forall cfg m x gate theta, configured cfg m x -> icls x = BasicTransmonElement \/ icls x = BasicSpinElement -> lookup "theta" gate = Some theta ->
  exists e, gate_op cfg m "Rz" false gate [] = Ok (DOp "ShiftClockPhase" [e] []) /\
    fields e [("wf_func", none); ("phase_shift", theta); ("clock", str (m ++ (match icls x with BasicTransmonElement => ".01" | _ => ".f_larmor" end))); ("t0", zero); ("duration", zero)].
Proof.
  intros cfg m x gate theta C X T.
  destruct (called cfg m x "Rz" "phase_shift" ["theta"] gate phase_shift_sig phase_shift C) as [ar [E [G [_ [_ [_ [K _]]]]]]]; [destruct X as [-> | ->]; find_in | discriminate | in_gate G | reflexivity |].
  unfold phase_shift in E. destruct X as [X|X]; rewrite X in *; [rewrite (G "theta" theta), (K "clock" "01") in E by side | rewrite (G "theta" theta), (K "clock" "f_larmor") in E by side];
    unfold shift_clock_phase in E; (erewrite made_one in E; [|reflexivity|reflexivity]); eexists; (split; [exact E|]); fs.
Qed.
Theorem C62_reset : forall cfg m x gate vt t, configured cfg m x -> value x "reset" "duration" = Some vt -> number vt = Some t ->
  (icls x = BasicTransmonElement \/ icls x = BasicSpinElement ->
     exists e, gate_op cfg m "reset" false gate [] = Ok (DOp "IdlePulse" [e] []) /\ fields e [("duration", CV vt); ("t0", zero); ("port", none)]) /\
  (icls x = BasicElectronicNVElement -> forall va port, value x "reset" "amplitude" = Some va -> value x "ports" "optical_control" = Some port ->
     exists e, gate_op cfg m "reset" false gate [] = Ok (DOp "SquarePulse" [e] []) /\
       fields e [("amp", CV va); ("duration", CV vt); ("t0", zero); ("port", CV port); ("clock", str (m ++ ".ge1"))]).
Proof.
  intros cfg m x gate vt t C T1 T2. split.
  - intros X. destruct (called cfg m x "reset" "IdlePulse" [] gate (req ["duration"]) (fun a => idle_pulse (at_ a "duration")) C) as [ar [E [_ [_ [_ [S _]]]]]]; [destruct X as [-> | ->]; find_in | discriminate | intros k [] | reflexivity |].
    rewrite (S "duration" "reset" "duration" vt) in E by (first [solve [eassumption] | solve [destruct X as [-> | ->]; find_in] | solve [intros []]]).
    unfold idle_pulse in E. erewrite made_one in E; [|reflexivity | exact (fl_number _ _ T2)]. eexists. split; [exact E|]. fs.
  - intros X va port A P. destruct (called cfg m x "reset" "SquarePulse" [] gate _ _ C ltac:(rewrite X; find_in) ltac:(discriminate) ltac:(intros k []) eq_refl) as [ar [E [_ [_ [D [S [K _]]]]]]].
    rewrite X in S, K. rewrite (S "duration" "reset" "duration" vt), (S "amp" "reset" "amplitude" va), (S "port" "ports" "optical_control" port), (K "clock" "ge1") in E by (first [solve [eassumption] | solve [find_in] | solve [intros []]]).
    assert (T0 : at_ ar "t0" = zero).
    { apply (D _ zero); [cbn; repeat (first [left; reflexivity|right]) | intros []|]. eapply (no_setting _ _ _ _ _ _ C); [rewrite X; cbn [templates]; find_in | cbn; intuition discriminate]. }
    rewrite T0 in E. unfold square_pulse in E. erewrite made_one in E; [|reflexivity | exact (fl_number _ _ T2)]. eexists. split; [exact E|]. fs.
Qed.
(** H is a Z and then a Y90 on the same element *)
Theorem C62_hadamard : forall cfg m x gate, configured cfg m x -> icls x = BasicTransmonElement \/ icls x = BasicSpinElement ->
  gate_op cfg m "H" false gate [] = Ok (DSched None [(DGate "Z" [m], None, zero); (DGate "Y90" [m], None, zero)]).
Proof.
  intros cfg m x gate C X. destruct (called cfg m x "H" "hadamard_as_y90z" [] gate _ _ C ltac:(destruct X as [-> | ->]; find_in) ltac:(discriminate) ltac:(intros k []) eq_refl) as [ar [E [_ [P _]]]].
  destruct C as [n [ops [w [d [Sn [H [Hm Hx]]]]]]]. rewrite E. unfold hadamard_as_y90z. now rewrite (P _ _ ltac:(intros []) (C59_hadamard_qubit _ _ _ _ _ _ _ Sn H Hm Hx X)).
Qed.
(** CNOT and SpinInit on a spin edge are not implemented *)
Theorem C62_spin_edge_not_implemented : forall cfg m x gate over op, configured cfg m x -> icls x = SpinEdge -> In op ["CNOT"; "SpinInit"] -> gate_op cfg m op false gate over = Err NotImplementedErr.
Proof.
  intros cfg m x gate over op [n [ops [w [d [Sn [H [Hm Hx]]]]]]] X I. destruct (entry _ _ _ _ _ _ _ Sn H Hm Hx) as [o [Ho Lo]].
  assert (T : exists t, In (op, t) (templates (icls x)) /\ t = op1 (Some "non_implemented_pulse") [] []) by (rewrite X; destruct I as [<-|[<-|[]]]; eexists; (split; [cbn [templates]; find_in | reflexivity])).
  destruct T as [t [It ->]]. destruct (operations_entry _ _ _ _ _ Ho It) as [c [Lc Ec]]. unfold gate_op. rewrite Lo, Lc. cbn in Ec. injection Ec as <-. reflexivity.
Qed.
