(** Model of the acquisition settings of a sequencer of the Qblox backend: [_prepare_acq_settings] of QRM (backends/qblox/analog.py l.227-415) and of QTM (backends/qblox/timetag.py l.266-440).
    Durations are in ns; floats are rationals. *)
From Verif Require Import Base NumericModel.

Inductive prot := Trace | SSBIntegrationComplex | ThresholdedAcquisition | WeightedIntegratedSeparated | NumericalSeparatedWeightedIntegration | NumericalWeightedIntegration
  | WeightedThresholdedAcquisition | TriggerCount | ThresholdedTriggerCount | DualThresholdedTriggerCount | Timetag | TimetagTrace.
Inductive binmode := APPEND | AVERAGE | SUM | DISTRIBUTION | FIRST.
Inductive cond := LESS_THAN | GREATER_THAN_EQUAL_TO.
Inductive tsource := SrcFirst | SrcSecond | SrcLast.
Inductive tref := RefStart | RefEnd | RefFirst | RefTimestamp | RefPort.
(** An entry of acquisition_info that reached the sequencer.  An [option] is a key that may be absent (operations/acquisition_library.py; C42 for the addresses).
    [addr]: feedback_trigger_address (absent if there is no label); [addrs]: feedback_trigger_addresses at low, mid, high, invalid.
    Simplified: acq_rotation and acq_threshold are numbers if present. *)
Record acq := { protocol : prot; bin_mode : binmode; duration : Q; channel : nat; rotation : option Q; threshold : option Q; addr : option (option Z);
                counts : option (Z * cond); dual : option (Z * Z); addrs : option (option Z * option Z * option Z * option Z); time : option (tsource * tref * option Z) }.

Definition prot_eqb (a b : prot) : bool :=
  match a, b with
  | Trace, Trace | SSBIntegrationComplex, SSBIntegrationComplex | ThresholdedAcquisition, ThresholdedAcquisition | WeightedIntegratedSeparated, WeightedIntegratedSeparated
  | NumericalSeparatedWeightedIntegration, NumericalSeparatedWeightedIntegration | NumericalWeightedIntegration, NumericalWeightedIntegration | WeightedThresholdedAcquisition, WeightedThresholdedAcquisition
  | TriggerCount, TriggerCount | ThresholdedTriggerCount, ThresholdedTriggerCount | DualThresholdedTriggerCount, DualThresholdedTriggerCount | Timetag, Timetag | TimetagTrace, TimetagTrace => true
  | _, _ => false
  end.
Definition has (p : prot) (l : list acq) : bool := existsb (fun a => prot_eqb (protocol a) p) l.
Definition is_distribution (a : acq) : bool := match bin_mode a with DISTRIBUTION => true | _ => false end.
Definition cond_eqb (a b : cond) : bool := match a, b with LESS_THAN, LESS_THAN | GREATER_THAN_EQUAL_TO, GREATER_THAN_EQUAL_TO => true | _, _ => false end.
Definition tsource_eqb (a b : tsource) : bool := match a, b with SrcFirst, SrcFirst | SrcSecond, SrcSecond | SrcLast, SrcLast => true | _, _ => false end.
Definition tref_eqb (a b : tref) : bool := match a, b with RefStart, RefStart | RefEnd, RefEnd | RefFirst, RefFirst | RefTimestamp, RefTimestamp | RefPort, RefPort => true | _, _ => false end.
Definition oz_eqb (a b : option Z) : bool := match a, b with Some x, Some y => Z.eqb x y | None, None => true | _, _ => false end.

(** compiler_abc.py l.307-320 [_get_unique_value_or_raise] *)
Definition unique {A} (eqb : A -> A -> bool) (l : list A) : result A :=
  match l with [] => Err ValueError | x :: r => if forallb (eqb x) r then Ok x else Err ValueError end.
(** data[key] of all acquisitions: KeyError if the key is absent *)
Definition need {A B} (f : A -> option B) (l : list A) : result (list B) := mapM (fun a => match f a with Some v => Ok v | None => Err KeyError end) l.
Definition the {A B} (eqb : B -> B -> bool) (f : A -> option B) (l : list A) : result B := do vs <- need f l; unique eqb vs.

(** ** QRM: analog.py l.227-415 *)
Record qrm_settings := { ttl_auto : option bool; ttl_input : option nat; write_en : option bool; write_address : option Z; acq_rotation : option Q; acq_threshold : option Q; integration_length : option Z }.
(** factory_analog.py l.86-100: [SquareAcquisitionStrategy] and [WeightedAcquisitionStrategy] *)
Definition integrates (a : acq) : bool := match protocol a with TriggerCount | ThresholdedTriggerCount | DualThresholdedTriggerCount | Timetag | TimetagTrace => false | _ => true end.
(** l.385-415 [_get_integration_length_from_acquisitions]; GRID_TIME = 1, no remainder *)
Fixpoint length_of (l : list acq) (sofar : option Z) : result (option Z) :=
  match l with
  | [] => Ok sofar
  | a :: r => if integrates a then
                let n := py_round (duration a) in
                if negb (Z.eqb (n mod 1) 0) then Err ValueError
                else match sofar with None => length_of r (Some n) | Some m => if Z.eqb m n then length_of r sofar else Err ValueError end
              else length_of r sofar
  end.
(** l.339-383 [_prepare_thresholded_acquisition_settings]; constants.py l.84-91 *)
Definition prepare_thresholded (l : list acq) : result (Q * Q) :=
  do rot <- the Qeq_bool rotation l;
  do thr <- the Qeq_bool threshold l;
  if negb (Qle_bool 0 rot && Qle_bool rot 360) then Err ValueError
  else if negb (Qle_bool (- (16777212)) thr && Qle_bool thr 16777212) then Err ValueError
  else match l with [] => Err IndexError | a :: _ => Ok (rot, (thr * duration a)%Q) end.
(** compiler_abc.py l.484-524 [_validate_thresholded_trigger_count_metadata_by_acq_channel] *)
Fixpoint validate_counts (l : list acq) (seen : list (nat * (Z * cond))) : result unit :=
  match l with
  | [] => Ok tt
  | a :: r => if prot_eqb (protocol a) ThresholdedTriggerCount then
                match counts a with
                | None => Err KeyError
                | Some (t, c) =>
                    match find (fun x => Nat.eqb (fst x) (channel a)) seen with
                    | Some (_, (t', c')) => if Z.eqb t t' && cond_eqb c c' then validate_counts r ((channel a, (t, c)) :: seen) else Err ValueError
                    | None => validate_counts r ((channel a, (t, c)) :: seen)
                    end
                end
              else validate_counts r seen
  end.
Definition qrm (inputs : list nat) (l : list acq) : result qrm_settings :=
  let tc := filter (fun a => prot_eqb (protocol a) TriggerCount) l in
  let ttc := filter (fun a => prot_eqb (protocol a) ThresholdedTriggerCount) l in
  if existsb is_distribution tc && negb (forallb is_distribution tc) then Err RuntimeError else
  do ttl <- (if match tc, ttc with [], [] => false | _, _ => true end then
               match inputs with [n] => Ok (Some (existsb is_distribution tc || existsb is_distribution ttc), Some n) | _ => Err ValueError end
             else Ok (None, None));
  do wr <- (if has ThresholdedAcquisition l || has ThresholdedTriggerCount l || has WeightedThresholdedAcquisition l then
              match flat_map (fun a => match addr a with Some (Some z) => [z] | _ => [] end) l with
              | [] => Ok (Some false, None)
              | zs => do z <- unique Z.eqb zs; Ok (Some true, Some z)
              end
            else Ok (None, None));
  do th <- (if has ThresholdedAcquisition l || has WeightedThresholdedAcquisition l then
              do x <- prepare_thresholded (filter (fun a => match rotation a, threshold a with None, None => false | _, _ => true end) l); Ok (Some (fst x), Some (snd x))
            else do _ <- (if has ThresholdedTriggerCount l then validate_counts l [] else Ok tt); Ok (None, None));
  do n <- length_of l None;
  Ok {| ttl_auto := fst ttl; ttl_input := snd ttl; write_en := fst wr; write_address := snd wr; acq_rotation := fst th; acq_threshold := snd th; integration_length := n |}.

(** ** QTM: timetag.py l.266-440 *)
Inductive trace_type := SCOPE | TIMETAG.
Record qtm_settings := { scope : option trace_type; trace_duration : option Z; t_source : option tsource; t_ref : option tref; t_channel : option Z;
                         w_en : bool; thr_low : option Z; thr_high : option Z; a_low : Z; a_mid : Z; a_high : Z; a_invalid : Z }.
Definition no_write := (false, @None Z, @None Z, 0%Z, 0%Z, 0%Z, 0%Z).
Definition or0 (x : option Z) : Z := match x with Some z => z | None => 0%Z end.
(** l.330-372 *)
Definition single (l : list acq) : result (bool * option Z * option Z * Z * Z * Z * Z) :=
  do t <- the Z.eqb (fun a => option_map fst (counts a)) l;
  do c <- the cond_eqb (fun a => option_map snd (counts a)) l;
  do zs <- need addr l;
  do z <- unique Z.eqb (flat_map (fun o => match o with Some z => [z] | None => [] end) zs);
  Ok (match c with LESS_THAN => (true, Some t, Some t, z, 0%Z, 0%Z, 0%Z) | GREATER_THAN_EQUAL_TO => (true, Some t, Some t, 0%Z, 0%Z, z, 0%Z) end).
(** l.374-430 *)
Definition double (l : list acq) : result (bool * option Z * option Z * Z * Z * Z * Z) :=
  do lo <- the Z.eqb (fun a => option_map fst (dual a)) l;
  do hi <- the Z.eqb (fun a => option_map snd (dual a)) l;
  do h <- the Z.eqb (fun a => option_map (fun '(_, _, h, _) => or0 h) (addrs a)) l;
  do m <- the Z.eqb (fun a => option_map (fun '(_, m, _, _) => or0 m) (addrs a)) l;
  do w <- the Z.eqb (fun a => option_map (fun '(w, _, _, _) => or0 w) (addrs a)) l;
  do x <- the Z.eqb (fun a => option_map (fun '(_, _, _, x) => or0 x) (addrs a)) l;
  Ok (negb (Z.eqb w 0) || negb (Z.eqb m 0) || negb (Z.eqb h 0) || negb (Z.eqb x 0), Some lo, Some hi, w, m, h, x).
Definition b2n (b : bool) : nat := if b then 1%nat else 0%nat.
(** l.266-328; [l] is not empty *)
Definition qtm (l : list acq) : result qtm_settings :=
  if has Trace l && has TimetagTrace l then Err ValueError
  else if Nat.ltb 1 (b2n (has TriggerCount l) + b2n (has ThresholdedTriggerCount l) + b2n (has DualThresholdedTriggerCount l)) then Err ValueError else
  do sc <- (if has Trace l then match l with [] => Err IndexError | a :: _ => Ok (Some SCOPE, Some (py_round (duration a))) end
            else Ok (if has TimetagTrace l then Some TIMETAG else None, None));
  do tm <- (if has Timetag l || has TimetagTrace l then
              do s <- the tsource_eqb (fun a => option_map (fun '(s, _, _) => s) (time a)) l;
              do r <- the tref_eqb (fun a => option_map (fun '(_, r, _) => r) (time a)) l;
              do c <- the oz_eqb (fun a => option_map (fun '(_, _, c) => c) (time a)) l;
              Ok (Some s, Some r, c)
            else Ok (None, None, None));
  do w <- (if has ThresholdedTriggerCount l then single l else if has DualThresholdedTriggerCount l then double l else Ok no_write);
  let '(ts, tr, tc) := tm in
  let '(en, tl, th, al, am, ah, ai) := w in
  Ok {| scope := fst sc; trace_duration := snd sc; t_source := ts; t_ref := tr; t_channel := tc; w_en := en; thr_low := tl; thr_high := th; a_low := al; a_mid := am; a_high := ah; a_invalid := ai |}.
