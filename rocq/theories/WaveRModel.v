(** Model of the waveform functions with exponentials and cosines (quantify_scheduler/waveforms.py): soft_square, chirp, drag, skewed_hermite, rotate_wave.
    Floats are exact reals; a complex sample is the pair of its real and imaginary part. *)
From Coq Require Import Reals List.
From Verif Require Import Base.
Import ListNotations.
Local Open Scope R_scope.
Local Notation length := List.length.

(** l.453-473 *)
Definition rotate_wave (wave : list (R * R)) (phase : R) : list (R * R) :=
  let angle := phase * (PI / 180) in map (fun w : R * R => (cos angle * fst w - sin angle * snd w, sin angle * fst w + cos angle * snd w)) wave.
(** l.117-173, with the duration given *)
Definition chirp (t : list R) (amp start_freq end_freq duration : R) : list (R * R) :=
  let chirp_rate := (end_freq - start_freq) / duration in
  map (fun x => let angle := 2 * PI * (chirp_rate * x / 2 + start_freq) * x in (amp * cos angle, amp * sin angle)) t.

(** subtract_offset: 'average', 'first', 'last', 'none' or anything else *)
Inductive offset := Average | First | Last | NoOffset | Unknown.
Definition gauss (G mu sigma x : R) : R := G * exp (- (1 / 2 * ((x - mu) ^ 2 / sigma ^ 2))).
Definition deriv (G D mu sigma x : R) : R := - D * (x - mu) / sigma * gauss G mu sigma x.
(** l.248-263, inline and for both components *)
Definition subtract (o : offset) (w : list R) : result (list R) :=
  let first := hd 0 w in let last := List.last w 0 in
  match o with
  | NoOffset => Ok w
  | Average => Ok (map (fun x => x - (first + last) / 2) w)
  | First => Ok (map (fun x => x - first) w)
  | Last => Ok (map (fun x => x - last) w)
  | Unknown => Err ValueError
  end.
(** l.176-272.  sigma or nr_sigma is None *)
Definition drag (t : list R) (G_amp D_amp duration : R) (nr_sigma sigma : option R) (phase : R) (subtract_offset : offset) : result (list (R * R)) :=
  match t with
  | [] => Err IndexError
  | t0 :: _ =>
      let mu := t0 + duration / 2 in
      do s <- match sigma, nr_sigma with
              | Some _, Some _ => Err ValueError
              | Some s, None => Ok s
              | None, Some n => Ok (duration / (2 * n))
              | None, None => Err TypeError
              end;
      do i <- subtract subtract_offset (map (gauss G_amp mu s) t);
      do q <- subtract subtract_offset (map (deriv G_amp D_amp mu s) t);
      Ok (rotate_wave (combine i q) phase)
  end.
(** l.476-561 *)
Definition hermite_I (amplitude factor x : R) : R := amplitude * ((1 - factor * x ^ 2) * exp (- (x ^ 2))).
Definition hermite_Q (amplitude skewness factor t_hermite x : R) : R := amplitude * (skewness / PI) * (x / t_hermite) * (factor + 1 - factor * x ^ 2) * exp (- (x ^ 2)).
Definition skewed_hermite (t : list R) (duration amplitude skewness phase : R) (pi2_pulse : bool) (center : option R) (duration_over_char_time : R) : result (list (R * R)) :=
  match t with
  | [] => Err IndexError
  | t0 :: _ =>
      let t_hermite := duration / duration_over_char_time in
      let factor := if pi2_pulse then 667 / 1000 else 956 / 1000 in
      let center_total := match center with Some c => c | None => duration / 2 end + t0 in
      Ok (rotate_wave (map (fun x => let y := (x - center_total) / t_hermite in (hermite_I amplitude factor y, hermite_Q amplitude skewness factor t_hermite y)) t) phase)
  end.

Definition sumr (l : list R) : R := fold_right Rplus 0 l.
(** scipy.signal.windows.hann(M), symmetric *)
Definition hann (m : nat) : list R := if Nat.eqb m 1 then [1] else map (fun n => 1 / 2 - 1 / 2 * cos (2 * PI * INR n / INR (m - 1))) (seq 0 m).
(** l.97-114 with signal.convolve(mode="same"): the samples (M - 1) // 2 ... of the full convolution. 0 / 0 (not a number, no exception) is an error here. *)
Definition convolve_same (amp : R) (n : nat) (window : list R) : list R :=
  let c := Nat.div (length window - 1) 2 in
  map (fun i => sumr (map (fun j => if Nat.leb j (i + c) && Nat.ltb (i + c - j) n then amp * nth j window 0 else 0) (seq 0 (length window)))) (seq 0 n).
Definition soft_square (n : nat) (amp : R) : result (list R) :=
  if Nat.ltb 1 n then
    let window := hann (Nat.div n 2) in
    if Req_EM_T (sumr window) 0 then Err OtherErr else Ok (map (fun x => x / sumr window) (convolve_same amp n window))
  else Ok (repeat amp n).
