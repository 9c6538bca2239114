(** C64: what is set on a local oscillator, and at which frequency a channel plays. *)
From Verif Require Import Base DevModel ZiFreqModel.
Local Open Scope string_scope.

(** the value that the compiled schedule sets for the frequency of [l] *)
Definition key (l : losc) : string := linstr l ++ "." ++ lparam l.
Definition power_key (l : losc) : string := linstr l ++ "." ++ lpower_param l.
Definition settings (st : state) (k : string) : option (option Q) := match lookup "generic" (configs st) with Some (ESet s) => lookup k s | _ => None end.
(** the user's options for a channel *)
Definition options (mods : list (string * modfreq)) (ch : channel) : option modfreq := lookup (cport ch ++ "-" ++ cclock ch) mods.
(** different channels have different ports or clocks, and oscillators different names; no parameter belongs to two oscillators *)
Definition distinct (chans : list channel) : Prop := NoDup (map (fun ch => (cport ch, cclock ch)) chans).
Definition separate (oscs : list losc) : Prop := NoDup (map lname oscs) /\ forall l l', In l oscs -> In l' oscs -> key l <> power_key l' /\ (key l = key l' -> l = l').
Definition chans (devices : list (string * list channel)) : list channel := flat_map snd devices.
(** the output: the frequency of the oscillator plus the intermediate frequency of the waveforms *)
Definition plays_at (st : state) (oscs : list losc) (ch : channel) (f : Q) : Prop :=
  exists l i lo, In l oscs /\ clo ch = Some (lname l) /\ In (ch, Some i) (chs st) /\ settings st (key l) = Some (Some lo) /\ f == lo + i.
(** [pc] gives [m] for the oscillator [n] *)
Definition gives (mods : list (string * modfreq)) (cs : list channel) (n : string) (pc : string * string) (m : modfreq) : Prop :=
  exists ch, In ch cs /\ (cport ch, cclock ch) = pc /\ clo ch = Some n /\ options mods ch = Some m.
