(** * Specification for C74, C75: distances between MR-FSK transmissions *)
From Coq Require Import Reals.
From Coquelicot Require Import Complex.
From Verif Require Import Py SFsk.

(** number of symbols (among those both frames have) sent on different tones *)
Definition differing_symbols (fsk4 : bool) (fa fb : list bool) : nat :=
  length (filter (fun j => negb (symbol_tone fsk4 fa j =? symbol_tone fsk4 fb j)) (seq 0 (Nat.min (symbols fsk4 fa) (symbols fsk4 fb)))).
(** energy between two frames with different contents (samples have energy 1, 20 samples per symbol): at least 3 per
    differing symbol; the code guarantees 6 differing bits, that is 6 symbols of 2FSK or 3 symbols of 4FSK *)
Definition fsk_margin (fsk4 fec : bool) : R := (if fec then if fsk4 then 9 else 18 else 3)%R.
