(** * Specification for C109: bursts *)
From Coq Require Import Reals.
From Coquelicot Require Import Complex.
From Verif Require Import Py Tables SOqpsk SGap SOqGap SOqRx SOqDs SOqMf.

(** chips that may be lost in a row: two groups of [w] chips and the [t] correctable chips on either side of them, wherever it
    begins *)
Definition longest_burst (w t : nat) : nat := (w + 2 * t + 1)%nat.
Definition header_burst (b : Frequency_band) : nat := longest_burst (spread_chips (phr_codes b)) (correctable (phr_codes b)).
(** payload: four chips where nothing is spread *)
Definition payload_burst (b : Frequency_band) (rm : Z) : nat :=
  match psdu_codes b rm with Some sp => longest_burst (spread_chips sp) (correctable sp) | None => 4%nat end.
(** samples as sent, but for noise of less energy than the pulse in each chip pair, and for [k] consecutive chip pairs in which
    anything at all is received *)
Definition disturbed (b : Frequency_band) (sps : Z) (sig received : list C) (k : nat) : Prop :=
  exists first : nat, forall j, (j < first \/ first + k <= j)%nat -> (j * Z.to_nat sps + Z.to_nat sps <= length sig)%nat ->
  (gap (pair_block (Z.to_nat sps) received j) (pair_block (Z.to_nat sps) sig j) < pulse_energy b sps)%R.
