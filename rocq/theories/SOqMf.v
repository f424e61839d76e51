(** * Specification for C90: a matched-filter receiver for MR-O-QPSK samples *)
From Coq Require Import Reals.
From Coquelicot Require Import Complex.
From Verif Require Import Py Tables SOqpsk SOqRx SGap SWave SOqGap.

(** correlation of the samples of chip pair j with the pulse, on both axes *)
Definition correlate (b : Frequency_band) (sps : nat) (r : list C) (j : nat) : C :=
  (sum_to (fun k => fst (nth (j * sps + k) r (RtoC 0)) * pulse b 1 sps k)%R sps,
   sum_to (fun k => snd (nth (j * sps + k) r (RtoC 0)) * pulse b 1 sps k)%R sps).
Definition positive (x : R) : bool := if Rlt_dec 0 x then true else false.
(** signs of the correlations: the chips.  A frame of n pairs has n sps + sps - 1 samples *)
Definition matched (b : Frequency_band) (sps : nat) (r : list C) : list bool :=
  flat_map (fun j => let z := correlate b sps r j in [positive (fst z); positive (snd z)]) (seq 0 (length r / sps)).
(** samples of chip pair j *)
Definition pair_block (sps : nat) (r : list C) (j : nat) : list C := firstn sps (skipn (j * sps) r).

(** ** unknown gain and phase: measured on the first chip pair of the preamble, which is known (the code of a 0) *)
Definition first_chips (b : Frequency_band) : list bool := chip_code (hd EmptyString (shr_codes b)) [false].
Definition measured_gain (b : Frequency_band) (sps : nat) (r : list C) : C :=
  Cdiv (correlate b sps r 0) (Cmult (chip_pair (first_chips b) 0) (RtoC (pulse_energy b (Z.of_nat sps)))).
Definition coherent (b : Frequency_band) (sps : nat) (r : list C) : list bool :=
  matched b sps (map (fun z => Cdiv z (measured_gain b sps r)) r).
