(** * Specification: how far apart two MR-O-QPSK frames are *)
From Coq Require Import Reals.
From Verif Require Import Py Tables SWave.

(** chips per header bit *)
Definition header_factor (b : Frequency_band) : nat :=
  match b with Band_780MHz | Band_915MHz | Band_917MHz | Band_2450MHz => 16 | _ => 8 end.
(** chips per payload bit of the DSSS modes spreading bit by bit *)
Definition payload_factor (b : Frequency_band) (rm : Z) : nat :=
  match rm with
  | 0 => match b with Band_2450MHz => 32 | Band_780MHz | Band_915MHz | Band_917MHz => 16 | _ => 8 end
  | 1 => 4 | 2 => 2 | _ => 1
  end.
(** different code words differ in 10 coded bits; differential encoding can halve that; unspread payloads are not
    differentially encoded *)
Definition header_distance (b : Frequency_band) : nat := 5 * header_factor b.
Definition payload_distance (b : Frequency_band) (rm : Z) : nat := if rm =? 3 then 10 else 5 * payload_factor b rm.
(** energy of the pulse of one chip *)
Fixpoint sum_to (f : nat -> R) (n : nat) : R := match n with O => 0%R | S m => (sum_to f m + f m)%R end.
Definition pulse_energy (b : Frequency_band) (sps : Z) : R := sum_to (fun k => pulse b 1 (Z.to_nat sps) k ^ 2)%R (Z.to_nat sps).
