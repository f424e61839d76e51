(** * Specification for C64 and C94: data rates and chip rates of MR-O-QPSK (IEEE 802.15.4g tables 162 and following).
    Nothing here refers to the tables or functions of the code. *)
From Verif Require Import Py Tables SOqpsk SOqRx.

(** bits per second announced for rate mode [rm] with spreading mode [sm] (0 DSSS, 1 MDSSS) *)
Definition nominal_rate (b : Frequency_band) (rm sm : Z) : Z :=
  if mdsss_band b then match rm with 0 => if sm =? 0 then 31250 else 62500 | 1 => 125000 | 2 => 250000 | _ => 500000 end
  else match rm with 0 => 6250 | 1 => 12500 | 2 => 25000 | _ => 50000 end.
(** chips per second: one value per band, so that a receiver can read the header before it knows the mode *)
Definition band_chip_rate (b : Frequency_band) : Z :=
  match b with Band_2450MHz => 2000000 | Band_780MHz | Band_915MHz | Band_917MHz => 1000000 | _ => 100000 end.
(** chips sent for one coded bit in a DSSS mode *)
Definition expansion (b : Frequency_band) (rm : Z) : nat :=
  match psdu_codes b rm with Some sp => (spread_chips sp / spread_bits sp)%nat | None => 1%nat end.
