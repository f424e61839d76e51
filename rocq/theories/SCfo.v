(** * Specification: a carrier frequency offset between transmitter and receiver, and how a receiver removes it.
    Nothing here refers to the transmitter's functions. *)
From Coq Require Import Reals Lra.
From Coquelicot Require Import Complex.
From Verif Require Import Py SOfdm SMrOfdm STime SMrRx.

(** the samples r turned by w radians more at each sample: what a receiver whose carrier is w radians per sample low gets *)
Definition shifted (w : R) (r : list C) : list C := map (fun t => Cmult (unit_at (w * INR t)) (nth t r (RtoC 0))) (seq 0 (length r)).

(** ** the estimate *)
(** argument of a complex number, in (-pi, pi] *)
Definition angle (z : C) : R := let x := acos (fst z / Cmod z) in if Rle_dec 0 (snd z) then x else (- x)%R.
(** the tones of the STF are stf_step apart: it repeats after 1/stf_step of a symbol *)
Definition stf_period (opt : Z) : nat := Z.to_nat (fft_size opt / stf_step opt).
(** correlation of the first symbol of the STF, without its prefix, with itself one period later *)
Definition correlation (opt : Z) (r : list C) : C :=
  csum (fun j => Cmult (nth (quarter opt + j + stf_period opt) r (RtoC 0)) (Cconj (nth (quarter opt + j) r (RtoC 0)))) (4 * quarter opt - stf_period opt).
(** the phase between two periods gives the offset, in radians per sample *)
Definition offset_of (opt : Z) (r : list C) : R := (angle (correlation opt r) / INR (stf_period opt))%R.
(** samples with the estimated offset removed *)
Definition corrected (opt : Z) (r : list C) : list C := shifted (- offset_of opt r) r.
