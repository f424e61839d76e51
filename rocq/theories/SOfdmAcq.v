(** * Specification: a complete MR-OFDM receiver: start of the frame, carrier offset, gain and phase all unknown *)
From Coq Require Import Reals Lra.
From Coquelicot Require Import Complex.
From Verif Require Import Py SOfdm SMrOfdm STime SMrRx SCfo STrack.

(** the frame starts at the first sample louder than the threshold *)
Fixpoint from_first_above (threshold : R) (r : list C) : list C :=
  match r with [] => [] | z :: r' => if Rle_dec (Cmod z) threshold then from_first_above threshold r' else r end.
(** carrier offset removed with the STF, gain and phase of each symbol with its pilots *)
Definition complete_receiver (opt il : Z) (threshold : R) (r : list C) : mr_frame :=
  mr_receiver opt il (tracked opt (rx_tone opt (corrected opt (from_first_above threshold r)))).

(** noise level seen by the carrier offset estimate: e is the largest noise relative to the gain, against the mean
    power of the STF, (5/4)^2 times the active tones over the FFT size *)
Definition stf_noise (opt : Z) (e : R) : R := (e * sqrt (16 * IZR (fft_size opt) / (25 * IZR (active_tones opt))))%R.
Definition stf_error (opt : Z) (e : R) : R := (2 * stf_noise opt e + stf_noise opt e ^ 2)%R.
