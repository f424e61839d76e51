(** Model of the samples returned by Mr_fsk_modulator: mr_fsk/mr_fsk_modulator.py:426-434, 495, 513-514. *)
From Coq Require Import List ZArith QArith Qreals Reals.
From Coquelicot Require Import Complex.
From Verif Require Import Py MBits MFsk MTime.

(** IQ = np.exp(2*np.pi*f*1j*t) (mr_fsk_modulator.py:432); [MFsk] keeps f*t, in turns.  Exact real
    trigonometry: the rounding of the floating-point exponential is not modelled. *)
Definition fsk_samples (x : fsk_signal) : list C := map (fun p => cis (2 * PI * Q2R p)) (sig_phase x).

(** bitsToIQ (mr_fsk_modulator.py:454-495): samples and sampling frequency *)
Definition k_bitsToSamples (a : arg) : SM fsk (list C * R) :=
  sdo x <- k_bitsToIQ a; sret (fsk_samples x, IZR (sig_f x)).
(** bytesToIQ (mr_fsk_modulator.py:513-514) *)
Definition k_bytesToSamples (a : arg) : SM fsk (list C * R) :=
  sdo bits <- slift (to_binary_array a); k_bitsToSamples (bits_arg bits).
