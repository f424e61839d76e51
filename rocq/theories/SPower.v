(** * Specification: power of an MR-OFDM signal *)
From Coq Require Import Reals.
From Coquelicot Require Import Complex.
From Verif Require Import Py MModul SOfdm SMrOfdm STime.

(** smallest and largest squared modulus of a data subcarrier (the mean is 1): one ring for BPSK and QPSK, the corners of
    16-QAM have 18/10 and the inner points 2/10 *)
Definition weakest (m : modulation) : R := match m with QAM16 => (1 / 5)%R | _ => 1%R end.
Definition strongest (m : modulation) : R := match m with QAM16 => (9 / 5)%R | _ => 1%R end.
(** energy of a symbol of an MCS when every data subcarrier has the squared modulus [e]; pilots have modulus 1 *)
Definition symbol_energy (opt : Z) (e : R) : R := (IZR (data_tones opt) * e + IZR (pilot_tones opt))%R.
(** all subcarriers in phase *)
Definition peak (opt mcs : Z) : R :=
  ((IZR (data_tones opt) * sqrt (strongest (mcs_modulation mcs)) + IZR (pilot_tones opt)) / sqrt (IZR (fft_size opt)))%R.
