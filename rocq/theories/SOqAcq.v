(** * Specification for C95: an MR-O-QPSK receiver that knows neither where a chip pair begins, nor gain and phase, nor where
    the frame begins *)
From Coq Require Import Reals.
From Coquelicot Require Import Complex.
From Verif Require Import Py Tables SOqpsk SOqRx STime SWave SOqGap SOqMf SOqDs SOqSync.

(** the first of the places 0..n-1 where [f] is largest *)
Definition best (f : nat -> R) (n : nat) : nat := fold_left (fun i j => if Rlt_dec (f i) (f j) then j else i) (seq 0 n) 0%nat.
(** ** timing: the offset at which the correlation of one pulse length of samples with the pulse is strongest *)
Definition strength (b : Frequency_band) (sps : nat) (r : list C) (t : nat) : R := Cmod (correlate b sps (skipn t r) 0).
Definition timing (b : Frequency_band) (sps : nat) (r : list C) : nat := best (strength b sps r) sps.
(** ** gain: one period of the preamble correlated with its known chips, seen from each of its pairs *)
Definition match_phase (b : Frequency_band) (sps : nat) (r : list C) (i : nat) : C :=
  csum (fun j => Cmult (Cconj (chip_pair (turned b (2 * i)) j)) (correlate b sps r j)) (period b / 2).
Definition pair_phase (b : Frequency_band) (sps : nat) (r : list C) : nat := best (fun i => Cmod (match_phase b sps r i)) (period b / 2).
Definition acquired_gain (b : Frequency_band) (sps : nat) (r : list C) : C :=
  Cdiv (match_phase b sps r (pair_phase b sps r)) (RtoC (INR (period b) * pulse_energy b (Z.of_nat sps))).
(** ** chips, and the receiver of SOqSync on them *)
Definition acquired (b : Frequency_band) (sps : nat) (r : list C) : list bool :=
  let r' := skipn (timing b sps r) r in let g := acquired_gain b sps r' in matched b sps (map (fun z => Cdiv z g) r').
Definition blind_mode (b : Frequency_band) (sps : nat) (r : list C) : option (bool * Z * Z) := sync_mode b (acquired b sps r).
Definition blind_receiver (b : Frequency_band) (sps : nat) (r : list C) : option oq_frame := sync_receiver b (acquired b sps r).
(** ** what is heard of the signal [sig] from sample [n] on through the gain [g] *)
Definition heard (g : C) (n : nat) (sig : list C) : list C := skipn n (map (Cmult g) sig).
(** number of chip pairs begun before sample [n] *)
Definition pairs_before (sps n : nat) : nat := ((n + sps - 1) / sps)%nat.
