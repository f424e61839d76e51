(** * Specification for C101: an MR-O-QPSK receiver that knows neither timing, gain, phase, carrier offset nor where the frame
    begins, in noise *)
From Coq Require Import Reals.
From Coquelicot Require Import Complex.
From Verif Require Import Py Tables SOqpsk SOqRx STime SWave SOqGap SOqMf SOqDs SOqSync SOqAcq SCfo.

(** ** timing: the envelope does not depend on gain, phase and offset; it is compared with that of the pulse *)
Definition loudness (b : Frequency_band) (sps : nat) (r : list C) (t : nat) : R :=
  sum_to (fun k => Cmod (nth (t + k) r (RtoC 0)) ^ 2 * pulse b 1 sps k ^ 2)%R sps.
Definition envelope_timing (b : Frequency_band) (sps : nat) (r : list C) : nat := best (loudness b sps r) sps.
(** ** turn from a chip pair to the next *)
Definition pair_step (b : Frequency_band) (sps : nat) (r : list C) (j : nat) : C :=
  Cmult (correlate b sps r (S j)) (Cconj (correlate b sps r j)).
(** the same in the preamble *)
Definition unit_pair (b : Frequency_band) (k : nat) : C := chip_pair (sync_unit b) (k mod (period b / 2)).
Definition unit_step (b : Frequency_band) (k : nat) : C := Cmult (unit_pair b (S k)) (Cconj (unit_pair b k)).
(** one period of the preamble compared with its known steps, seen from each of its pairs *)
Definition match_step (b : Frequency_band) (sps : nat) (r : list C) (i : nat) : C :=
  csum (fun j => Cmult (Cconj (unit_step b (i + j))) (pair_step b sps r j)) (period b / 2).
Definition step_phase (b : Frequency_band) (sps : nat) (r : list C) : nat := best (fun i => Cmod (match_step b sps r i)) (period b / 2).
(** the argument at the best one is the turn due to the carrier offset *)
Definition offset_turn (b : Frequency_band) (sps : nat) (r : list C) : R := angle (match_step b sps r (step_phase b sps r)).
(** ** detection: the turn that remains, to the nearest quarter turn; the first pair is known from the preamble *)
Definition quarter_turn (z : C) : C :=
  if Rlt_dec (Rabs (snd z)) (Rabs (fst z)) then (if Rlt_dec 0 (fst z) then RtoC 1 else RtoC (-1))
  else (if Rlt_dec 0 (snd z) then Ci else Copp Ci).
Fixpoint pairs_from (p : C) (turns : list C) : list C := p :: match turns with [] => [] | q :: l => pairs_from (Cmult p q) l end.
Definition turned_chips (b : Frequency_band) (sps : nat) (r : list C) : list bool :=
  let v := offset_turn b sps r in
  flat_map (fun p => [positive (fst p); positive (snd p)])
    (pairs_from (unit_pair b (step_phase b sps r)) (map (fun j => quarter_turn (Cmult (pair_step b sps r j) (unit_at (- v)))) (seq 0 (length r / sps - 1)))).
Definition offset_chips (b : Frequency_band) (sps : nat) (r : list C) : list bool := turned_chips b sps (skipn (envelope_timing b sps r) r).
Definition offset_mode (b : Frequency_band) (sps : nat) (r : list C) : option (bool * Z * Z) := sync_mode b (offset_chips b sps r).
Definition offset_receiver (b : Frequency_band) (sps : nat) (r : list C) : option oq_frame := sync_receiver b (offset_chips b sps r).

(** ** reception conditions *)
(** what the matched filter gathers of a pulse turning by w from a sample to the next; what it gathers of noise *)
Definition gathered (b : Frequency_band) (sps : nat) (w : R) : R :=
  Cmod (csum (fun k => Cmult (RtoC (pulse b 1 sps k ^ 2)) (unit_at (w * INR k))) sps).
Definition pulse_sum (b : Frequency_band) (sps : nat) : R := sum_to (fun k => Rabs (pulse b 1 sps k)) sps.
(** envelope of the pulse against itself d samples later; largest change of it by noise e *)
Definition overlap (b : Frequency_band) (sps d : nat) : R := sum_to (fun k => pulse b 1 sps ((k + d) mod sps) ^ 2 * pulse b 1 sps k ^ 2)%R sps.
Definition ripple (b : Frequency_band) (sps : nat) (e : R) (d : nat) : R :=
  sum_to (fun k => (2 * sqrt 2 * e * Rabs (pulse b 1 sps ((k + d) mod sps)) + e ^ 2) * pulse b 1 sps k ^ 2)%R sps.
Definition timing_clear (b : Frequency_band) (sps : nat) (e : R) : Prop :=
  forall d, (0 < d < sps)%nat -> (ripple b sps e 0 + ripple b sps e d < 2 * (overlap b sps 0 - overlap b sps d))%R.
(** [r] is the signal from sample n on through gain g, turned by w more at each sample, each sample with noise at most e |g| *)
Definition heard_turning (g : C) (w e : R) (n : nat) (sig r : list C) : Prop :=
  length r = (length sig - n)%nat
  /\ forall t, (t < length r)%nat -> (Cmod (nth t r (RtoC 0) - unit_at (w * INR t) * (g * nth (n + t) sig (RtoC 0)))%C <= e * Cmod g)%R.
