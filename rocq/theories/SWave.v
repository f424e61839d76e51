(** * Specification of the MR-O-QPSK waveform *)
From Coq Require Import Reals.
From Coquelicot Require Import Complex.
From Verif Require Import Py Tables.

Local Open Scope R_scope.
(** a chip as an amplitude *)
Definition polar (b : bool) : R := if b then 1 else -1.
(** chips 2j and 2j+1 on the two axes *)
Definition chip_pair (chips : list bool) (j : nat) : C := (polar (nth (2 * j) chips false), polar (nth (2 * j + 1) chips false)).
(** half of a sine, on [0, 2 Tc] *)
Definition half_sine_shape (Tc t : R) : R :=
  if Rle_dec 0 t then if Rle_dec t (2 * Tc) then sin (PI * t / (2 * Tc)) else 0 else 0.
(** raised cosine with roll-off 0.8: sinc (t/Tc) cos(0.8 pi t/Tc) / (1 - (1.6 t/Tc)^2) *)
Definition raised_cosine_shape (Tc t : R) : R :=
  let x := t / Tc in
  if Req_EM_T x 0 then 1 else sin (PI * x) / (PI * x) * (cos (PI * (8 / 10) * x) / (1 - (2 * (8 / 10) * x) ^ 2)).
Definition shape (b : Frequency_band) : R -> R -> R :=
  match b with Band_915MHz | Band_2450MHz => half_sine_shape | _ => raised_cosine_shape end.
(** instant of sample k of the pulse: [sps] instants spread over [-2Tc, 2Tc) *)
Definition pulse_time (Tc : R) (sps k : nat) : R := -2 * Tc + 4 * Tc * INR k / INR sps.
Definition pulse (b : Frequency_band) (Tc : R) (sps k : nat) : R := shape b Tc (pulse_time Tc sps k).
(** the pulse shape has no value by division by 0 among its samples *)
Definition pulse_regular (b : Frequency_band) (sps : Z) : Prop :=
  match b with Band_915MHz | Band_2450MHz => True | _ => ~ (32 | sps)%Z end.
(** [sig] is the train of pulses of the chips: pair j, times the pulse, in samples j*sps .. j*sps+sps-1; then zeros *)
Definition pulse_train (b : Frequency_band) (Tc : R) (sps : nat) (chips : list bool) (sig : list C) : Prop :=
  exists n, length chips = (2 * n)%nat
  /\ length sig = (n * sps + (sps - 1))%nat
  /\ (forall j k, (j < n)%nat -> (k < sps)%nat -> nth (j * sps + k) sig (RtoC 0) = Cmult (chip_pair chips j) (RtoC (pulse b Tc sps k)))
  /\ (forall k, (k < sps - 1)%nat -> nth (n * sps + k) sig (RtoC 0) = RtoC 0).
(** value at sample i of the same train on one axis, delayed by d samples: chip of pair j on that axis is [c j] *)
Fixpoint axis_train (p : nat -> R) (sps d : nat) (c : nat -> bool) (n i : nat) : R :=
  match n with
  | O => 0
  | S m => axis_train p sps d c m i + (if Nat.leb (m * sps + d) i && Nat.ltb i (m * sps + d + sps) then polar (c m) * p (i - (m * sps + d))%nat else 0)
  end.
(** offset QPSK: the second chip of each pair starts d samples after the first *)
Definition offset_train (b : Frequency_band) (Tc : R) (sps d : nat) (chips : list bool) (sig : list C) : Prop :=
  forall i, nth i sig (RtoC 0)
    = (axis_train (pulse b Tc sps) sps 0 (fun j => nth (2 * j) chips false) (length chips / 2) i,
       axis_train (pulse b Tc sps) sps d (fun j => nth (2 * j + 1) chips false) (length chips / 2) i).
