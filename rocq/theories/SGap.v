(** * Specification: how far apart two signals are *)
From Coq Require Import Reals.
From Coquelicot Require Import Complex.
From Verif Require Import Py MModul SOfdm SMrOfdm STime.

(** energy of the difference of two sample sequences, over the samples they both have *)
Fixpoint gap (x y : list C) : R :=
  match x, y with a :: x', b :: y' => (Cmod (a - b)%C ^ 2 + gap x' y')%R | _, _ => 0%R end.
(** free distance of the convolutional code of an MCS *)
Definition free_distance_of (mcs : Z) : R := if mcs_three_quarters mcs then 5%R else 10%R.
(** margin of an MCS: each differing coded bit costs at least (2 k)^2 on each of its copies *)
Definition margin (mcs : Z) : R := (free_distance_of mcs * (2 * norm_factor (mcs_modulation mcs)) ^ 2 * INR (mcs_spreading mcs))%R.
