(** * Specification: convolutional codes by generator taps *)
From Coq Require Import ZArith List Bool.
Import ListNotations.
Open Scope Z_scope.

(** input bit [t] positions before position [n]; the six bits of the seed stand for the six inputs before the
    first one (bit 5 the most recent, bit 0 the oldest) *)
Definition tap (seed : Z) (x : list bool) (n t : nat) : bool :=
  if Nat.leb t n then nth (n - t) x false else Z.testbit seed (Z.of_nat (6 + n - t)).
Definition xor_taps (seed : Z) (x : list bool) (n : nat) (taps : list nat) : bool :=
  fold_right (fun t acc => xorb (tap seed x n t) acc) false taps.

(** generators 133 and 171 (octal), constraint length 7 *)
Definition taps_133 : list nat := [0; 2; 3; 5; 6]%nat.
Definition taps_171 : list nat := [0; 1; 2; 3; 6]%nat.

(** the interlaced code word: outputs of the two generators for each position *)
Definition code_12 (seed : Z) (x : list bool) : list bool :=
  flat_map (fun n => [xor_taps seed x n taps_133; xor_taps seed x n taps_171]) (seq 0 (length x)).
(** the code punctured to rate 3/4: A0 B0 A1 B2 of each triple *)
Definition code_34 (seed : Z) (x : list bool) : list bool :=
  flat_map (fun k => [xor_taps seed x (3 * k) taps_133; xor_taps seed x (3 * k) taps_171;
                      xor_taps seed x (3 * k + 1) taps_133; xor_taps seed x (3 * k + 2) taps_171])
           (seq 0 (length x / 3)).
