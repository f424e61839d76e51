(** * Specification: a receiver that follows the gain and phase of each symbol with its pilots *)
From Coq Require Import Reals Lra.
From Coquelicot Require Import Complex.
From Verif Require Import Py SPn9 SOfdm SMrOfdm STime SMrRx.

(** pilot j of frame symbol n: +1 or -1, from the PN9 sequence started at all ones, running on from symbol to symbol *)
Definition pilot_count (opt : Z) : nat := Z.to_nat (pilot_tones opt).
Definition pilot_value (opt : Z) (n j : nat) : R := if pn9_bit 0x1FF (n * pilot_count opt + j) then 1%R else (-1)%R.
(** gain of symbol n as measured on its pilots: mean of the received pilots, each multiplied by its sign *)
Definition symbol_gain (opt : Z) (tone : nat -> Z -> C) (n : nat) : C :=
  Cdiv (csum (fun j => Cmult (tone n (nth j (pilots_of opt n) 0)) (RtoC (pilot_value opt n j))) (pilot_count opt)) (RtoC (INR (pilot_count opt))).
Definition tracked (opt : Z) (tone : nat -> Z -> C) (n : nat) (f : Z) : C := Cdiv (tone n f) (symbol_gain opt tone n).
(** subcarriers of symbol n that the receiver looks at *)
Definition looked_at (opt : Z) (n : nat) (f : Z) : Prop := In f (data_freqs opt n) \/ In f (pilots_of opt n).
