(** * Specification: bitwise CRC-8 with generator x^8 + x^2 + x + 1 over GF(2)
    (independent of the model's polynomial division) *)
From Coq Require Import List Bool.
From Verif Require Import SBits.
Import ListNotations.

(** coefficients of x^7 ... x^0 of the generator (the x^8 term is implicit) *)
Definition crc_taps : list bool := [false; false; false; false; false; true; true; true].

(** one bit into the 8-bit register (coefficient of x^7 first): multiply by x, add [b] x^8, reduce *)
Definition crc_step (reg : list bool) (b : bool) : list bool :=
  let shifted := tl reg ++ [false] in
  if xorb (hd false reg) b then xor_bits shifted crc_taps else shifted.
Definition crc8 (preset : list bool) (data : list bool) : list bool := fold_left crc_step data preset.

(** check sequence of the MR-OFDM header: preset all ones, output complemented *)
Definition crc8_ofdm (header : list bool) : list bool := map negb (crc8 (repeat true 8) header).
(** check sequence of the MR-O-QPSK header: preset zero *)
Definition crc8_oqpsk (header : list bool) : list bool := crc8 (repeat false 8) header.

(** the receiver's test on a word: header of [n] bits followed by its check sequence *)
Definition word_ok (crc : list bool -> list bool) (n : nat) (w : list bool) : Prop :=
  skipn n w = crc (firstn n w).

(** error patterns of [n] bits *)
Definition burst8 (n : nat) (e : list bool) : Prop :=
  exists i b, (length b <= 8)%nat /\ In true b /\ e = repeat false i ++ b ++ repeat false (n - i - length b)
              /\ (i + length b <= n)%nat.
Definition detectable (n : nat) (e : list bool) : Prop :=
  length e = n /\
  ((1 <= weight e <= 3)%nat \/ Nat.odd (weight e) = true \/ burst8 n e).
