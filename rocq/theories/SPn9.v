(** * Specification of the PN9 sequence *)
From Verif Require Import Py MPn9.

(** n-th value drawn from a new generator *)
Definition pn9_output (seed : Z) (n : nat) : Z := nth n (snd (pn9_nextN (pn9_new seed) (S n))) 0.
(** the same as a bit *)
Definition pn9_bit (seed : Z) (n : nat) : bool := z2b (pn9_output seed n).
(** sum of a list of 0/1 values *)
Fixpoint ones_in (l : list Z) : Z := match l with [] => 0 | x :: r => x + ones_in r end.

(** value [k] positions before position [n] of the sequence [o]; the nine low bits of the seed stand for the
    nine values before the first one (bit 8 the most recent, bit 0 the oldest) *)
Definition pn9_before (seed : Z) (o : nat -> bool) (n k : nat) : bool :=
  if Nat.leb k n then o (n - k)%nat else Z.testbit seed (Z.of_nat (9 + n - k)).

(** the PN9 recurrence x^9 + x^5 + 1 of IEEE 802.15.4: each value is the sum of the values 9 and 4 before *)
Definition pn9_recurrence (seed : Z) (o : nat -> bool) : Prop :=
  forall n, o n = xorb (pn9_before seed o n 9) (pn9_before seed o n 4).
