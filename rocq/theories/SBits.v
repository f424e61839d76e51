(** * Specification: positional binary notation and bit strings (independent of the model's helpers) *)
From Coq Require Import ZArith List Bool Lia.
Import ListNotations.
Open Scope Z_scope.

(** [w] bits of an integer, least significant first: bit j of the integer is at position j *)
Definition lsb_bits (w : nat) (z : Z) : list bool := map (fun j => Z.testbit z (Z.of_nat j)) (seq 0 w).
(** [w] bits of an integer, most significant first *)
Definition msb_bits (w : nat) (z : Z) : list bool := map (fun j => Z.testbit z (Z.of_nat (w - 1 - j))) (seq 0 w).

(** octets sent least significant bit first, in order *)
Definition octet_bits (octets : list Z) : list bool := flat_map (lsb_bits 8) octets.

Definition is_octet (z : Z) : Prop := 0 <= z <= 255.

(** value of a bit string, most significant bit first / least significant first *)
Fixpoint lsb_value (l : list bool) : Z :=
  match l with [] => 0 | b :: r => (if b then 1 else 0) + 2 * lsb_value r end.
Definition msb_value (l : list bool) : Z := lsb_value (rev l).

(** position-wise XOR and number of positions where two bit strings differ *)
Fixpoint xor_bits (a b : list bool) : list bool :=
  match a, b with x :: r, y :: s => xorb x y :: xor_bits r s | _, _ => [] end.
Fixpoint weight (a : list bool) : nat :=
  match a with [] => 0%nat | b :: r => ((if b then 1 else 0) + weight r)%nat end.
Definition distance (a b : list bool) : nat := weight (xor_bits a b).

(** [a] is an initial segment of [b] *)
Definition prefix {A} (a b : list A) : Prop := exists c, b = a ++ c.

(** [n] bits from position [lo] *)
Definition slice (lo n : nat) (l : list bool) : list bool := firstn n (skipn lo l).
