(** * Specification for C92: the stages of the MDSSS encoder *)
From Verif Require Import Py.

(** scalar product of two rows *)
Fixpoint dot (a b : list Z) : Z := match a, b with x :: a', y :: b' => x * y + dot a' b' | _, _ => 0 end.
(** number of places in which two rows differ *)
Fixpoint places (a b : list Z) : nat := match a, b with x :: a', y :: b' => ((if (x =? y)%Z then 0 else 1) + places a' b')%nat | _, _ => O end.
(** entry of a matrix given by its rows *)
Definition entry (M : list (list Z)) (i j : nat) : Z := nth j (nth i M []) 0.
(** an n x n Hadamard matrix: entries 1 and -1, different rows orthogonal *)
Definition is_hadamard (n : nat) (M : list (list Z)) : Prop :=
  length M = n /\ Forall (fun r => length r = n /\ Forall (fun x => x = 1 \/ x = -1) r) M
  /\ forall i j, (i < n)%nat -> (j < n)%nat -> dot (nth i M []) (nth j M []) = if Nat.eqb i j then Z.of_nat n else 0.
(** odd parity of a column of three bits and a parity bit *)
Definition column_ok (a b c p : Z) : Prop := (a + b + c + p) mod 2 = 1.
