(** Specification for C67-C69: the constellation tables of the documentation of tools/modulations.py *)
From Coq Require Import List Bool ZArith QArith.
Import ListNotations.
Local Open Scope Z_scope.

(** a number counts as bit 1 when it is positive *)
Definition positive (x : Q) : bool := match (0 ?= x)%Q with Lt => true | _ => false end.

(** QPSK: 00 -> -1-1j, 01 -> -1+1j, 10 -> +1-1j, 11 -> +1+1j (bits written MSB first) *)
Definition qpsk_table (msb lsb : bool) : Z * Z :=
  match msb, lsb with
  | false, false => (-1, -1)
  | false, true => (-1, 1)
  | true, false => (1, -1)
  | true, true => (1, 1)
  end.

(** 16-QAM:
        -3j    -j    +j    +3j
        1000  1001  1011  1010 +3
        1100  1101  1111  1110 +1
        0100  0101  0111  0110 -1
        0000  0001  0011  0010 -3 *)
Definition qam16_table : list (bool * bool * bool * bool * (Z * Z)) :=
  let O := false in let I := true in
  [(I, O, O, O, (3, -3)); (I, O, O, I, (3, -1)); (I, O, I, I, (3, 1)); (I, O, I, O, (3, 3));
   (I, I, O, O, (1, -3)); (I, I, O, I, (1, -1)); (I, I, I, I, (1, 1)); (I, I, I, O, (1, 3));
   (O, I, O, O, (-1, -3)); (O, I, O, I, (-1, -1)); (O, I, I, I, (-1, 1)); (O, I, I, O, (-1, 3));
   (O, O, O, O, (-3, -3)); (O, O, O, I, (-3, -1)); (O, O, I, I, (-3, 1)); (O, O, I, O, (-3, 3))].
