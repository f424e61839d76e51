(** * Specification: IEEE-754 binary64 arithmetic over the real numbers *)
From Coq Require Import ZArith Reals.
From Flocq Require Import Core.

(** nearest binary64 number, ties to even (no overflow in the range used) *)
Definition rnd (x : R) : R := round radix2 (FLT_exp (-1074) 53) ZnearestE x.
(** dt = (1 / symbol_rate) / 20, each division rounded *)
Definition time_step (rate : Z) : R := rnd (rnd (1 / IZR rate) / 20).
(** (dt * n) / dt, each operation rounded: numpy.arange(0, dt * n, dt) has ceil of this many points *)
Definition points_wanted (rate n : Z) : R := rnd (rnd (time_step rate * IZR n) / time_step rate).
