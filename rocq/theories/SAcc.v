(** * Specification for C106: samples known only approximately *)
From Coq Require Import Reals.
From Coquelicot Require Import Complex.
From Verif Require Import Py.
Local Open Scope R_scope.

(** [approx eps r x]: each sample of r is within eps of the sample of x (rounding, quantisation, single precision, noise...) *)
Definition approx (eps : R) (r x : list C) : Prop := Forall2 (fun a b => Cmod (a - b)%C <= eps) r x.
(** rounding to the nearest multiple of q; samples whose real and imaginary parts are rounded *)
Definition nearest_multiple (q v : R) : R := q * IZR (up (v / q - 1 / 2)).
Definition quantised (q : R) (x : list C) : list C := map (fun z => (nearest_multiple q (fst z), nearest_multiple q (snd z))) x.
