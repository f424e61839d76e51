(** Specification for C65, C66: MR-FSK samples and a frequency-discriminator receiver. *)
From Coq Require Export List Bool ZArith QArith Qreals Reals Lra.
From Coquelicot Require Export Complex.
Export ListNotations.
Local Open Scope R_scope.

(** a carrier of frequency [f] (hertz) at time [t] (seconds) *)
Definition carrier (f t : R) : C := (cos (2 * PI * f * t), sin (2 * PI * f * t)).

(** the frequency discriminator compares two consecutive samples [a], [b]: d = b * conj a.  The frequency is positive if
    Im d > 0, and is an outer tone (more than twice the inner one) if Re d < |a|^2 cos (2 pi h / 20): the inner tones
    turn by h/40, the outer ones by 3h/40 of a turn between two samples at 20 samples per symbol. *)
Definition conj (z : C) : C := (fst z, - snd z).
Definition positive (a b : C) : bool := if Rlt_dec 0 (snd (b * conj a)%C) then true else false.
Definition outer (h : R) (a b : C) : bool :=
  if Rlt_dec (fst (b * conj a)%C) ((fst a ^ 2 + snd a ^ 2) * cos (2 * PI * h / 20)) then true else false.
(** a last symbol of which at least two samples are seen counts *)
Definition demodulate (fsk4 : bool) (h : R) (x : list C) : list bool :=
  flat_map (fun j => let a := nth (20 * j) x (RtoC 0) in let b := nth (20 * j + 1) x (RtoC 0) in
                     if fsk4 then [positive a b; outer h a b] else [positive a b])
           (seq 0 ((length x + 18) / 20)).
