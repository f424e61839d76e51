(** * Specification for C87-C89: a receiver that hunts for the start of MR-FSK frames, and a nearest-tone detector *)
From Coq Require Import Reals.
From Coquelicot Require Import Complex.
From Verif Require Import Py SBits SFsk SGap.

(** bits per symbol; bits of the start frame delimiter *)
Definition symbol_bits (fsk4 : bool) : nat := if fsk4 then 2 else 1.
Definition sfd_length (fsk4 : bool) : nat := if fsk4 then 32 else 16.
(** bits of a preamble of n units *)
Definition preamble_length (fsk4 : bool) (n : Z) : nat := (Z.to_nat n * (if fsk4 then 16 else 8))%nat.
(** the four delimiters of a modulation: (phyMRFSKSFD, coded) *)
Definition delimiters : list (Z * bool) := [(0, true); (0, false); (1, true); (1, false)].
(** the delimiter the bits begin with, up to [tol] wrong bits *)
Definition delimiter_here (fsk4 : bool) (tol : nat) (l : list bool) : option (Z * bool) :=
  find (fun d => Nat.leb (distance (firstn (sfd_length fsk4) l) (sfd fsk4 (fst d) (snd d))) tol) delimiters.
(** first delimiter met, symbol by symbol: which one, and the bits from there on *)
Fixpoint hunt (n : nat) (fsk4 : bool) (tol : nat) (l : list bool) : option (Z * bool * list bool) :=
  match n with
  | O => None
  | S n' => if Nat.ltb (length l) (sfd_length fsk4) then None
            else match delimiter_here fsk4 tol l with
                 | Some (g, c) => Some (g, c, l)
                 | None => hunt n' fsk4 tol (skipn (symbol_bits fsk4) l)
                 end
  end.
Definition find_frame (fsk4 : bool) (tol : nat) (l : list bool) := hunt (length l) fsk4 tol l.
(** the receiver: it knows the modulation, the FEC scheme and whether coded frames are interleaved; it does not know the
    preamble length, where it starts listening, whether FEC is used, nor which delimiter group *)
Definition hunting_receiver (fsk4 il : bool) (scheme : Z) (tol : nat) (l : list bool) : option (Z * bool * rx_frame) :=
  match find_frame fsk4 tol l with
  | Some (g, c, rest) => Some (g, c, fsk_receiver fsk4 0 c il scheme rest)
  | None => None
  end.

(** samples seen through a gain [g] and a carrier offset turning the phase by [phi] from a sample to the next *)
Definition seen (g : C) (phi : R) (x : list C) : list C :=
  map (fun n => Cmult (Cmult g (cos (INR n * phi), sin (INR n * phi))) (nth n x (RtoC 0))) (seq 0 (length x)).

(** ** nearest-tone detector (coherent): the samples of tone t (in units of the inner deviation) in symbol j *)
Definition tone_samples (h : R) (t : Z) (j : nat) : list C :=
  map (fun i => (cos (2 * PI * (IZR t * h * (INR i / 40))), sin (2 * PI * (IZR t * h * (INR i / 40))))%R) (seq (20 * j) 20).
Definition closer (x a b : list C) : bool := if Rlt_dec (gap x a) (gap x b) then true else false.
(** the tone nearest to the samples x of symbol j, as bits: first bit = sign, second bit = outer *)
Definition nearest (h : R) (fsk4 : bool) (x : list C) (j : nat) : list bool :=
  let better a b := if closer x (tone_samples h a j) (tone_samples h b j) then a else b in
  let t := if fsk4 then better (better (-3)%Z (-1)%Z) (better 1%Z 3%Z) else better (-1)%Z 1%Z in
  if fsk4 then [(0 <? t)%Z; (2 <? Z.abs t)%Z] else [(0 <? t)%Z].
(** samples of symbol j *)
Definition block (x : list C) (j : nat) : list C := firstn 20 (skipn (20 * j) x).
Definition detect (fsk4 : bool) (h : R) (x : list C) : list bool :=
  flat_map (fun j => nearest h fsk4 (block x j) j) (seq 0 (length x / 20)).
