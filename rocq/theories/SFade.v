(** * Specification: MR-FSK frames received with a fade: some consecutive symbols are lost.
    Nothing here refers to the transmitter. *)
From Coq Require Import Reals.
From Coquelicot Require Import Complex.
From Verif Require Import Py SFsk SGap SFskRx SFskVit.

(** length of the longest fade, in coded bits: the interleaver more than doubles it *)
Definition fade_bits (interleaving : bool) : nat := if interleaving then 16 else 7.
(** the same in whole symbols (4FSK symbols carry two bits) *)
Definition fade_symbols (fsk4 interleaving : bool) : nat :=
  if fsk4 then if interleaving then 8 else 3 else fade_bits interleaving.

(** a receiver of bits some of which are lost ([None]): the Viterbi decoder of [SFskVit], lost bits costing nothing *)
Definition seen_cost (received : list (option bool)) (k : nat) (u1 u0 : bool) : R :=
  let c o u := match o with Some b => if xorb b u then 1%R else 0%R | None => 0%R end in
  (c (nth (2 * k) received None) u1 + c (nth (2 * k + 1) received None) u0)%R.
Definition fsk_loss_corrector (fsk4 il white : bool) (scheme preamble : Z) (received : list (option bool)) : rx_frame :=
  fsk_corrector il white scheme (seen_cost (skipn (first_symbol preamble * symbol_bits fsk4) received)).

(** the samples x, with silence during [k] symbols from symbol [st] on *)
Definition faded (st k : nat) (x : list C) : list C :=
  map (fun i => if (Nat.leb (20 * st) i && Nat.ltb i (20 * (st + k)))%bool then RtoC 0 else nth i x (RtoC 0)) (seq 0 (length x)).
