(** * Specification: a complete MR-FSK receiver: start of the frame, carrier offset, gain, preamble length, delimiter and
    coding all unknown; whatever follows the frame is ignored *)
From Coq Require Import Reals Lra.
From Coquelicot Require Import Complex.
From Verif Require Import Py SBits SFsk STime SCfo SFskRx SOfdmAcq.

(** mean turn from a sample to the next within symbol j (20 samples) *)
Definition rotation (x : list C) (j : nat) : C :=
  csum (fun i => Cmult (nth (20 * j + i + 1) x (RtoC 0)) (Cconj (nth (20 * j + i) x (RtoC 0)))) 19.
Definition turn (x : list C) (j : nat) : R := angle (rotation x j).
(** the first two symbols of the preamble are opposite tones: half the sum of their turns is the carrier offset *)
Definition preamble_offset (x : list C) : R := ((turn x 0 + turn x 1) / 2)%R.
(** bits of a symbol from its turn: sign; outer tone beyond twice the inner one, which turns by pi h / 20 *)
Definition above (a b : R) : bool := if Rlt_dec a b then true else false.
Definition read_turn (fsk4 : bool) (h v : R) : list bool :=
  if fsk4 then [above 0 v; above (2 * (PI * h / 20)) (Rabs v)] else [above 0 v].
Definition read_bits (fsk4 : bool) (h : R) (x : list C) : list bool :=
  flat_map (fun j => read_turn fsk4 h (turn x j - preamble_offset x)) (seq 0 (length x / 20)).
(** the hunting receiver; the frame ends where its header says *)
Definition stream_receiver (fsk4 il : bool) (scheme : Z) (tol : nat) (l : list bool) : option (Z * bool * rx_frame) :=
  match find_frame fsk4 tol l with
  | Some (g, c, rest) =>
      let octets := rx_octets (fsk_receiver fsk4 0 c il scheme rest) in
      Some (g, c, fsk_receiver fsk4 0 c il scheme (firstn (Z.to_nat (fsk_frame_bits fsk4 0 c octets)) rest))
  | None => None
  end.
Definition complete_fsk_receiver (fsk4 : bool) (h : R) (il : bool) (scheme : Z) (threshold : R) (r : list C) : option (Z * bool * rx_frame) :=
  stream_receiver fsk4 il scheme 1 (read_bits fsk4 h (from_first_above threshold r)).
(** largest tone, in units of the inner one *)
Definition outermost (fsk4 : bool) : R := if fsk4 then 3%R else 1%R.
