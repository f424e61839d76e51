(** * Specification: an MR-OFDM receiver that uses one copy of each data point.
    With a spreading factor sf above 1 (all headers; payloads with MCS 0, 1 and 2) each data point of a symbol is sent sf times,
    at different places of the band and turned by different multiples of a quarter turn.  The receiver of [SMrRx] reads the copy
    that is not turned; this one reads, for each point, any copy it likes.  Nothing here refers to the transmitter's functions or
    tables. *)
From Coq Require Import Reals.
From Coquelicot Require Import Complex.
From Verif Require Import Py SBits SPn9 MModul SOfdm SMrOfdm STime SMrRx SVit.

(** points of a symbol, and the subcarrier of copy j of point i of frame symbol n *)
Definition points_of (opt mcs : Z) : nat := (Z.to_nat (data_tones opt) / mcs_spreading mcs)%nat.
Definition copy_freq (opt mcs : Z) (n j i : nat) : Z := nth (j * points_of opt mcs + i) (data_freqs opt n) 0.
(** the point as read from the copy that [pick] names, turned back *)
Definition picked (pick : Z -> nat -> nat -> nat) (tone : nat -> Z -> C) (opt mcs : Z) (n i : nat) : C :=
  turn_back (spread_phase (Z.of_nat (mcs_spreading mcs)) (Z.of_nat (pick mcs n i)) (Z.of_nat i)) (tone n (copy_freq opt mcs n (pick mcs n i) i)).
Definition picked_symbol (pick : Z -> nat -> nat -> nat) (tone : nat -> Z -> C) (opt mcs : Z) (n : nat) : list bool :=
  flat_map (fun i => decide (mcs_modulation mcs) (picked pick tone opt mcs n i)) (seq 0 (points_of opt mcs)).

(** the receiver of [SMrRx], from the coded bits [bits mcs n] of frame symbol n read with the modulation of an MCS *)
Definition bits_header (bits : Z -> nat -> list bool) (opt il : Z) : list bool :=
  let low := lowest_mcs opt in decode false (deinterleave opt low il (flat_map (bits low) (seq 0 (Z.to_nat (phr_symbols il opt))))).
Definition bits_payload (bits : Z -> nat -> list bool) (opt il mcs scr len : Z) : list Z :=
  let l := flat_map (bits mcs) (seq (header_symbols_of opt mcs il) (payload_symbols_of opt mcs len)) in
  octets_of (unscramble scr (firstn (Z.to_nat (8 * len)) (decode (mcs_three_quarters mcs) (deinterleave opt mcs il l)))).
Definition bits_receiver (bits : Z -> nat -> list bool) (opt il : Z) : mr_frame :=
  let h := bits_header bits opt il in
  let mcs := msb_value (slice 0 5 h) in let len := msb_value (slice 6 11 h) in let scr := msb_value (slice 19 2 h) in
  {| f_mcs := mcs; f_scrambler := scr; f_octets := bits_payload bits opt il mcs scr len |}.
Definition picking_receiver (opt il : Z) (pick : Z -> nat -> nat -> nat) (tone : nat -> Z -> C) : mr_frame :=
  bits_receiver (picked_symbol pick tone opt) opt il.

(** the MCS with which frame symbol n is to be read *)
Definition mcs_at (opt mcs il : Z) (n : nat) : Z := if Nat.ltb n (header_symbols_of opt mcs il) then lowest_mcs opt else mcs.

(** ** reading from one end of the band: the first copy of each point, or the last *)
Definition lower_copy (_ : Z) (_ _ : nat) : nat := O.
Definition upper_copy (mcs : Z) (_ _ : nat) : nat := (mcs_spreading mcs - 1)%nat.
(** the lower part of the band: the first 1/k of the data subcarriers; the upper part: the last 1/k *)
Definition lower_part (opt : Z) (k n : nat) : list Z := firstn (length (data_freqs opt n) / k) (data_freqs opt n).
Definition upper_part (opt : Z) (k n : nat) : list Z :=
  let l := data_freqs opt n in skipn (length l - length l / k) l.

(** ** reading the copy that the channel treats best, as measured on the LTF *)
(** index of the largest of v 0, ..., v k *)
Fixpoint largest (v : nat -> R) (k : nat) : nat :=
  match k with O => O | S k' => let j := largest v k' in if Rlt_dec (v j) (v k) then k else j end.
Definition strongest_copy (opt : Z) (r : list C) (mcs : Z) (n i : nat) : nat :=
  largest (fun j => Cmod (measured opt r (copy_freq opt mcs n j i))) (mcs_spreading mcs - 1).
Definition selecting_receiver (opt il : Z) (r : list C) : mr_frame := picking_receiver opt il (strongest_copy opt r) (equalised opt r).
