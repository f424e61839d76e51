(** * Specification for C107: an MR-O-QPSK receiver that corrects errors with the convolutional code as well.
    Nothing here refers to the functions or tables of the code.  [viterbi] and [pairs] are those of [SVit], the despreading to
    the nearest code word that of [SOqDs]. *)
From Coq Require Import Reals.
From Verif Require Import Py Tables SBits SOqpsk SOqRx SOqDs.
From Verif Require SVit.

(** the coded bits, decided 0 or 1, given to the decoder as -1 or +1; [free] bits are looked for, zeros follow *)
Definition corrected (free zeros : nat) (coded : list bool) : list bool :=
  firstn free (SVit.viterbi (repeat None free ++ repeat (Some false) zeros) (SVit.pairs false (map (fun b : bool => if b then 1%R else (-1)%R) coded))).
(** the header: 24 bits and 6 zeros *)
Definition vit_header (b : Frequency_band) (chips : list bool) : list bool :=
  let h := firstn (60 * spread_chips (phr_codes b)) (skipn (header_start b) chips) in
  corrected 24 6 (deinterleave false (diff_decode (parity sfd_bits) (despread_near (phr_codes b) 60 h))).
(** a payload that fills one interleaver block: 8n bits among 63, zeros after them *)
Definition vit_payload (b : Frequency_band) (rm n : Z) (chips : list bool) : list bool :=
  let c := remove_pilots b (skipn (payload_start b) chips) in
  let d := match psdu_codes b rm with Some sp => despread_near sp (length c / spread_chips sp) c | None => c end in
  let e := if psdu_diff b rm then diff_decode false d else d in
  corrected (Z.to_nat (8 * n)) (63 - Z.to_nat (8 * n)) (deinterleave true e).
Definition vit_receiver (b : Frequency_band) (chips : list bool) : oq_frame :=
  let '(sm, rm, n) := rx_mode (vit_header b chips) in
  {| f_mdsss := sm; f_rate_mode := rm; f_octets := n; f_bits := vit_payload b rm n chips |}.

(** how many of the [n] groups of [w] chips have more than [t] wrong chips *)
Definition illegible (w t n : nat) (r c : list bool) : nat :=
  length (filter (fun j => Nat.ltb t (distance (slice (j * w) w r) (slice (j * w) w c))) (seq 0 n)).
(** groups of the header *)
Definition header_illegible (b : Frequency_band) (r c : list bool) : nat :=
  illegible (spread_chips (phr_codes b)) (correctable (phr_codes b)) 60 (skipn (header_start b) r) (skipn (header_start b) c).
(** wrong coded bits of the payload, at most: two for each illegible group (differential coding), one for each wrong chip where
    nothing is spread; pilots do not count *)
Definition payload_errors (b : Frequency_band) (rm : Z) (r c : list bool) : nat :=
  let r' := remove_pilots b (skipn (payload_start b) r) in let c' := remove_pilots b (skipn (payload_start b) c) in
  match psdu_codes b rm with
  | Some sp => (2 * illegible (spread_chips sp) (correctable sp) (length c' / spread_chips sp) r' c')%nat
  | None => distance r' c'
  end.
