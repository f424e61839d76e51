(** * Specification: a receiver for MR-O-QPSK chip sequences, and the layout of a frame.
    Nothing here refers to the tables or functions of the code. *)
From Verif Require Import Py Tables SBits SOqpsk.

(** ** layout: preamble of zeros, SFD, header (24 bits + 6 tail bits, rate 1/2), payload with pilots *)
Definition preamble_bits (b : Frequency_band) : nat :=
  match b with Band_780MHz | Band_915MHz | Band_917MHz | Band_2450MHz => 56 | _ => 32 end.
Definition sfd_bits : list bool := map (Z.eqb 1) [1;1;1;0; 1;0;1;1; 0;1;1;0; 0;0;1;0].
(** modes with differential encoding of the payload: the bit-by-bit spread ones *)
Definition psdu_diff (b : Frequency_band) (rm : Z) : bool :=
  match psdu_codes b rm with Some sp => Nat.eqb (spread_bits sp) 1 | None => false end.
(** chips for [n] bits *)
Definition chips_for (sp : option (list string)) (n : nat) : nat :=
  match sp with Some s => (n / spread_bits s * spread_chips s)%nat | None => n end.

Definition header_start (b : Frequency_band) : nat := ((preamble_bits b + 16) * spread_chips (shr_codes b))%nat.
Definition payload_start (b : Frequency_band) : nat := (header_start b + 60 * spread_chips (phr_codes b))%nat.
Definition with_pilot_chips (b : Frequency_band) (n : nat) : nat :=
  (n + (n + (pilot_spacing b - 1)) / pilot_spacing b * pilot_length b)%nat.
(** chips of a frame of [n] octets in a DSSS mode: 126 coded bits for each 63 bits begun *)
Definition dsss_frame_chips (b : Frequency_band) (rm n : Z) : nat :=
  (payload_start b + with_pilot_chips b (chips_for (psdu_codes b rm) (126 * Z.to_nat (psdu_blocks n))))%nat.

(** chips of the payload part of an MDSSS frame (as sent by the code, whatever the payload) *)
Definition mdsss_chips (b : Frequency_band) (rm : Z) : nat :=
  match b with
  | Band_2450MHz => match rm with 0 => 128 | 3 => 32 | _ => 64 end
  | _ => match rm with 0 => 64 | 3 => 16 | _ => 32 end
  end.

(** ** receiver *)
(** rows and columns of the interleaver exchanged back, read from the end: 6 x 10 (header), 7 x 18 (payload block) *)
Definition deinterleave (payload : bool) (l : list bool) : list bool :=
  let rows := if payload then 7%nat else 6%nat in let cols := if payload then 18%nat else 10%nat in
  map (fun j => nth (rows * cols - 1 - rows * (j mod cols) - j / cols) l false) (seq 0 (rows * cols)).
(** inverse of the rate-1/2 code: the first generator gives the input bit once the six previous ones are known *)
Fixpoint uncode (m1 m2 m3 m4 m5 m6 : bool) (l : list bool) : list bool :=
  match l with
  | a :: _ :: r => let x := xorb a (xorb m2 (xorb m3 (xorb m5 m6))) in x :: uncode x m1 m2 m3 m4 m5 r
  | _ => []
  end.
Definition decode_12 (l : list bool) : list bool := uncode false false false false false false l.
Definition parity (l : list bool) : bool := fold_right xorb false l.

(** the SHR as decoded by the receiver *)
Definition rx_shr (b : Frequency_band) (chips : list bool) : list bool :=
  diff_decode false (despread (shr_codes b) (preamble_bits b + 16) (firstn (header_start b) chips)).
(** the header: 24 bits.  The reference of the differential decoding is the last SHR bit, the parity of the SFD *)
Definition rx_header (b : Frequency_band) (chips : list bool) : list bool :=
  let h := firstn (60 * spread_chips (phr_codes b)) (skipn (header_start b) chips) in
  firstn 24 (decode_12 (deinterleave false (diff_decode (parity sfd_bits) (despread (phr_codes b) 60 h)))).
(** spreading mode, rate mode, octet count *)
Definition rx_mode (header : list bool) : bool * Z * Z :=
  (nth 0 header false, msb_value (slice 1 2 header), msb_value (slice 5 11 header)).
(** payload of a DSSS frame that fills one interleaver block *)
Definition rx_payload (b : Frequency_band) (rm n : Z) (chips : list bool) : list bool :=
  let c := remove_pilots b (skipn (payload_start b) chips) in
  let d := match psdu_codes b rm with Some sp => despread sp (length c / spread_chips sp) c | None => c end in
  let e := if psdu_diff b rm then diff_decode false d else d in
  firstn (Z.to_nat (8 * n)) (decode_12 (deinterleave true e)).
Record oq_frame := { f_mdsss : bool; f_rate_mode : Z; f_octets : Z; f_bits : list bool }.
Definition oq_receiver (b : Frequency_band) (chips : list bool) : oq_frame :=
  let '(sm, rm, n) := rx_mode (rx_header b chips) in
  {| f_mdsss := sm; f_rate_mode := rm; f_octets := n; f_bits := rx_payload b rm n chips |}.
