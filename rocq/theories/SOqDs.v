(** * Specification for C91: an MR-O-QPSK receiver that despreads to the nearest code word *)
From Verif Require Import Py Tables SBits SOqpsk SOqRx.

(** wrong chips that can be corrected in a group: less than half the smallest distance between two codes of its table.
    One-bit tables hold a code and its complement *)
Definition correctable (sp : list string) : nat :=
  match sp with
  | ["(8,4)"%string] => 1 | ["(16,4)"%string] => 2 | ["(32,4)"%string] => 5
  | _ => (spread_chips sp - 1) / 2
  end.
(** the group whose code is nearest to the block *)
Definition nearer (name : string) (block g h : list bool) : list bool :=
  if Nat.ltb (distance (chip_code name h) block) (distance (chip_code name g) block) then h else g.
Definition nearest_group (sp : list string) (j : nat) (block : list bool) : list bool :=
  fold_left (nearer (table_for sp j) block) (bit_strings (spread_bits sp)) (repeat false (spread_bits sp)).
Definition despread_near (sp : list string) (n : nat) (chips : list bool) : list bool :=
  flat_map (fun j => nearest_group sp j (slice (j * spread_chips sp) (spread_chips sp) chips)) (seq 0 n).

(** the receiver of SOqRx with this despreading *)
Definition near_shr (b : Frequency_band) (chips : list bool) : list bool :=
  diff_decode false (despread_near (shr_codes b) (preamble_bits b + 16) (firstn (header_start b) chips)).
Definition near_header (b : Frequency_band) (chips : list bool) : list bool :=
  let h := firstn (60 * spread_chips (phr_codes b)) (skipn (header_start b) chips) in
  firstn 24 (decode_12 (deinterleave false (diff_decode (parity sfd_bits) (despread_near (phr_codes b) 60 h)))).
Definition near_payload (b : Frequency_band) (rm n : Z) (chips : list bool) : list bool :=
  let c := remove_pilots b (skipn (payload_start b) chips) in
  let d := match psdu_codes b rm with Some sp => despread_near sp (length c / spread_chips sp) c | None => c end in
  let e := if psdu_diff b rm then diff_decode false d else d in
  firstn (Z.to_nat (8 * n)) (decode_12 (deinterleave true e)).
Definition near_receiver (b : Frequency_band) (chips : list bool) : oq_frame :=
  let '(sm, rm, n) := rx_mode (near_header b chips) in
  {| f_mdsss := sm; f_rate_mode := rm; f_octets := n; f_bits := near_payload b rm n chips |}.

(** in none of the [n] groups of [w] chips more than [t] chips differ *)
Definition within (w t n : nat) (r c : list bool) : Prop := forall j, (j < n)%nat -> (distance (slice (j * w) w r) (slice (j * w) w c) <= t)%nat.
(** header: groups of the SHR and of the PHR *)
Definition header_legible (b : Frequency_band) (r c : list bool) : Prop :=
  within (spread_chips (shr_codes b)) (correctable (shr_codes b)) (preamble_bits b + 16) r c
  /\ within (spread_chips (phr_codes b)) (correctable (phr_codes b)) 60 (skipn (header_start b) r) (skipn (header_start b) c).
(** payload, pilots aside; no wrong chip where nothing is spread *)
Definition payload_legible (b : Frequency_band) (rm : Z) (r c : list bool) : Prop :=
  let r' := remove_pilots b (skipn (payload_start b) r) in let c' := remove_pilots b (skipn (payload_start b) c) in
  match psdu_codes b rm with
  | Some sp => within (spread_chips sp) (correctable sp) (length c' / spread_chips sp) r' c'
  | None => r' = c'
  end.
