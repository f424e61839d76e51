(** * Specification for C93: an MR-O-QPSK receiver that does not know where the frame begins *)
From Verif Require Import Py Tables SBits SOqpsk SOqRx SOqDs.

(** ** chip alignment: the preamble repeats the codes of a zero bit, one from each table in turn *)
Definition sync_unit (b : Frequency_band) : list bool := flat_map (fun name => chip_code name [false]) (shr_codes b).
Definition period (b : Frequency_band) : nat := (length (shr_codes b) * spread_chips (shr_codes b))%nat.
(** the unit seen from its chip [i] on *)
Definition turned (b : Frequency_band) (i : nat) : list bool := skipn i (sync_unit b) ++ firstn i (sync_unit b).
Definition mismatch (b : Frequency_band) (r : list bool) (i : nat) : nat := distance (turned b i) (firstn (period b) r).
(** where in the unit the first chip received lies: the phase with the fewest mismatches over one period *)
Definition phase_of (b : Frequency_band) (r : list bool) : nat :=
  fold_left (fun i j => if Nat.ltb (mismatch b r j) (mismatch b r i) then j else i) (seq 0 (period b)) 0%nat.
Definition aligned (b : Frequency_band) (r : list bool) : list bool := skipn ((period b - phase_of b r) mod period b) r.

(** ** hunt for the SFD, allowing four wrong bits *)
Definition sfd_here (bits : list bool) (k : nat) : bool := Nat.leb (distance (slice k 16 bits) sfd_bits) 4.
Definition sfd_position (bits : list bool) : option nat := find (sfd_here bits) (seq 0 (length bits)).
(** what follows the SFD *)
Definition after_sfd (b : Frequency_band) (r : list bool) : option (list bool) :=
  let a := aligned b r in let w := spread_chips (shr_codes b) in
  match sfd_position (diff_decode false (despread_near (shr_codes b) (length a / w) a)) with
  | Some k => Some (skipn ((k + 16) * w) a)
  | None => None
  end.
(** the whole receiver: the receiver of SOqDs looks only at what follows the SFD *)
Definition sync_receiver (b : Frequency_band) (r : list bool) : option oq_frame :=
  match after_sfd b r with Some rest => Some (near_receiver b (repeat false (header_start b) ++ rest)) | None => None end.
Definition sync_mode (b : Frequency_band) (r : list bool) : option (bool * Z * Z) :=
  match after_sfd b r with Some rest => Some (rx_mode (near_header b (repeat false (header_start b) ++ rest))) | None => None end.

(** ** reception conditions *)
(** wrong chips allowed in the first period *)
Definition sync_errors (b : Frequency_band) : nat :=
  match b with Band_2450MHz => 28 | Band_780MHz | Band_915MHz | Band_917MHz => 12 | Band_920MHz => 7 | _ => 6 end.
(** group [j] of the SHR has too many wrong chips to be read for sure *)
Definition illegible (b : Frequency_band) (r c : list bool) (j : nat) : bool :=
  let w := spread_chips (shr_codes b) in
  Nat.ltb (correctable (shr_codes b)) (distance (slice (j * w) w r) (slice (j * w) w c)).
(** reception [r] of the chips [c], listened to from chip [o]: few errors in the first period, and among any 17 consecutive
    groups of the SHR at most two illegible ones *)
Definition can_sync (b : Frequency_band) (o : nat) (r c : list bool) : Prop :=
  (distance (slice o (period b) r) (slice o (period b) c) <= sync_errors b)%nat
  /\ forall k, (k < preamble_bits b)%nat -> (length (filter (illegible b r c) (seq k 17)) <= 2)%nat.
