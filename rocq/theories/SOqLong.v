(** * Specification for C108: an MR-O-QPSK receiver for DSSS frames of any size.
    The interleaver as built sends only some of the coded bits of a payload of 8 octets or more (C51, C55); this receiver gets
    every payload bit that those determine.  Nothing here refers to the functions or tables of the code. *)
From Verif Require Import Py Tables SBits SOqpsk SOqRx SOqDs.

(** the interleaved coded bits *)
Definition near_coded (b : Frequency_band) (rm : Z) (chips : list bool) : list bool :=
  let c := remove_pilots b (skipn (payload_start b) chips) in
  let d := match psdu_codes b rm with Some sp => despread_near sp (length c / spread_chips sp) c | None => c end in
  if psdu_diff b rm then diff_decode false d else d.
(** coded bit j of 126 nb: the first 126 are read as in a payload of one block, the others (every one from 108 nb + 18 on is
    somewhere) one position in seven *)
Definition coded_bit (nb : nat) (e : list bool) (j : nat) : bool :=
  if Nat.ltb j 126 then nth (125 - 7 * (j mod 18) - j / 18) e false else nth (125 + 7 * (126 * nb - j)) e false.
(** the first 63 bits *)
Definition front (nb : nat) (e : list bool) : list bool := decode_12 (map (coded_bit nb e) (seq 0 126)).
(** the last 6 + k bits, from the end: the last six are 0, and the first generator gives the earliest of seven consecutive bits
    from the others *)
Fixpoint back (nb : nat) (e : list bool) (k : nat) : list bool :=
  match k with
  | O => repeat false 6
  | S k' => let t := back nb e k' in
            xorb (coded_bit nb e (2 * (63 * nb - 1 - k'))) (xorb (nth 5 t false) (xorb (nth 3 t false) (xorb (nth 2 t false) (nth 0 t false)))) :: t
  end.
(** payload bit j is in the frame *)
Definition is_sent (nb j : nat) : bool := Nat.ltb j 63 || Nat.leb (54 * nb + 3) j.
Definition long_payload (b : Frequency_band) (rm n : Z) (chips : list bool) : list (option bool) :=
  let nb := Z.to_nat (psdu_blocks n) in let e := near_coded b rm chips in
  map (fun j => if Nat.ltb j 63 then Some (nth j (front nb e) false)
                else if Nat.leb (54 * nb + 3) j then Some (nth (j - (54 * nb + 3)) (back nb e (9 * nb - 9)) false) else None)
      (seq 0 (Z.to_nat (8 * n))).
Definition long_receiver (b : Frequency_band) (chips : list bool) : bool * Z * Z * list (option bool) :=
  let '(sm, rm, n) := rx_mode (near_header b chips) in (sm, rm, n, long_payload b rm n chips).
