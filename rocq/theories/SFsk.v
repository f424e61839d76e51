(** * Specification of MR-FSK: documented arguments, frame layout, receiver *)
From Verif Require Import Py SBits SPn9.

(** ** arguments of the constructor: what the documentation asks of each (a bool is an int in Python) *)
Inductive verdict := Good | BadType | BadValue.
Definition integer_arg (v : pyval) (ok : Z -> bool) : verdict :=
  match v with
  | PInt z => if ok z then Good else BadValue
  | PBool b => if ok (if b then 1 else 0) then Good else BadValue
  | _ => BadType
  end.
Definition bool_arg (v : pyval) : verdict := match v with PBool _ => Good | _ => BadType end.
(** positive number of symbols per second; a float is truncated *)
Definition rate_arg (v : pyval) : verdict :=
  match v with
  | PFloat q => if Qle_bool 1 q then Good else BadValue
  | _ => integer_arg v (fun z => 0 <? z)
  end.
(** number between 0.25 and 2.5 *)
Definition index_arg (v : pyval) : verdict :=
  match v with
  | PFloat q => if Qle_bool (1 # 4) q && Qle_bool q (5 # 2) then Good else BadValue
  | _ => integer_arg v (fun z => (1 <=? z) && (z <=? 2))
  end.
Definition modulation_arg (v : pyval) : verdict :=
  match v with
  | PStr s => if String.eqb s "2FSK" || String.eqb s "4FSK" then Good else BadValue
  | _ => BadType
  end.
Definition zero_or_one (v : pyval) : verdict := integer_arg v (fun z => (z =? 0) || (z =? 1)).
(** first verdict that is not Good *)
Fixpoint first_bad (l : list verdict) : verdict :=
  match l with [] => Good | Good :: r => first_bad r | v :: _ => v end.

(** value read from an argument: an int or bool as an integer, a number, a float truncated towards 0 (positive case) *)
Definition reads_int (v : pyval) (z : Z) : Prop := v = PInt z \/ exists b, v = PBool b /\ z = if b then 1 else 0.
Definition reads_num (v : pyval) (q : Q) : Prop := v = PFloat q \/ exists z, reads_int v z /\ q = inject_Z z.
Definition reads_rate (v : pyval) (z : Z) : Prop :=
  reads_int v z \/ exists q, v = PFloat q /\ (inject_Z z <= q < inject_Z (z + 1))%Q.

(** ** frame *)
Definition tile {A} (n : nat) (l : list A) : list A := concat (repeat l n).
Definition bits_of (l : list Z) : list bool := map (Z.eqb 1) l.
(** one preamble octet / 4FSK double octet, tables of 802.15.4g *)
Definition preamble_unit (fsk4 : bool) : list bool :=
  bits_of (if fsk4 then [0;1;1;1; 0;1;1;1; 0;1;1;1; 0;1;1;1] else [0;1; 0;1; 0;1; 0;1]).
(** start frame delimiters (modulation, phyMRFSKSFD, coded): tables 131 and 132 *)
Definition sfd (fsk4 : bool) (group : Z) (coded : bool) : list bool :=
  bits_of match fsk4, group =? 0, coded with
  | false, true, true => [0;1;1;0; 1;1;1;1; 0;1;0;0; 1;1;1;0]
  | false, true, false => [1;0;0;1; 0;0;0;0; 0;1;0;0; 1;1;1;0]
  | false, false, true => [0;1;1;0; 0;0;1;1; 0;0;1;0; 1;1;0;1]
  | false, false, false => [0;1;1;1; 1;0;1;0; 0;0;0;0; 1;1;1;0]
  | true, true, true => [0;1;1;1; 1;1;0;1; 1;1;1;1; 1;1;1;1; 0;1;1;1; 0;1;0;1; 1;1;1;1; 1;1;0;1]
  | true, true, false => [1;1;0;1; 0;1;1;1; 0;1;0;1; 0;1;0;1; 0;1;1;1; 0;1;0;1; 1;1;1;1; 1;1;0;1]
  | true, false, true => [0;1;1;1; 1;1;0;1; 0;1;0;1; 1;1;1;1; 0;1;0;1; 1;1;0;1; 1;1;1;1; 0;1;1;1]
  | true, false, false => [0;1;1;1; 1;1;1;1; 1;1;0;1; 1;1;0;1; 0;1;0;1; 0;1;0;1; 1;1;1;1; 1;1;0;1]
  end.
(** header: mode switch, two reserved bits, FCS type, whitening, octet count MSB first (figure 114) *)
Definition fsk_header (fcs : Z) (white : bool) (octets : Z) : list bool :=
  [false; false; false; fcs =? 1; white] ++ msb_bits 11 octets.

(** XOR of a bit string with the PN9 sequence from the all-ones register *)
Definition whiten (l : list bool) : list bool :=
  map (fun i => xorb (nth i l false) (pn9_bit 511 i)) (seq 0 (length l)).

(** number of bits of a frame for a payload of [n] octets *)
Definition fsk_frame_bits (fsk4 : bool) (preamble : Z) (fec : bool) (n : Z) : Z :=
  preamble * (if fsk4 then 16 else 8) + (if fsk4 then 32 else 16)
  + (if fec then 2 * (16 + 8 * n + 3 + (if Z.even n then 13 else 5)) else 16 + 8 * n).

(** distance of two samples given by their phases (in turns): same point of the unit circle *)
Definition same_sample (p q : Q) : Prop := exists k : Z, (p - q == inject_Z k)%Q.

(** ** the convolutional codes, as recurrences on bit sequences.
    NRNSC: u1 = not (b_n + b_{n-2} + b_{n-3}), u0 = not (b_n + b_{n-1} + b_{n-2} + b_{n-3});
    RSC: u0 = b_n and u1 = w_n + w_{n-2} + w_{n-3} where w_n = b_n + w_{n-1} + w_{n-2} + w_{n-3}.
    u1 is sent first. [at_ w n k] is the value k positions before n (0 before the beginning). *)
Definition at_ (w : nat -> bool) (n k : nat) : bool := if Nat.leb k n then w (n - k)%nat else false.
Definition nrnsc_pair (b : nat -> bool) (n : nat) : list bool :=
  [negb (xorb (b n) (xorb (at_ b n 2) (at_ b n 3)));
   negb (xorb (b n) (xorb (at_ b n 1) (xorb (at_ b n 2) (at_ b n 3))))].
Definition rsc_memory (b w : nat -> bool) : Prop :=
  forall n, w n = xorb (b n) (xorb (at_ w n 1) (xorb (at_ w n 2) (at_ w n 3))).
Definition rsc_pair (b w : nat -> bool) (n : nat) : list bool :=
  [xorb (w n) (xorb (at_ w n 2) (at_ w n 3)); b n].

(** ** receiver for the coded stream of either scheme: follows the recurrences with a 3-bit history *)
Fixpoint fec_decode (scheme : Z) (m1 m2 m3 : bool) (l : list bool) : list bool :=
  match l with
  | u1 :: u0 :: r =>
      if scheme =? 0 then
        let b := xorb (negb u0) (xorb m1 (xorb m2 m3)) in b :: fec_decode scheme b m1 m2 r
      else
        let b := u0 in b :: fec_decode scheme (xorb b (xorb m1 (xorb m2 m3))) m1 m2 r
  | _ => []
  end.
(** 4x4 arrays of bit pairs, read backwards by columns: output pair t comes from input pair 15 - 4 (t mod 4) - t / 4 *)
Definition source_pair (t : nat) : nat := (15 - 4 * Nat.modulo t 4 - t / 4)%nat.
Definition deinterleave (l : list bool) : list bool :=
  map (fun i => let b := (i / 32)%nat in let t := (Nat.modulo i 32 / 2)%nat in
                nth (32 * b + 2 * source_pair t + Nat.modulo i 2) l false) (seq 0 (length l)).

(** what the receiver reports *)
Record rx_frame := { rx_fcs : Z; rx_white : bool; rx_octets : Z; rx_payload : list bool }.
(** receiver of a bit frame; knows modulation, preamble length, whether FEC and interleaving are used, and the scheme *)
Definition fsk_receiver (fsk4 : bool) (preamble : Z) (fec il : bool) (scheme : Z) (frame : list bool) : rx_frame :=
  let body := skipn (Z.to_nat (preamble * (if fsk4 then 16 else 8) + (if fsk4 then 32 else 16))) frame in
  let unpack l := if fec then fec_decode scheme false false false (if il then deinterleave l else l) else l in
  let start := if fec then 32%nat else 16%nat in
  let header := unpack (firstn start body) in
  let white := nth 4 header false in
  let octets := msb_value (skipn 5 header) in
  let body' := firstn start body ++ (if white then whiten (skipn start body) else skipn start body) in
  let data := unpack body' in
  let trailer := if fec then (if Z.even octets then 16 else 8)%nat else 0%nat in
  {| rx_fcs := if nth 3 header false then 1 else 0; rx_white := white; rx_octets := octets;
     rx_payload := firstn (length data - 16 - trailer) (skipn 16 data) |}.

(** ** tones: frequency of a symbol in units of deltaF = h * symbol rate / 2 *)
Definition tone2 (b : bool) : Z := if b then 1 else -1.
Definition tone4 (b0 b1 : bool) : Z := (if b0 then 1 else -1) * (if b1 then 3 else 1).
(** tone of symbol j of a frame *)
Definition symbol_tone (fsk4 : bool) (frame : list bool) (j : nat) : Z :=
  if fsk4 then tone4 (nth (2 * j) frame false) (nth (2 * j + 1) frame false) else tone2 (nth j frame false).
Definition symbols (fsk4 : bool) (frame : list bool) : nat := (if fsk4 then length frame / 2 else length frame)%nat.

(** the phase at the beginning of every symbol continues the straight line of the previous symbol *)
Definition phase_continuous (ph : list Q) : Prop :=
  forall j, (0 < j)%nat -> (20 * j < length ph)%nat ->
    same_sample (nth (20 * j) ph 0%Q)
                (nth (20 * j - 1)%nat ph 0 + (nth (20 * j - 1)%nat ph 0 - nth (20 * j - 2)%nat ph 0))%Q.

(** padding after the tail bits (802.15.4g table 130): 01011 for an odd number of octets, 0101100001011 for an even one *)
Definition fec_padding (octets : Z) : list bool :=
  map (Z.eqb 1) (if Z.even octets then [0; 1; 0; 1; 1; 0; 0; 0; 0; 1; 0; 1; 1] else [0; 1; 0; 1; 1]).
