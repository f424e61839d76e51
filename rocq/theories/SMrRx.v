(** * Specification: a receiver for MR-OFDM samples, and the channels it is used on.
    Nothing here refers to the transmitter's functions or tables.  The receiver knows the OFDM option and the interleaving
    mode; MCS, scrambler and length are read from the header. *)
From Coq Require Import Reals.
From Coquelicot Require Import Complex.
From Verif Require Import Py Tables SBits SPn9 MModul SOfdm SMrOfdm STime.
From Verif Require SOqRx.

(** ** where things are: with q a quarter of the FFT size, the STF has 20q samples and the LTF 10q (half a symbol, then
    twice the same symbol); frame symbol n follows after n symbols of 5q samples, the first q being its cyclic prefix *)
Definition quarter (opt : Z) : nat := Z.to_nat (fft_size opt / 4).
Definition rx_body (opt : Z) (r : list C) (n : nat) : list C := firstn (4 * quarter opt) (skipn ((31 + 5 * n) * quarter opt) r).
Definition rx_ltf (opt : Z) (r : list C) : list C := firstn (4 * quarter opt) (skipn (26 * quarter opt) r).
(** value of subcarrier f of frame symbol n *)
Definition rx_tone (opt : Z) (r : list C) (n : nat) (f : Z) : C := analyse (rx_body opt r n) f.

(** ** subcarriers to bits *)
(** pilots of frame symbol n: the sets are used in turn from the first symbol of the header on *)
Definition pilots_of (opt : Z) (n : nat) : list Z := nth (n mod length (pilot_sets opt)) (pilot_sets opt) [].
(** data subcarriers of frame symbol n, in increasing frequency *)
Definition data_freqs (opt : Z) (n : nat) : list Z :=
  filter (is_data (fft_size opt) (guard_left opt) (guard_right opt) (pilots_of opt n)) (freqs (fft_size opt)).
(** those carrying the copy that the frequency spreading leaves unturned *)
Definition plain_freqs (opt mcs : Z) (n : nat) : list Z :=
  let p := (Z.to_nat (data_tones opt) / mcs_spreading mcs)%nat in
  firstn p (skipn (mcs_spreading mcs / 2 * p) (data_freqs opt n)).
Definition positive (x : R) : bool := if Rlt_dec 0 x then true else false.
Definition inner (k x : R) : bool := if Rlt_dec (Rabs x) (2 * k) then true else false.
(** hard decision, one axis at a time *)
Definition decide (m : modulation) (z : C) : list bool :=
  match m with
  | BPSK => [positive (fst z)]
  | QPSK => [positive (fst z); positive (snd z)]
  | QAM16 => [positive (fst z); inner (norm_factor QAM16) (fst z); positive (snd z); inner (norm_factor QAM16) (snd z)]
  end.
Definition rx_symbol (tone : nat -> Z -> C) (opt mcs : Z) (n : nat) : list bool :=
  flat_map (fun f => decide (mcs_modulation mcs) (tone n f)) (plain_freqs opt mcs n).

(** ** bits to octets *)
(** inverse of the interleaver: bit k of a block is found at [rx_position] (the two permutations of the standard in
    the order in which the code applies them) *)
Definition rx_position (opt mcs il k : Z) : Z :=
  let n := Z.of_nat (il_block opt mcs il) in
  std_step1 n (il_rows mcs) (std_step2 n (il_rows mcs) (Z.max 1 (Z.of_nat (group_size (mcs_modulation mcs)) / 2)) k).
Definition deinterleave (opt mcs il : Z) (l : list bool) : list bool :=
  let n := il_block opt mcs il in
  flat_map (fun b => map (fun k => nth (b * n + Z.to_nat (rx_position opt mcs il (Z.of_nat k))) l false) (seq 0 n)) (seq 0 (length l / n)).
(** inverse of the rate-3/4 code, from A0, A1 and B2 of each triple *)
Fixpoint uncode_34 (m1 m2 m3 m4 m5 m6 : bool) (l : list bool) : list bool :=
  match l with
  | a0 :: _ :: a1 :: b2 :: r =>
      let x0 := xorb a0 (xorb m2 (xorb m3 (xorb m5 m6))) in
      let x1 := xorb a1 (xorb m1 (xorb m2 (xorb m4 m5))) in
      let x2 := xorb b2 (xorb x1 (xorb x0 (xorb m1 m4))) in
      x0 :: x1 :: x2 :: uncode_34 x2 x1 x0 m1 m2 m3 r
  | _ => []
  end.
Definition decode (three_quarters : bool) (l : list bool) : list bool :=
  if three_quarters then uncode_34 false false false false false false l else SOqRx.decode_12 l.
Definition unscramble (scr : Z) (l : list bool) : list bool :=
  map (fun i => xorb (nth i l false) (pn9_bit (scrambling_seed scr) i)) (seq 0 (length l)).
Fixpoint octets_of (l : list bool) : list Z :=
  match l with b0 :: b1 :: b2 :: b3 :: b4 :: b5 :: b6 :: b7 :: r => lsb_value [b0; b1; b2; b3; b4; b5; b6; b7] :: octets_of r | _ => [] end.

(** ** the receiver *)
Record mr_frame := { f_mcs : Z; f_scrambler : Z; f_octets : list Z }.
(** the header: rate 1/2 at the lowest MCS of the option; the first symbols are enough for its 22 bits *)
Definition rx_header (tone : nat -> Z -> C) (opt il : Z) : list bool :=
  let low := lowest_mcs opt in
  decode false (deinterleave opt low il (flat_map (rx_symbol tone opt low) (seq 0 (Z.to_nat (phr_symbols il opt))))).
(** symbols taken by the header before the payload, and symbols of the payload *)
Definition header_symbols_of (opt mcs il : Z) : nat := Z.to_nat (phr_symbols il opt * (if mcs_three_quarters mcs then 3 else 2) / 2).
Definition payload_symbols_of (opt mcs len : Z) : nat := (groups opt mcs (Z.to_nat (8 * len)) * mcs_spreading mcs)%nat.
Definition rx_payload (tone : nat -> Z -> C) (opt il mcs scr len : Z) : list Z :=
  let bits := flat_map (rx_symbol tone opt mcs) (seq (header_symbols_of opt mcs il) (payload_symbols_of opt mcs len)) in
  octets_of (unscramble scr (firstn (Z.to_nat (8 * len)) (decode (mcs_three_quarters mcs) (deinterleave opt mcs il bits)))).
Definition mr_receiver (opt il : Z) (tone : nat -> Z -> C) : mr_frame :=
  let h := rx_header tone opt il in
  let mcs := msb_value (slice 0 5 h) in let len := msb_value (slice 6 11 h) in let scr := msb_value (slice 19 2 h) in
  {| f_mcs := mcs; f_scrambler := scr; f_octets := rx_payload tone opt il mcs scr len |}.

(** modulation of frame symbol n (the header uses the lowest MCS of the option), and its decision distance *)
Definition symbol_modulation (opt mcs il : Z) (n : nat) : modulation :=
  mcs_modulation (if Nat.ltb n (header_symbols_of opt mcs il) then lowest_mcs opt else mcs).
Definition symbol_factor (opt mcs il : Z) (n : nat) : R := norm_factor (symbol_modulation opt mcs il n).
(** symbols of a frame of len octets *)
Definition frame_symbols_of (opt mcs il len : Z) : nat := (header_symbols_of opt mcs il + payload_symbols_of opt mcs len)%nat.

(** ** multipath *)
(** samples received through a channel of impulse response h: h[0] s[t] + h[1] s[t-1] + ... *)
Definition through (h : list C) (s : list C) : list C :=
  map (fun t => csum (fun l => if Nat.leb l t then Cmult (nth l h (RtoC 0)) (nth (t - l) s (RtoC 0)) else RtoC 0) (length h))
      (seq 0 (length s)).
(** its frequency response at subcarrier f of N *)
Definition response (N : Z) (h : list C) (f : Z) : C :=
  csum (fun l => Cmult (nth l h (RtoC 0)) (unit_at (- (2 * PI * (IZR f * INR l / IZR N))))) (length h).
(** the channel as measured on the LTF, and the subcarriers divided by it *)
Definition measured (opt : Z) (r : list C) (f : Z) : C := Cmult (analyse (rx_ltf opt r) f) (RtoC (IZR (ltf_sign opt f))).
Definition equalised (opt : Z) (r : list C) (n : nat) (f : Z) : C := Cdiv (rx_tone opt r n f) (measured opt r f).
