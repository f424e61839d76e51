(** * Specification: an MR-OFDM receiver that corrects errors (soft decisions and the Viterbi algorithm).
    Nothing here refers to the transmitter's functions or tables.  Same knowledge as the receiver of [SMrRx]: the option and
    the interleaving mode. *)
From Coq Require Import Reals.
From Coquelicot Require Import Complex.
From Verif Require Import Py SBits SPn9 SRate MModul SOfdm SMrOfdm STime SMrRx.

(** ** the Viterbi decoder of the rate-1/2 code with generators 133 and 171 *)
(** contents of the shift register: the last six input bits, the most recent first *)
Definition gen_bit (m : list bool) (b : bool) (taps : list nat) : bool := fold_right (fun t acc => xorb (nth t (b :: m) false) acc) false taps.
Definition shifted (m : list bool) (b : bool) : list bool := firstn 6 (b :: m).
(** a received coded bit is a real number: positive for 1, negative for 0, near 0 when unreliable *)
Definition agree (b : bool) (s : R) : R := if b then s else (- s)%R.
(** a path through the trellis: where it is, how well it agrees with what was received, its input bits (last one first) *)
Record path := { p_state : list bool; p_score : R; p_bits : list bool }.
Definition extended (s : R * R) (v : path) (b : bool) : path :=
  {| p_state := shifted (p_state v) b;
     p_score := (p_score v + agree (gen_bit (p_state v) b taps_133) (fst s) + agree (gen_bit (p_state v) b taps_171) (snd s))%R;
     p_bits := b :: p_bits v |}.
(** input bits allowed at a position: the receiver may know the bit *)
Definition choices (known : option bool) : list bool := match known with Some b => [b] | None => [false; true] end.
Fixpoint best (l : list path) : option path :=
  match l with
  | [] => None
  | v :: r => match best r with Some w => if Rlt_dec (p_score v) (p_score w) then Some w else Some v | None => Some v end
  end.
(** one path is kept for each contents of the register *)
Definition survivors (l : list path) : list path :=
  flat_map (fun m => match best (filter (fun v => if list_eq_dec bool_dec (p_state v) m then true else false) l) with Some v => [v] | None => [] end)
           (all_groups 6).
Fixpoint trellis (known : list (option bool)) (received : list (R * R)) (l : list path) : list path :=
  match known, received with
  | k :: known', s :: received' => trellis known' received' (survivors (flat_map (fun v => map (extended s v) (choices k)) l))
  | _, _ => l
  end.
Definition viterbi (known : list (option bool)) (received : list (R * R)) : list bool :=
  match best (trellis known received [{| p_state := repeat false 6; p_score := 0; p_bits := [] |}]) with
  | Some v => rev (p_bits v)
  | None => []
  end.
(** pairs of coded bits; the bits that the rate-3/4 code does not send count for nothing *)
Fixpoint pairs_12 (l : list R) : list (R * R) := match l with a :: b :: r => (a, b) :: pairs_12 r | _ => [] end.
Fixpoint pairs_34 (l : list R) : list (R * R) :=
  match l with a0 :: b0 :: a1 :: b2 :: r => (a0, b0) :: (a1, 0%R) :: (0%R, b2) :: pairs_34 r | _ => [] end.
Definition pairs (three_quarters : bool) (l : list R) : list (R * R) := if three_quarters then pairs_34 l else pairs_12 l.

(** ** subcarriers to soft bits *)
Definition clip (x : R) : R := Rmax (-1) (Rmin 1 x).
(** one value in [-1, 1] for each bit of the point: for the sign bits the coordinate, for the bits telling the inner levels
    from the outer ones of 16-QAM the distance to the border between them (unit: half the distance of two levels) *)
Definition soft (m : modulation) (z : C) : list R :=
  let x := (fst z / norm_factor m)%R in let y := (snd z / norm_factor m)%R in
  match m with
  | BPSK => [clip x]
  | QPSK => [clip x; clip y]
  | QAM16 => [clip x; clip (2 - Rabs x); clip y; clip (2 - Rabs y)]
  end.
(** minus n quarter turns *)
Definition turn_back (n : Z) (z : C) : C :=
  match n mod 4 with
  | 0 => z
  | 1 => (snd z, (- fst z)%R)
  | 2 => ((- fst z)%R, (- snd z)%R)
  | _ => ((- snd z)%R, fst z)
  end.
(** mean of the copies of data point i of frame symbol n *)
Definition combined (tone : nat -> Z -> C) (opt mcs : Z) (n i : nat) : C :=
  let sf := mcs_spreading mcs in let p := (Z.to_nat (data_tones opt) / sf)%nat in
  Cmult (RtoC (/ INR sf)) (csum (fun j => turn_back (spread_phase (Z.of_nat sf) (Z.of_nat j) (Z.of_nat i)) (tone n (nth (j * p + i) (data_freqs opt n) 0))) sf).
Definition soft_symbol (tone : nat -> Z -> C) (opt mcs : Z) (n : nat) : list R :=
  flat_map (fun i => soft (mcs_modulation mcs) (combined tone opt mcs n i)) (seq 0 (Z.to_nat (data_tones opt) / mcs_spreading mcs)).
Definition deinterleave_soft (opt mcs il : Z) (l : list R) : list R :=
  let n := il_block opt mcs il in
  flat_map (fun b => map (fun k => nth (b * n + Z.to_nat (rx_position opt mcs il (Z.of_nat k))) l 0%R) (seq 0 n)) (seq 0 (length l / n)).

(** hard decisions instead: +1 or -1, from the copy that is not turned *)
Definition hard_symbol (tone : nat -> Z -> C) (opt mcs : Z) (n : nat) : list R := map (fun b : bool => if b then 1%R else (-1)%R) (rx_symbol tone opt mcs n).

(** ** the receiver, from the values [val mcs n] of the coded bits of frame symbol n, read with the modulation of an MCS *)
(** the header: 30 bits, then zeros *)
Definition vit_header (val : Z -> nat -> list R) (opt il : Z) : list bool :=
  let low := lowest_mcs opt in
  let s := pairs false (deinterleave_soft opt low il (flat_map (val low) (seq 0 (Z.to_nat (phr_symbols il opt))))) in
  viterbi (repeat None 30 ++ repeat (Some false) (length s - 30)) s.
(** the payload: the octets, then bits the receiver can compute: the tail and the padding *)
Definition known_after (opt mcs scr : Z) (n i : nat) : bool :=
  if negb (Nat.eqb (pad_bits opt mcs n) 0) && Nat.ltb i (n + 6) then false else pn9_bit (scrambling_seed scr) i.
Definition vit_payload (val : Z -> nat -> list R) (opt il mcs scr len : Z) : list Z :=
  let n := Z.to_nat (8 * len) in
  let s := pairs (mcs_three_quarters mcs) (deinterleave_soft opt mcs il
    (flat_map (val mcs) (seq (header_symbols_of opt mcs il) (payload_symbols_of opt mcs len)))) in
  octets_of (unscramble scr (firstn n (viterbi (repeat None n ++ map (fun i => Some (known_after opt mcs scr n i)) (seq n (length s - n))) s))).
Definition vit_receiver (val : Z -> nat -> list R) (opt il : Z) : mr_frame :=
  let h := vit_header val opt il in
  let mcs := msb_value (slice 0 5 h) in let len := msb_value (slice 6 11 h) in let scr := msb_value (slice 19 2 h) in
  {| f_mcs := mcs; f_scrambler := scr; f_octets := vit_payload val opt il mcs scr len |}.
Definition soft_receiver (opt il : Z) (tone : nat -> Z -> C) : mr_frame := vit_receiver (soft_symbol tone opt) opt il.
Definition hard_receiver (opt il : Z) (tone : nat -> Z -> C) : mr_frame := vit_receiver (hard_symbol tone opt) opt il.

(** ** how far the received subcarriers are from those sent *)
(** energy of the error on the data subcarriers of frame symbols a, a+1, ..., a+k-1 *)
Definition tone_error (opt : Z) (tone tone' : nat -> Z -> C) (a k : nat) : R :=
  fold_right Rplus 0%R (flat_map (fun n => map (fun f => (Cmod (tone n f - tone' n f)%C ^ 2)%R) (data_freqs opt n)) (seq a k)).
(** coded bits decided differently in these symbols *)
Definition bit_errors (opt mcs : Z) (tone tone' : nat -> Z -> C) (a k : nat) : nat :=
  distance (flat_map (rx_symbol tone opt mcs) (seq a k)) (flat_map (rx_symbol tone' opt mcs) (seq a k)).

(** ** what the decoder is for *)
(** agreement of a word with the values received: their sum, with a minus sign where the word has a 0 *)
Fixpoint agreement (word : list bool) (received : list R) : R :=
  match word, received with b :: w, x :: r => ((if b then x else - x) + agreement w r)%R | _, _ => 0%R end.
(** inputs compatible with the bits known in advance *)
Definition compatible (known : list (option bool)) (x : list bool) : Prop := Forall2 (fun k b => forall c, k = Some c -> b = c) known x.
(** the coded bits of an input, at rate 1/2 or 3/4 *)
Definition code_word (three_quarters : bool) (x : list bool) : list bool := if three_quarters then code_34 0 x else code_12 0 x.
