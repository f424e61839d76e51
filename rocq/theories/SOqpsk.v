(** * Specification: MR-O-QPSK (IEEE 802.15.4g clause 18.3) *)
From Verif Require Import Py MModul MBits Tables SBits SRate.

(** accepted parameters: rate mode 0..3; spreading mode 0 (DSSS) on every band, 1 (MDSSS) on four of them *)
Definition mdsss_band (b : Frequency_band) : bool :=
  match b with Band_780MHz | Band_915MHz | Band_917MHz | Band_2450MHz => true | _ => false end.
Definition oq_supported (b : Frequency_band) (rm sm : Z) : Prop :=
  0 <= rm <= 3 /\ (sm = 0 \/ (sm = 1 /\ mdsss_band b = true)).

(** ** FEC *)
(** number of interleaver blocks of a payload of [n] octets: 63 data bits in each, 6 of them for the tail *)
Definition psdu_blocks (n : Z) : Z := - ((- (8 * n + 6)) / 63).
Definition phr_code (data : list bool) : list bool := code_12 0 (data ++ repeat false 6).
Definition psdu_code (n : Z) (data : list bool) : list bool :=
  code_12 0 (data ++ repeat false (Z.to_nat (63 * psdu_blocks n - 8 * n))).

(** ** bit differential encoding *)
Fixpoint diff_decode (prev : bool) (l : list bool) : list bool :=
  match l with [] => [] | e :: r => xorb e prev :: diff_decode e r end.

(** ** direct sequence spreading *)
(** number of bits in a group, number of chips replacing it *)
Definition spread_bits (sp : list string) : nat :=
  match sp with ["(8,4)"%string] | ["(16,4)"%string] | ["(32,4)"%string] => 4 | _ => 1 end.
Definition spread_chips (sp : list string) : nat :=
  match sp with
  | ["(2,1)"%string] => 2 | ["(4,1)"%string] => 4
  | ["(8,1)0"%string; "(8,1)1"%string] | ["(8,4)"%string] => 8
  | ["(16,1)0"%string; "(16,1)1"%string] | ["(16,4)"%string] => 16
  | ["(64,1)"%string] => 64 | ["(128,1)"%string] => 128 | _ => 32
  end.
(** the chips standing in table [name] for the bits [g] *)
Fixpoint digits (l : list bool) : string :=
  match l with [] => EmptyString | b :: r => String (if b then "1" else "0")%char (digits r) end.
Fixpoint undigits (s : string) : list bool :=
  match s with EmptyString => [] | String c r => Ascii.eqb c "1" :: undigits r end.
(** maximal-length sequence of n bits from the register w (oldest bit first): each new bit is the sum of the bits [lag]
    and [length w] places earlier *)
Fixpoint shift_register (n lag : nat) (w : list bool) : list bool :=
  match n with
  | O => []
  | S m => hd false w :: shift_register m lag (tl w ++ [xorb (hd false w) (nth (length w - lag) w false)])
  end.
Definition rotate_left {A} (n : nat) (l : list A) : list A := skipn n l ++ firstn n l.
Definition rotate_right {A} (n : nat) (l : list A) : list A := rotate_left (length l - n) l.
(** the sequence of a bit 0: a maximal-length sequence (all but the 16-chip one complemented) and one more chip *)
Definition zero_code (name : string) : list bool :=
  let c8 := map negb (shift_register 7 1 (undigits "010")) ++ [true] in
  let c16 := shift_register 15 1 (undigits "0010") ++ [false] in
  let c32 := map negb (shift_register 31 2 (undigits "00100")) ++ [true] in
  match name with
  | "(2,1)"%string => [true; false] | "(4,1)"%string => [true; false; true; false]
  | "(8,1)0"%string => c8 | "(8,1)1"%string => rotate_left 1 c8
  | "(16,1)0"%string => c16 | "(16,1)1"%string => rotate_left 1 c16
  | "(32,1)0"%string => c32 | "(32,1)1"%string => rotate_right 1 c32
  | "(64,1)"%string => true :: map negb (shift_register 63 1 (undigits "100110"))
  | _ => map negb (shift_register 127 1 (undigits "0110011")) ++ [true]
  end.
(** sixteen quasi-orthogonal sequences: eight rotations of one sequence, then the same with every other chip inverted *)
Fixpoint invert_odd (l : list bool) : list bool :=
  match l with a :: b :: r => a :: negb b :: invert_odd r | _ => l end.
Fixpoint lsb_number (l : list bool) : nat := match l with [] => 0 | b :: r => (if b then 1 else 0) + 2 * lsb_number r end.
Definition rotations (step : nat) (base g : list bool) : list bool :=
  let c := rotate_right (step * (lsb_number g mod 8)) base in if Nat.ltb (lsb_number g) 8 then c else invert_odd c.
(** the (8,4) code: affine *)
Definition affine_84 (g : list bool) : list bool :=
  fold_right (fun (bw : bool * string) acc => if fst bw then map (fun p => xorb (fst p) (snd p)) (combine acc (undigits (snd bw))) else acc) (undigits "00000001")
    (combine g ["11010001"; "01101001"; "11100100"; "10100011"]%string).
Definition chip_code (name : string) (g : list bool) : list bool :=
  match name with
  | "(8,4)"%string => affine_84 g
  | "(16,4)"%string => rotations 2 (undigits "0011111000100101") g
  | "(32,4)"%string => rotations 4 (undigits "11011001110000110101001000101110") g
  | _ => map (xorb (hd false g)) (zero_code name)
  end.
(** table used for group [j] *)
Definition table_for (sp : list string) (j : nat) : string := nth (j mod length sp) sp EmptyString.
(** the receiver: the group whose code is the received block *)
Fixpoint bit_strings (k : nat) : list (list bool) :=
  match k with O => [[]] | S m => map (cons false) (bit_strings m) ++ map (cons true) (bit_strings m) end.
Definition bits_eqb (a b : list bool) : bool := if list_eq_dec Bool.bool_dec a b then true else false.
Definition despread_block (sp : list string) (j : nat) (block : list bool) : list bool :=
  match find (fun g => bits_eqb (chip_code (table_for sp j) g) block) (bit_strings (spread_bits sp)) with
  | Some g => g | None => [] end.
Definition despread (sp : list string) (n : nat) (chips : list bool) : list bool :=
  flat_map (fun j => despread_block sp j (slice (j * spread_chips sp) (spread_chips sp) chips)) (seq 0 n).
(** the sequences of the preamble and SFD, of the header, and of the payload *)
Definition shr_codes (b : Frequency_band) : list string :=
  match b with
  | Band_780MHz | Band_915MHz | Band_917MHz => ["(64,1)"%string]
  | Band_2450MHz => ["(128,1)"%string]
  | Band_920MHz => ["(32,1)0"%string; "(32,1)1"%string]
  | _ => ["(32,1)0"%string]
  end.
Definition phr_codes (b : Frequency_band) : list string :=
  match b with
  | Band_780MHz | Band_915MHz | Band_917MHz | Band_2450MHz => ["(16,1)0"%string; "(16,1)1"%string]
  | _ => ["(8,1)0"%string; "(8,1)1"%string]
  end.
(** [None]: one chip per bit *)
Definition psdu_codes (b : Frequency_band) (rm : Z) : option (list string) :=
  match b with
  | Band_2450MHz => match rm with 0 => Some ["(32,1)0"%string; "(32,1)1"%string] | 1 => Some ["(32,4)"%string] | 2 => Some ["(16,4)"%string] | _ => Some ["(8,4)"%string] end
  | Band_780MHz | Band_915MHz | Band_917MHz =>
      match rm with 0 => Some ["(16,1)0"%string; "(16,1)1"%string] | 1 => Some ["(16,4)"%string] | 2 => Some ["(8,4)"%string] | _ => None end
  | _ => match rm with 0 => Some ["(8,1)0"%string; "(8,1)1"%string] | 1 => Some ["(4,1)"%string] | 2 => Some ["(2,1)"%string] | _ => None end
  end.
(** the sequences used by some field of some frame *)
Definition in_use (sp : list string) : Prop :=
  exists b, sp = shr_codes b \/ sp = phr_codes b \/ exists rm, psdu_codes b rm = Some sp.

(** ** pilots *)
Definition pilot_spacing (b : Frequency_band) : nat :=
  match b with Band_2450MHz => 2048 | Band_780MHz | Band_915MHz | Band_917MHz => 1024 | _ => 512 end%nat.
Definition pilot_length (b : Frequency_band) : nat :=
  match b with Band_2450MHz => 128 | Band_780MHz | Band_915MHz | Band_917MHz => 64 | _ => 32 end%nat.
(** the pilot: the sequence of a 0 in the preamble (first of the two in the 920 MHz band).  In the 2450 MHz band the
    code sends another one, different in chip 78 (C53) *)
Definition pilot_chips (b : Frequency_band) : list bool :=
  let c := chip_code (nth 0 (shr_codes b) EmptyString) [false] in
  match b with Band_2450MHz => firstn 78 c ++ [negb (nth 78 c false)] ++ skipn 79 c | _ => c end.
(** drop the pilot before every block *)
Fixpoint drop_pilots (fuel : nat) (np mp : nat) (l : list bool) : list bool :=
  match fuel with
  | O => []
  | S f => match l with [] => [] | _ => firstn mp (skipn np l) ++ drop_pilots f np mp (skipn (np + mp) l) end
  end.
Definition remove_pilots (b : Frequency_band) (l : list bool) : list bool :=
  drop_pilots (length l) (pilot_length b) (pilot_spacing b) l.

(** ** the modes in which the code needs an even number of interleaver blocks: groups of 4 bits, MDSSS with FEC *)
Definition needs_pairs (b : Frequency_band) (rm sm : Z) : bool :=
  mdsss_band b && (if sm =? 0 then match rm with 1 | 2 => true | 3 => match b with Band_2450MHz => true | _ => false end | _ => false end
                   else rm <=? 1).
