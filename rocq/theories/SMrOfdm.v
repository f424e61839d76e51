(** * Specification: MR-OFDM parameters (IEEE 802.15.4g tables 148, 149, 151, 152) *)
From Verif Require Import Py MModul SOfdm.

(** MCS values allowed for an OFDM option *)
Definition supported (opt mcs : Z) : Prop :=
  (opt = 1 /\ 0 <= mcs <= 3) \/ (opt = 2 /\ 0 <= mcs <= 5) \/ (opt = 3 /\ 1 <= mcs <= 6) \/ (opt = 4 /\ 2 <= mcs <= 6).
(** FFT size, tones, pilots *)
Definition fft_size (opt : Z) : Z := 2 ^ (8 - opt).
Definition data_tones (opt : Z) : Z := match opt with 1 => 96 | 2 => 48 | 3 => 24 | _ => 12 end.
Definition pilot_tones (opt : Z) : Z := match opt with 1 => 8 | 2 => 4 | _ => 2 end.
(** positions of the pilots, one list per set (tables of 18.2.3.11), used in turn by the symbols of a frame *)
Definition pilot_sets (opt : Z) : list (list Z) :=
  match opt with
  | 1 => [ [-38; -26; -14; -2; 10; 22; 34; 46]; [-46; -34; -22; -10; 2; 14; 26; 38]; [-42; -30; -18; -6; 6; 18; 30; 42]; [-50; -38; -26; -14; -2; 10; 22; 50]; [-46; -34; -22; -10; 2; 14; 34; 46]; [-42; -30; -18; -6; 6; 18; 26; 38]; [-50; -38; -26; -14; -2; 30; 42; 50]; [-46; -34; -22; -10; 10; 22; 34; 46]; [-42; -30; -18; -6; 2; 14; 26; 38]; [-50; -38; -26; 6; 18; 30; 42; 50]; [-46; -34; -14; -2; 10; 22; 34; 46]; [-42; -30; -22; -10; 2; 14; 26; 38]; [-50; -18; -6; 6; 18; 30; 42; 50]]
  | 2 => [ [-14; -2; 10; 22]; [-22; -10; 2; 14]; [-18; -6; 6; 18]; [-26; -14; -2; 26]; [-22; -10; 10; 22]; [-18; -6; 2; 14]; [-26; 6; 18; 26]]
  | 3 => [ [-7; 7]; [-11; 3]; [-3; 11]; [-9; 5]; [-5; 9]; [-13; 1]; [-1; 13]]
  | _ => [ [-3; 5]; [-7; 1]; [-5; 3]; [-1; 7]]
  end.
Definition guard_left (opt : Z) : Z := match opt with 1 => 12 | 2 => 6 | 3 => 3 | _ => 1 end.
Definition guard_right (opt : Z) : Z := guard_left opt - 1.
Definition mcs_modulation (mcs : Z) : modulation := if mcs <=? 1 then BPSK else if mcs <=? 4 then QPSK else QAM16.
Definition mcs_spreading (mcs : Z) : nat := match mcs with 0 => 4 | 1 | 2 => 2 | _ => 1 end.
(** code rate 3/4 (otherwise 1/2) *)
Definition mcs_three_quarters (mcs : Z) : bool := (mcs =? 4) || (mcs =? 6).
Definition lowest_mcs (opt : Z) : Z := match opt with 1 | 2 => 0 | 3 => 1 | _ => 2 end.
(** coded bits carried by one symbol *)
Definition coded_bits (opt mcs : Z) : nat :=
  (Z.to_nat (data_tones opt) * group_size (mcs_modulation mcs) / mcs_spreading mcs)%nat.
Definition modulation_name (m : modulation) : string :=
  match m with BPSK => "BPSK" | QPSK => "QPSK" | QAM16 => "QAM16" end.

(** data bits per group of [mcs_spreading] symbols (the code's bits_per_symbol()) *)
Definition data_bits (opt mcs : Z) : Z :=
  data_tones opt * Z.of_nat (group_size (mcs_modulation mcs)) * (if mcs_three_quarters mcs then 3 else 2) / 4.
(** number of symbols of the PHR (table 149): by interleaving and option *)
Definition phr_symbols (il opt : Z) : Z :=
  if il =? 0 then (match opt with 1 => 3 | _ => 6 end) else (match opt with 1 => 4 | 2 => 8 | _ => 6 end).
(** interleaver block and its standard two-step permutation (18.2.3.5) *)
Definition il_block (opt mcs il : Z) : nat :=
  (coded_bits opt mcs * (if (il =? 0)%Z then 1 else mcs_spreading mcs))%nat.
Definition il_rows (mcs : Z) : Z := 12 / Z.of_nat (mcs_spreading mcs).
Definition std_step1 (n rows k : Z) : Z := n / rows * (k mod rows) + k / rows.
Definition std_step2 (n rows s i : Z) : Z := s * (i / s) + (i + n - rows * i / n) mod s.
Definition std_position (opt mcs il k : Z) : Z :=
  let n := Z.of_nat (il_block opt mcs il) in
  std_step2 n (il_rows mcs) (Z.max 1 (Z.of_nat (group_size (mcs_modulation mcs)) / 2)) (std_step1 n (il_rows mcs) k).

(** ** the bits of a frame *)
(** scrambling seed of a scrambler index (standard: 000010111, 000011100, 101110111, 101111100) *)
Definition scrambling_seed (scr : Z) : Z := match scr with 0 => 23 | 1 => 28 | 2 => 375 | _ => 380 end.
(** data bits of the header as sent: the symbols of the header at the data rate of the payload *)
Definition header_bits (opt mcs il : Z) : nat :=
  (coded_bits opt (lowest_mcs opt) * (if mcs_three_quarters mcs then 3 else 2) / 4 * Z.to_nat (phr_symbols il opt))%nat.
(** symbol groups of a payload of [n] bits, and padding bits after the 6 tail bits *)
Definition groups (opt mcs : Z) (n : nat) : nat := Z.to_nat (- ((- (Z.of_nat n + 6)) / data_bits opt mcs)).
Definition pad_bits (opt mcs : Z) (n : nat) : nat := (groups opt mcs n * Z.to_nat (data_bits opt mcs) - (n + 6))%nat.
