(** * Literal tables of sun_phy, generated by tools/gen_tables.py (do not edit). *)
From Verif Require Import Py.
(** mr_ofdm_modulator.py:33-47: one list per pilot set (column of the transposed array). *)
Definition PILOTS_INDICES_OPTION_1 : list (list Z) := [
  [(-38); (-26); (-14); (-2); 10; 22; 34; 46];
  [(-46); (-34); (-22); (-10); 2; 14; 26; 38];
  [(-42); (-30); (-18); (-6); 6; 18; 30; 42];
  [(-50); (-38); (-26); (-14); (-2); 10; 22; 50];
  [(-46); (-34); (-22); (-10); 2; 14; 34; 46];
  [(-42); (-30); (-18); (-6); 6; 18; 26; 38];
  [(-50); (-38); (-26); (-14); (-2); 30; 42; 50];
  [(-46); (-34); (-22); (-10); 10; 22; 34; 46];
  [(-42); (-30); (-18); (-6); 2; 14; 26; 38];
  [(-50); (-38); (-26); 6; 18; 30; 42; 50];
  [(-46); (-34); (-14); (-2); 10; 22; 34; 46];
  [(-42); (-30); (-22); (-10); 2; 14; 26; 38];
  [(-50); (-18); (-6); 6; 18; 30; 42; 50]].
(** mr_ofdm_modulator.py:50-58: one list per pilot set (column of the transposed array). *)
Definition PILOTS_INDICES_OPTION_2 : list (list Z) := [
  [(-14); (-2); 10; 22];
  [(-22); (-10); 2; 14];
  [(-18); (-6); 6; 18];
  [(-26); (-14); (-2); 26];
  [(-22); (-10); 10; 22];
  [(-18); (-6); 2; 14];
  [(-26); 6; 18; 26]].
(** mr_ofdm_modulator.py:61-69: one list per pilot set (column of the transposed array). *)
Definition PILOTS_INDICES_OPTION_3 : list (list Z) := [
  [(-7); 7];
  [(-11); 3];
  [(-3); 11];
  [(-9); 5];
  [(-5); 9];
  [(-13); 1];
  [(-1); 13]].
(** mr_ofdm_modulator.py:72-77: one list per pilot set (column of the transposed array). *)
Definition PILOTS_INDICES_OPTION_4 : list (list Z) := [
  [(-3); 5];
  [(-7); 1];
  [(-5); 3];
  [(-1); 7]].
(** mr_ofdm_modulator.py:207-208 *)
Definition LTF_1 : list Z := [0; 0; 0; 0; 0; 0; 0; 0; 0; 0; 0; 0; (-1); 1; 1; (-1); (-1); (-1); (-1); 1; 1; (-1); (-1); 1; 1; 1; (-1); (-1); 1; 1; (-1); (-1); (-1); (-1); (-1); 1; 1; (-1); (-1); (-1); (-1); (-1); 1; 1; (-1); 1; (-1); (-1); 1; (-1); 1; 1; 1; 1; (-1); (-1); 1; 1; (-1); 1; 1; (-1); 1; 1; 0; 1; (-1); 1; (-1); 1; 1; (-1); (-1); 1; (-1); 1; 1; 1; 1; (-1); 1; 1; 1; 1; 1; (-1); 1; (-1); 1; (-1); 1; (-1); 1; 1; (-1); 1; (-1); (-1); (-1); 1; 1; 1; 1; 1; 1; (-1); (-1); (-1); (-1); (-1); (-1); 1; (-1); 1; 1; (-1); 1; 0; 0; 0; 0; 0; 0; 0; 0; 0; 0; 0].
(** mr_ofdm_modulator.py:210-211 *)
Definition LTF_2 : list Z := [0; 0; 0; 0; 0; 0; (-1); (-1); (-1); (-1); 1; 1; 1; (-1); 1; (-1); 1; (-1); 1; 1; (-1); (-1); (-1); 1; 1; (-1); 1; 1; 1; (-1); (-1); (-1); 0; 1; (-1); 1; 1; (-1); 1; (-1); (-1); 1; (-1); 1; 1; (-1); (-1); 1; 1; (-1); (-1); (-1); (-1); (-1); 1; (-1); (-1); (-1); 1; 0; 0; 0; 0; 0].
(** mr_ofdm_modulator.py:213-214 *)
Definition LTF_3 : list Z := [0; 0; 0; 1; (-1); 1; (-1); 1; 1; 1; 1; 1; 1; 1; 1; (-1); 0; (-1); (-1); 1; (-1); 1; 1; (-1); (-1); 1; 1; (-1); (-1); 1; 0; 0].
(** mr_ofdm_modulator.py:216-216 *)
Definition LTF_4 : list Z := [0; 1; (-1); 1; 1; (-1); 1; 1; 0; (-1); 1; 1; 1; (-1); (-1); (-1)].
(** mr_ofdm_modulator.py:15-19 *)
Definition FFT_SIZE : list (Z * Z) := [(1, 128); (2, 64); (3, 32); (4, 16)].
(** mr_ofdm_modulator.py:128-136 *)
Definition N_BPSC : list (Z * Z) := [(0, 1); (1, 1); (2, 2); (3, 2); (4, 2); (5, 4); (6, 4)].
(** mr_ofdm_modulator.py:156-161 *)
Definition ACTIVE_TONES : list (Z * Z) := [(1, 104); (2, 52); (3, 26); (4, 14)].
(** mr_ofdm_modulator.py:164-169 *)
Definition DATA_TONES : list (Z * Z) := [(1, 96); (2, 48); (3, 24); (4, 12)].
(** mr_ofdm_modulator.py:172-180 *)
Definition FREQUENCY_SPREADING : list (Z * Z) := [(0, 4); (1, 2); (2, 2); (3, 1); (4, 1); (5, 1); (6, 1)].
(** mr_ofdm_modulator.py:194-199 *)
Definition LOWEST_MCS_VALUE : list (Z * Z) := [(1, 0); (2, 0); (3, 1); (4, 2)].
(** mr_ofdm_modulator.py:138-146 *)
Definition RATE : list (Z * string) := [(0, "1/2"%string); (1, "1/2"%string); (2, "1/2"%string); (3, "1/2"%string); (4, "3/4"%string); (5, "1/2"%string); (6, "3/4"%string)].
(** mr_ofdm_modulator.py:118-126 *)
Definition MODULATION_AND_CODING_SCHEME : list (Z * string) := [(0, "BPSK"%string); (1, "BPSK"%string); (2, "QPSK"%string); (3, "QPSK"%string); (4, "QPSK"%string); (5, "QAM16"%string); (6, "QAM16"%string)].
(** mr_ofdm_modulator.py:228-233 *)
Definition SCRAMBLING_SEED : list (Z * Z) := [(0, 23) (* 0b000010111 *); (1, 28) (* 0b000011100 *); (2, 375) (* 0b101110111 *); (3, 380) (* 0b101111100 *)].
(** mr_ofdm_modulator.py:184-192 *)
Definition VALID_MCS_OFDM_COMBINATIONS : list (list bool) := [[true; true; false; false]; [true; true; true; false]; [true; true; true; true]; [true; true; true; true]; [false; true; true; true]; [false; true; true; true]; [false; false; true; true]].
(** mr_ofdm_modulator.py:239-252 *)
Definition PHR_N_SYMBOLS : list (Z * list (Z * Z)) := [(0, [(1, 3); (2, 6); (3, 6); (4, 6)]); (1, [(1, 4); (2, 8); (3, 6); (4, 6)])].
(** mr_ofdm_modulator.py:89-90: (tone indices relative to DC, sign, (a, b)) meaning value sign*sqrt(a/b) *)
Definition STF_ENTRIES_1 : list (list Z * Z * (Z * Z)) := [([(-48); (-40); (-32); (-24); (-16); (-8); 8; 16; 24; 32; 40; 48], 1, (104, 12))].
(** mr_ofdm_modulator.py:94-95, mr_ofdm_modulator.py:96-97: (tone indices relative to DC, sign, (a, b)) meaning value sign*sqrt(a/b) *)
Definition STF_ENTRIES_2 : list (list Z * Z * (Z * Z)) := [([(-24); (-20); (-16); 8; 20], (-1), (52, 12)); ([(-12); (-8); (-4); 4; 12; 16; 24], 1, (52, 12))].
(** mr_ofdm_modulator.py:101-102: (tone indices relative to DC, sign, (a, b)) meaning value sign*sqrt(a/b) *)
Definition STF_ENTRIES_3 : list (list Z * Z * (Z * Z)) := [([(-12); (-8); (-4); 4; 8; 12], 1, (26, 6))].
(** mr_ofdm_modulator.py:106-107: (tone indices relative to DC, sign, (a, b)) meaning value sign*sqrt(a/b) *)
Definition STF_ENTRIES_4 : list (list Z * Z * (Z * Z)) := [([(-6); (-4); (-2); 2; 4; 6], 1, (14, 6))].
(** mr_fsk_modulator.py:21-32: key ((is 4FSK, phyMRFSKSFD), is_coded) *)
Definition FSK_SFD : list ((bool * Z * bool) * string) := [
  ((false, 0, true), "0110 1111 0100 1110"%string);
  ((false, 0, false), "1001 0000 0100 1110"%string);
  ((false, 1, true), "0110 0011 0010 1101"%string);
  ((false, 1, false), "0111 1010 0000 1110"%string);
  ((true, 0, true), "0111 1101 1111 1111 0111 0101 1111 1101"%string);
  ((true, 0, false), "1101 0111 0101 0101 0111 0101 1111 1101"%string);
  ((true, 1, true), "0111 1101 0101 1111 0101 1101 1111 0111"%string);
  ((true, 1, false), "0111 1111 1101 1101 0101 0101 1111 1101"%string)].
(** mr_fsk_modulator.py:43-52 *)
Definition RSC_TAIL_BITS : list (Z * list Z) := [(0, [0; 0; 0]); (1, [1; 0; 0]); (2, [1; 1; 0]); (3, [0; 1; 0]); (4, [1; 1; 1]); (5, [0; 1; 1]); (6, [0; 0; 1]); (7, [1; 0; 1])].
(** mr_fsk_modulator.py:54-54 *)
Definition NRNSC_TAIL_BITS : list Z := [0; 0; 0].
(** mr_fsk_modulator.py:35-38: np.tile(seq, n) as (seq, n); first FSK2 then FSK4 *)
Definition FSK_PREAMBLE_SEQUENCE : list (list Z * Z) := [([0; 1], 4); ([0; 1; 1; 1], 4)].
(** class Frequency_band, mr_o_qpsk_modulator.py:22-30: eight distinct members. *)
Inductive Frequency_band := Band_470MHz | Band_780MHz | Band_868MHz | Band_915MHz | Band_920MHz | Band_917MHz | Band_950MHz | Band_2450MHz.
Definition band_eqb (a b : Frequency_band) : bool := match a, b with Band_470MHz, Band_470MHz | Band_780MHz, Band_780MHz | Band_868MHz, Band_868MHz | Band_915MHz, Band_915MHz | Band_920MHz, Band_920MHz | Band_917MHz, Band_917MHz | Band_950MHz, Band_950MHz | Band_2450MHz, Band_2450MHz => true | _, _ => false end.
(** mr_o_qpsk_modulator.py:35-44 *)
Definition PREAMPLE_LENGTH : list (Frequency_band * Z) := [
  (Band_470MHz, 32);
  (Band_780MHz, 56);
  (Band_868MHz, 32);
  (Band_915MHz, 56);
  (Band_917MHz, 56);
  (Band_920MHz, 32);
  (Band_950MHz, 32);
  (Band_2450MHz, 56)].
(** mr_o_qpsk_modulator.py:223-233 *)
Definition PILOT_SEQUENCES : list (Frequency_band * string) := [
  (Band_470MHz, "1101 1110 1010 0010 0111 0000 0110 0101"%string);
  (Band_780MHz, "1011 0010 0010 0101 1011 0001 1101 0000 1101 0111 0011 1101 1111 0000 0010 1010"%string);
  (Band_868MHz, "1101 1110 1010 0010 0111 0000 0110 0101"%string);
  (Band_915MHz, "1011 0010 0010 0101 1011 0001 1101 0000 1101 0111 0011 1101 1111 0000 0010 1010"%string);
  (Band_917MHz, "1011 0010 0010 0101 1011 0001 1101 0000 1101 0111 0011 1101 1111 0000 0010 1010"%string);
  (Band_920MHz, "1101 1110 1010 0010 0111 0000 0110 0101"%string);
  (Band_950MHz, "1101 1110 1010 0010 0111 0000 0110 0101"%string);
  (Band_2450MHz, "1001 1000 1000 1011 0100 1110 0100 0010 0101 0010 0110 1101 1100 0111 1010 0000 1101 0100 0110 0111 1101 1000 0111 0101 1110 0111 1101 1111 1000 0000 1010 1011"%string)].
(** mr_o_qpsk_modulator.py:236-245 *)
Definition PILOT_SPACING : list (Frequency_band * Z) := [
  (Band_470MHz, 512);
  (Band_780MHz, 1024);
  (Band_868MHz, 512);
  (Band_915MHz, 1024);
  (Band_917MHz, 1024);
  (Band_920MHz, 512);
  (Band_950MHz, 512);
  (Band_2450MHz, 2048)].
(** mr_o_qpsk_modulator.py:521-530 *)
Definition MDSSS_SUPPORTED_FREQUENCY_BANDS : list (Frequency_band * bool) := [
  (Band_470MHz, false);
  (Band_780MHz, true);
  (Band_868MHz, false);
  (Band_915MHz, true);
  (Band_917MHz, true);
  (Band_920MHz, false);
  (Band_950MHz, false);
  (Band_2450MHz, true)].
(** mr_o_qpsk_modulator.py:255-264: a plain string is a one-element tuple (see _DSSS) *)
Definition SHR_SPREADING : list (Frequency_band * list string) := [
  (Band_470MHz, ["(32,1)0"%string]);
  (Band_780MHz, ["(64,1)"%string]);
  (Band_868MHz, ["(32,1)0"%string]);
  (Band_915MHz, ["(64,1)"%string]);
  (Band_917MHz, ["(64,1)"%string]);
  (Band_920MHz, ["(32,1)0"%string; "(32,1)1"%string]);
  (Band_950MHz, ["(32,1)0"%string]);
  (Band_2450MHz, ["(128,1)"%string])].
(** mr_o_qpsk_modulator.py:267-276: a plain string is a one-element tuple (see _DSSS) *)
Definition PHR_SPREADING : list (Frequency_band * list string) := [
  (Band_470MHz, ["(8,1)0"%string; "(8,1)1"%string]);
  (Band_780MHz, ["(16,1)0"%string; "(16,1)1"%string]);
  (Band_868MHz, ["(8,1)0"%string; "(8,1)1"%string]);
  (Band_915MHz, ["(16,1)0"%string; "(16,1)1"%string]);
  (Band_917MHz, ["(16,1)0"%string; "(16,1)1"%string]);
  (Band_920MHz, ["(8,1)0"%string; "(8,1)1"%string]);
  (Band_950MHz, ["(8,1)0"%string; "(8,1)1"%string]);
  (Band_2450MHz, ["(16,1)0"%string; "(16,1)1"%string])].
(** mr_o_qpsk_modulator.py:279-328: None stands for False *)
Definition PSDU_SPREADING_DSSS : list (Frequency_band * list (Z * option (list string))) := [
  (Band_470MHz, [(0, Some ["(8,1)0"%string; "(8,1)1"%string]); (1, Some ["(4,1)"%string]); (2, Some ["(2,1)"%string]); (3, None)]);
  (Band_780MHz, [(0, Some ["(16,1)0"%string; "(16,1)1"%string]); (1, Some ["(16,4)"%string]); (2, Some ["(8,4)"%string]); (3, None)]);
  (Band_868MHz, [(0, Some ["(8,1)0"%string; "(8,1)1"%string]); (1, Some ["(4,1)"%string]); (2, Some ["(2,1)"%string]); (3, None)]);
  (Band_915MHz, [(0, Some ["(16,1)0"%string; "(16,1)1"%string]); (1, Some ["(16,4)"%string]); (2, Some ["(8,4)"%string]); (3, None)]);
  (Band_917MHz, [(0, Some ["(16,1)0"%string; "(16,1)1"%string]); (1, Some ["(16,4)"%string]); (2, Some ["(8,4)"%string]); (3, None)]);
  (Band_920MHz, [(0, Some ["(8,1)0"%string; "(8,1)1"%string]); (1, Some ["(4,1)"%string]); (2, Some ["(2,1)"%string]); (3, None)]);
  (Band_950MHz, [(0, Some ["(8,1)0"%string; "(8,1)1"%string]); (1, Some ["(4,1)"%string]); (2, Some ["(2,1)"%string]); (3, None)]);
  (Band_2450MHz, [(0, Some ["(32,1)0"%string; "(32,1)1"%string]); (1, Some ["(32,4)"%string]); (2, Some ["(16,4)"%string]); (3, Some ["(8,4)"%string])])].
(** mr_o_qpsk_modulator.py:365-414 *)
Definition PSDU_BDE_DSSS : list (Frequency_band * list (Z * bool)) := [
  (Band_470MHz, [(0, true); (1, true); (2, true); (3, false)]);
  (Band_780MHz, [(0, true); (1, false); (2, false); (3, false)]);
  (Band_868MHz, [(0, true); (1, true); (2, true); (3, false)]);
  (Band_915MHz, [(0, true); (1, false); (2, false); (3, false)]);
  (Band_917MHz, [(0, true); (1, false); (2, false); (3, false)]);
  (Band_920MHz, [(0, true); (1, true); (2, true); (3, false)]);
  (Band_950MHz, [(0, true); (1, true); (2, true); (3, false)]);
  (Band_2450MHz, [(0, true); (1, false); (2, false); (3, false)])].
(** mr_o_qpsk_modulator.py:331-361: None stands for "not supported" *)
Definition PSDU_SPREADING_FACTOR_MDSSS : list (Frequency_band * option (list (Z * Z))) := [
  (Band_470MHz, None);
  (Band_780MHz, Some [(0, 64); (1, 32); (2, 32); (3, 16)]);
  (Band_868MHz, None);
  (Band_915MHz, Some [(0, 64); (1, 32); (2, 32); (3, 16)]);
  (Band_917MHz, Some [(0, 64); (1, 32); (2, 32); (3, 16)]);
  (Band_920MHz, None);
  (Band_950MHz, None);
  (Band_2450MHz, Some [(0, 128); (1, 64); (2, 64); (3, 32)])].
(** mr_o_qpsk_modulator.py:418-499: outer key SpreadingMode value (DSSS = 0, MDSSS = 1); None stands for "not supported" *)
Definition DATA_RATE : list (Z * list (Frequency_band * option (list (Z * Z)))) := [
 (0, [
  (Band_470MHz, Some [(0, 6250); (1, 12500); (2, 25000); (3, 50000)]);
  (Band_780MHz, Some [(0, 31250); (1, 125000); (2, 250000); (3, 500000)]);
  (Band_868MHz, Some [(0, 6250); (1, 12500); (2, 25000); (3, 50000)]);
  (Band_915MHz, Some [(0, 31250); (1, 125000); (2, 250000); (3, 500000)]);
  (Band_917MHz, Some [(0, 31250); (1, 125000); (2, 250000); (3, 500000)]);
  (Band_920MHz, Some [(0, 6250); (1, 12500); (2, 25000); (3, 50000)]);
  (Band_950MHz, Some [(0, 6250); (1, 12500); (2, 25000); (3, 50000)]);
  (Band_2450MHz, Some [(0, 31250); (1, 125000); (2, 250000); (3, 500000)])]);
 (1, [
  (Band_470MHz, None);
  (Band_780MHz, Some [(0, 62500); (1, 125000); (2, 250000); (3, 500000)]);
  (Band_868MHz, None);
  (Band_915MHz, Some [(0, 62500); (1, 125000); (2, 250000); (3, 500000)]);
  (Band_917MHz, Some [(0, 62500); (1, 125000); (2, 250000); (3, 500000)]);
  (Band_920MHz, None);
  (Band_950MHz, None);
  (Band_2450MHz, Some [(0, 62500); (1, 125000); (2, 250000); (3, 500000)])])].
(** mr_o_qpsk_modulator.py:47-47 *)
Definition OQPSK_SFD : string := "1110101101100010"%string.
(** mr_o_qpsk_modulator.py:54-150 *)
Definition DSSS : list (string * list (string * string)) := [
 ("(2,1)"%string, [
  ("0"%string, "10"%string);
  ("1"%string, "01"%string)]);
 ("(4,1)"%string, [
  ("0"%string, "1010"%string);
  ("1"%string, "0101"%string)]);
 ("(8,1)0"%string, [
  ("0"%string, "10110001"%string);
  ("1"%string, "01001110"%string)]);
 ("(8,1)1"%string, [
  ("0"%string, "01100011"%string);
  ("1"%string, "10011100"%string)]);
 ("(16,1)0"%string, [
  ("0"%string, "0010001111010110"%string);
  ("1"%string, "1101110000101001"%string)]);
 ("(16,1)1"%string, [
  ("0"%string, "0100011110101100"%string);
  ("1"%string, "1011100001010011"%string)]);
 ("(32,1)0"%string, [
  ("0"%string, "11011110101000100111000001100101"%string);
  ("1"%string, "00100001010111011000111110011010"%string)]);
 ("(32,1)1"%string, [
  ("0"%string, "11101111010100010011100000110010"%string);
  ("1"%string, "00010000101011101100011111001101"%string)]);
 ("(64,1)"%string, [
  ("0"%string, "1011001000100101101100011101000011010111001111011111000000101010"%string);
  ("1"%string, "0100110111011010010011100010111100101000110000100000111111010101"%string)]);
 ("(128,1)"%string, [
  ("0"%string, "10011000100010110100111001000010010100100110110111000111101000001101010001100101110110000111010111100111110111111000000010101011"%string);
  ("1"%string, "01100111011101001011000110111101101011011001001000111000010111110010101110011010001001111000101000011000001000000111111101010100"%string)]);
 ("(8,4)"%string, [
  ("0000"%string, "00000001"%string);
  ("1000"%string, "11010000"%string);
  ("0100"%string, "01101000"%string);
  ("1100"%string, "10111001"%string);
  ("0010"%string, "11100101"%string);
  ("1010"%string, "00110100"%string);
  ("0110"%string, "10001100"%string);
  ("1110"%string, "01011101"%string);
  ("0001"%string, "10100010"%string);
  ("1001"%string, "01110011"%string);
  ("0101"%string, "11001011"%string);
  ("1101"%string, "00011010"%string);
  ("0011"%string, "01000110"%string);
  ("1011"%string, "10010111"%string);
  ("0111"%string, "00101111"%string);
  ("1111"%string, "11111110"%string)]);
 ("(16,4)"%string, [
  ("0000"%string, "0011111000100101"%string);
  ("1000"%string, "0100111110001001"%string);
  ("0100"%string, "0101001111100010"%string);
  ("1100"%string, "1001010011111000"%string);
  ("0010"%string, "0010010100111110"%string);
  ("1010"%string, "1000100101001111"%string);
  ("0110"%string, "1110001001010011"%string);
  ("1110"%string, "1111100010010100"%string);
  ("0001"%string, "0110101101110000"%string);
  ("1001"%string, "0001101011011100"%string);
  ("0101"%string, "0000011010110111"%string);
  ("1101"%string, "1100000110101101"%string);
  ("0011"%string, "0111000001101011"%string);
  ("1011"%string, "1101110000011010"%string);
  ("0111"%string, "1011011100000110"%string);
  ("1111"%string, "1010110111000001"%string)]);
 ("(32,4)"%string, [
  ("0000"%string, "11011001110000110101001000101110"%string);
  ("1000"%string, "11101101100111000011010100100010"%string);
  ("0100"%string, "00101110110110011100001101010010"%string);
  ("1100"%string, "00100010111011011001110000110101"%string);
  ("0010"%string, "01010010001011101101100111000011"%string);
  ("1010"%string, "00110101001000101110110110011100"%string);
  ("0110"%string, "11000011010100100010111011011001"%string);
  ("1110"%string, "10011100001101010010001011101101"%string);
  ("0001"%string, "10001100100101100000011101111011"%string);
  ("1001"%string, "10111000110010010110000001110111"%string);
  ("0101"%string, "01111011100011001001011000000111"%string);
  ("1101"%string, "01110111101110001100100101100000"%string);
  ("0011"%string, "00000111011110111000110010010110"%string);
  ("1011"%string, "01100000011101111011100011001001"%string);
  ("0111"%string, "10010110000001110111101110001100"%string);
  ("1111"%string, "11001001011000000111011110111000"%string)])].
(** mr_o_qpsk_modulator.py:153-158: n -> (DSSS table, key) *)
Definition COVERING_CODE_KEY : list (Z * (string * string)) := [(4, ("(16,1)0"%string, "0"%string)); (8, ("(32,1)0"%string, "0"%string)); (16, ("(64,1)"%string, "0"%string)); (32, ("(128,1)"%string, "0"%string))].
