{
 "claims": [
  {
   "property": "C01",
   "status": "proved",
   "theorems": [
    "C01_lsb_first",
    "C01_bytes_is_bits",
    "C01_lossless",
    "C01_containers_agree"
   ],
   "note": ""
  },
  {
   "property": "C02",
   "status": "proved",
   "theorems": [
    "C02_bytes_rejected",
    "C02_bits_rejected",
    "C02_accepted_bits"
   ],
   "note": ""
  },
  {
   "property": "C03",
   "status": "partial",
   "theorems": [
    "C03_refuted",
    "C03_integers_partial"
   ],
   "note": "False of the code: numbers strictly between 0 and 1 are truncated to 0 and sent (bits.py check_binary_array). C03_refuted gives the witness for the three modulators; C03_integers_partial is what holds for integral payloads."
  },
  {
   "property": "C04",
   "status": "proved",
   "theorems": [
    "C04_recurrence",
    "C04_nine_bits"
   ],
   "note": ""
  },
  {
   "property": "C05",
   "status": "proved",
   "theorems": [
    "C05_period"
   ],
   "note": ""
  },
  {
   "property": "C06",
   "status": "proved",
   "theorems": [
    "C06_resume"
   ],
   "note": ""
  },
  {
   "property": "C07",
   "status": "proved",
   "theorems": [
    "C07_whitening",
    "C07_prefix_and_errors"
   ],
   "note": ""
  },
  {
   "property": "C08",
   "status": "proved",
   "theorems": [
    "C08_outcome"
   ],
   "note": ""
  },
  {
   "property": "C09",
   "status": "proved",
   "theorems": [
    "C09_header",
    "C09_recoverable",
    "C09_too_long"
   ],
   "note": ""
  },
  {
   "property": "C10",
   "status": "proved",
   "theorems": [
    "C10_decodable",
    "C10_prefix",
    "C10_decoder"
   ],
   "note": ""
  },
  {
   "property": "C11",
   "status": "proved",
   "theorems": [
    "C11_flush"
   ],
   "note": ""
  },
  {
   "property": "C12",
   "status": "proved",
   "theorems": [
    "C12_free_distance",
    "C12_attained"
   ],
   "note": ""
  },
  {
   "property": "C13",
   "status": "proved",
   "theorems": [
    "C13_octets_fit",
    "C13_bits"
   ],
   "note": ""
  },
  {
   "property": "C14",
   "status": "proved",
   "theorems": [
    "C14_interleaver",
    "C14_rejects",
    "C14_spread"
   ],
   "note": ""
  },
  {
   "property": "C15",
   "status": "proved",
   "theorems": [
    "C15_whitening",
    "C15_uncoded_pair"
   ],
   "note": ""
  },
  {
   "property": "C16",
   "status": "proved",
   "theorems": [
    "C16_layout",
    "C16_length"
   ],
   "note": ""
  },
  {
   "property": "C17",
   "status": "proved",
   "theorems": [
    "C17_round_trip",
    "C17_bits",
    "C17_samples"
   ],
   "note": ""
  },
  {
   "property": "C18",
   "status": "proved",
   "theorems": [
    "C18_tones",
    "C18_gray",
    "C18_recoverable"
   ],
   "note": ""
  },
  {
   "property": "C19",
   "status": "partial",
   "theorems": [
    "C19_exact_partial",
    "C19_power_of_two_partial",
    "C19_refuted",
    "C19_partial"
   ],
   "note": "False of the code: np.arange(0, dt*n, dt) computed in binary64 yields n+1 points for some n, so f*1j*t raises ValueError. C19_refuted: for each of 20 usual symbol rates a payload length for which every payload raises (2FSK, no FEC, preamble 4). C19_partial: apart from that mismatch every legal payload is sent with 20 samples per symbol. C19_exact_partial: for symbol rates up to 2^53 the call succeeds exactly when round(round(d*n)/d) <= n, d the rounded time step and n the number of samples, and otherwise raises ValueError. C19_power_of_two_partial: symbol rates that are powers of two never fail."
  },
  {
   "property": "C20",
   "status": "partial",
   "theorems": [
    "C20_integer_index_partial",
    "C20_refuted",
    "C20_4fsk_refuted",
    "C20_exact"
   ],
   "note": "False of the code for most modulation indices (f*t instead of the integral of f). C20_refuted: 2FSK frames with a non-integral index have a phase jump at the first symbol boundary; C20_4fsk_refuted: so do 4FSK frames when 3h is not an integer; C20_exact: the exact condition on the frame's tones. C20_integer_index_partial: continuous for integral indices."
  },
  {
   "property": "C21",
   "status": "partial",
   "theorems": [
    "C21_refuted",
    "C21_header_refuted"
   ],
   "note": "False of the code: modeSwitchToIQ only checks its first argument and returns None (C21_refuted gives its complete behaviour). C21_header_refuted: the function meant to build the mode switch header fails with ValueError for all arguments (it assigns two bits to one element)."
  },
  {
   "property": "C22",
   "status": "proved",
   "theorems": [
    "C22_no_memory"
   ],
   "note": ""
  },
  {
   "property": "C23",
   "status": "proved",
   "theorems": [
    "C23_taps"
   ],
   "note": ""
  },
  {
   "property": "C24",
   "status": "proved",
   "theorems": [
    "C24_streaming",
    "C24_linear",
    "C24_invertible",
    "C24_flush"
   ],
   "note": ""
  },
  {
   "property": "C25",
   "status": "proved",
   "theorems": [
    "C25_free_distance",
    "C25_common_tail"
   ],
   "note": ""
  },
  {
   "property": "C26",
   "status": "proved",
   "theorems": [
    "C26_puncture",
    "C26_invertible",
    "C26_sizes",
    "C26_empty"
   ],
   "note": "C26_empty: the empty input fails with UnboundLocalError."
  },
  {
   "property": "C27",
   "status": "partial",
   "theorems": [
    "C27_refuted",
    "C27_partial",
    "C27_exact_partial"
   ],
   "note": "False of the code: reset does not mask the seed. C27_partial for seeds of six bits; C27_exact_partial: for every other integer some input gives different outputs, so six-bit seeds are exactly those for which the claim holds."
  },
  {
   "property": "C28",
   "status": "partial",
   "theorems": [
    "C28_permutation",
    "C28_undone",
    "C28_standard_partial",
    "C28_qam16_refuted",
    "C28_qam16_every_refuted"
   ],
   "note": "Permutation of every block and undone: proved for every configuration. 'The permutation of the standard' is false of the code for every 16-QAM configuration: the two steps are composed in the other order, which misplaces three quarters of the bits (C28_qam16_every_refuted); it holds for MCS 0..4 (C28_standard_partial)."
  },
  {
   "property": "C29",
   "status": "proved",
   "theorems": [
    "C29_layout",
    "C29_accepted_lengths",
    "C29_refuses",
    "C29_recoverable"
   ],
   "note": ""
  },
  {
   "property": "C30",
   "status": "proved",
   "theorems": [
    "C30_hcs_is_crc8",
    "C30_crc8_is_remainder",
    "C30_float_exact"
   ],
   "note": ""
  },
  {
   "property": "C31",
   "status": "proved",
   "theorems": [
    "C31_ofdm_detects",
    "C31_oqpsk_detects",
    "C31_ofdm_sent"
   ],
   "note": ""
  },
  {
   "property": "C32",
   "status": "partial",
   "theorems": [
    "C32_half_rate_partial",
    "C32_three_quarters_refuted"
   ],
   "note": "False of the code for MCS 4 and 6: the header is coded at the payload's rate 3/4 path and occupies half as many symbols again (C32_three_quarters_refuted, for every frame of these MCS). C32_half_rate_partial: true for all other MCS."
  },
  {
   "property": "C33",
   "status": "proved",
   "theorems": [
    "C33_padding"
   ],
   "note": ""
  },
  {
   "property": "C34",
   "status": "partial",
   "theorems": [
    "C34_tail_exact",
    "C34_octets_partial",
    "C34_no_padding_refuted"
   ],
   "note": "False of the code when no padding is needed (slice [-N_PAD-6:-N_PAD] is empty for N_PAD = 0): the tail is then the raw PN9 sequence. C34_tail_exact gives the exact tail for all payloads; C34_octets_partial: for octet payloads it is zero except Option 4, MCS 4, L = 6 mod 9; C34_no_padding_refuted is a witness."
  },
  {
   "property": "C35",
   "status": "proved",
   "theorems": [
    "C35_mapping",
    "C35_rejected",
    "C35_injective",
    "C35_gray",
    "C35_unit_power",
    "C35_factor_used"
   ],
   "note": ""
  },
  {
   "property": "C36",
   "status": "proved",
   "theorems": [
    "C36_spread",
    "C36_power",
    "C36_each_copy",
    "C36_rejected"
   ],
   "note": ""
  },
  {
   "property": "C37",
   "status": "proved",
   "theorems": [
    "C37_symbols",
    "C37_fixed_pilots",
    "C37_without_pilots",
    "C37_options"
   ],
   "note": ""
  },
  {
   "property": "C38",
   "status": "proved",
   "theorems": [
    "C38_pilots"
   ],
   "note": ""
  },
  {
   "property": "C39",
   "status": "proved",
   "theorems": [
    "C39_pieces"
   ],
   "note": ""
  },
  {
   "property": "C40",
   "status": "proved",
   "theorems": [
    "C40_partial_rejected",
    "C40_pad"
   ],
   "note": ""
  },
  {
   "property": "C41",
   "status": "proved",
   "theorems": [
    "C41_modulator",
    "C41_subcarriers",
    "C41_refused",
    "C41_frames"
   ],
   "note": "Exact arithmetic (numpy's rounding is not modelled)."
  },
  {
   "property": "C42",
   "status": "proved",
   "theorems": [
    "C42_stf",
    "C42_ltf",
    "C42_frame"
   ],
   "note": ""
  },
  {
   "property": "C43",
   "status": "proved",
   "theorems": [
    "C43_symbols",
    "C43_refused",
    "C43_samples",
    "C43_samples_refused",
    "C43_sampling_rate"
   ],
   "note": ""
  },
  {
   "property": "C44",
   "status": "proved",
   "theorems": [
    "C44_symbols_determine",
    "C44_receiver",
    "C44_samples_determine"
   ],
   "note": "C44_receiver: a constructive receiver (SMrRx.v; DFT of each symbol, hard decisions, deinterleaver, decoder, descrambler) knowing only option and interleaving returns MCS, seed and octets from the samples (exact arithmetic). C44_symbols_determine / C44_samples_determine: injectivity."
  },
  {
   "property": "C45",
   "status": "partial",
   "theorems": [
    "C45_accepted",
    "C45_unsupported",
    "C45_value_error",
    "C45_mcs7_refuted"
   ],
   "note": "False of the code for MCS = 7 only: it passes the range check and raises IndexError from a table lookup, whatever the other arguments (C45_mcs7_refuted). Everything else in the statement is proved."
  },
  {
   "property": "C46",
   "status": "proved",
   "theorems": [
    "C46_no_memory",
    "C46_samples"
   ],
   "note": ""
  },
  {
   "property": "C47",
   "status": "partial",
   "theorems": [
    "C47_layout",
    "C47_accepted_lengths",
    "C47_errors_detected",
    "C47_saturating_platform_refuted"
   ],
   "note": "Proved where numpy's float->uint8 cast wraps (x86-64). The code casts a possibly negative float remainder, undefined in C: where negatives become 0 (AArch64) the HCS is wrong (C47_saturating_platform_refuted)."
  },
  {
   "property": "C48",
   "status": "proved",
   "theorems": [
    "C48_header",
    "C48_payload",
    "C48_unique"
   ],
   "note": ""
  },
  {
   "property": "C49",
   "status": "proved",
   "theorems": [
    "C49_relation",
    "C49_decode",
    "C49_periodic"
   ],
   "note": ""
  },
  {
   "property": "C50",
   "status": "proved",
   "theorems": [
    "C50_spreading",
    "C50_refused",
    "C50_codes"
   ],
   "note": ""
  },
  {
   "property": "C51",
   "status": "partial",
   "theorems": [
    "C51_header",
    "C51_single_block_partial",
    "C51_refuted"
   ],
   "note": "Holds for the header and payloads of one block (C51_header, C51_single_block_partial). False of the code for payloads of two blocks or more: the index formula is not a permutation, coded bits 126..108nb+17 are never read, whatever the data (C51_refuted, for all block counts)."
  },
  {
   "property": "C52",
   "status": "proved",
   "theorems": [
    "C52_insertion",
    "C52_removable"
   ],
   "note": ""
  },
  {
   "property": "C53",
   "status": "partial",
   "theorems": [
    "C53_agree_partial",
    "C53_refuted"
   ],
   "note": "False for 2450 MHz only: pilot and spread sequence differ in one chip (C53_refuted). C53_agree_partial: the four other bands."
  },
  {
   "property": "C54",
   "status": "partial",
   "theorems": [
    "C54_exact_partial",
    "C54_refuted"
   ],
   "note": "False of the code: in the modes that spread groups of 4 bits, and in MDSSS with FEC, every payload that fills an odd number of interleaver blocks raises ValueError (C54_refuted). C54_exact_partial: the exact condition for success, for every supported mode and length."
  },
  {
   "property": "C55",
   "status": "partial",
   "theorems": [
    "C55_exact_partial",
    "C55_lost_refuted",
    "C55_every_payload_refuted",
    "C55_mdsss_refuted",
    "C55_single_block_partial"
   ],
   "note": "False of the code: for every DSSS payload of 8 octets or more another one of the same length gives the same chips (C55_every_payload_refuted, C55_lost_refuted), and MDSSS frames do not depend on the payload (C55_mdsss_refuted). C55_single_block_partial: true for DSSS payloads of up to 7 octets. C55_exact_partial: exactly payload bits 63 .. 54 nb + 2 are lost (nb interleaver blocks): a DSSS frame and any other frame of the band have the same chips iff modes, octet count and all other payload bits agree. C108 gives a receiver for the bits that are not lost."
  },
  {
   "property": "C56",
   "status": "proved",
   "theorems": [
    "C56_header_receiver",
    "C56_receiver",
    "C56_header",
    "C56_round_trip"
   ],
   "note": "C56_receiver: an explicit chip-level receiver (despreading, differential decoding, deinterleaving, inversion of the rate-1/2 code, pilot removal) recovers modes, octet count and payload from DSSS frames of up to 7 octets; C56_header_receiver: modes and octet count in every mode and for every length. Payloads beyond one interleaver block cannot be recovered (C55)."
  },
  {
   "property": "C57",
   "status": "proved",
   "theorems": [
    "C57_modulator",
    "C57_frames"
   ],
   "note": "Every chip sequence of even length and every samples_per_symbol >= 1 (C57_modulator), and every call on every object (C57_frames): the signal exists exactly when the chips do. Exact real arithmetic; raised-cosine pulse samples where the formula divides by 0 (samples_per_symbol multiple of 32) are not meaningful. Where the denominator of the raised cosine is 0 (samples_per_symbol multiple of 32, C79) the model takes an arbitrary value; the number of samples is proved there too."
  },
  {
   "property": "C58",
   "status": "partial",
   "theorems": [
    "C58_aligned",
    "C58_refuted"
   ],
   "note": "False of the code: C58_refuted - no signal of any object is an offset signal for any delay; C58_aligned - both chips of a pair start together (the same specification with delay 0 holds)."
  },
  {
   "property": "C59",
   "status": "partial",
   "theorems": [
    "C59_construction",
    "C59_no_signal",
    "C59_refuted"
   ],
   "note": "False of the code: rate and spreading modes are not checked at construction (C59_construction gives the exact behaviour, C59_refuted); but no call on such an object ever returns a signal (C59_no_signal)."
  },
  {
   "property": "C60",
   "status": "proved",
   "theorems": [
    "C60_no_memory"
   ],
   "note": ""
  },
  {
   "property": "C61",
   "status": "proved",
   "theorems": [
    "C61_nrnsc",
    "C61_rsc"
   ],
   "note": "The padding is the exact table of the standard (fec_padding), as a function of the number of octets."
  },
  {
   "property": "C62",
   "status": "partial",
   "theorems": [
    "C62_refuted",
    "C62_step"
   ],
   "note": "False of the code: the pulse is sampled every 4/f second (C62_step, all bands); C62_refuted - in the half-sine bands no starting instant makes the samples those of the half sine taken every 1/f."
  },
  {
   "property": "C63",
   "status": "partial",
   "theorems": [
    "C63_samples_determine_partial",
    "C63_silence_refuted"
   ],
   "note": "False of the code for samples_per_symbol 1 (all bands) and 2 (915 and 2450 MHz): every sample is 0 (C63_silence_refuted). C63_samples_determine_partial: true for all larger values."
  },
  {
   "property": "C64",
   "status": "partial",
   "theorems": [
    "C64_refuted",
    "C64_unspread_partial"
   ],
   "note": "False of the code for the modes that spread the payload: at the returned frequency the signal lasts longer by the number of chips per coded bit, 2 to 32 (C64_refuted, every payload and mode). Proved for rate mode 3 outside 2450 MHz (C64_unspread_partial)."
  },
  {
   "property": "C65",
   "status": "proved",
   "theorems": [
    "C65_tones"
   ],
   "note": "Over the real numbers (no rounding), for rational modulation indices; exactly the samples of the returned list."
  },
  {
   "property": "C66",
   "status": "proved",
   "theorems": [
    "C66_frame",
    "C66_payload"
   ],
   "note": "Receiver specified in SFskWave.v; every object that can be constructed (1/4 <= h <= 5/2), any non-zero complex gain, no noise; real-number arithmetic."
  },
  {
   "property": "C67",
   "status": "partial",
   "theorems": [
    "C67_one_dim",
    "C67_two_dim",
    "C67_other_arguments",
    "C67_odd_refuted",
    "C67_columns_agree"
   ],
   "note": "True for every even size (C67_one_dim, C67_two_dim); false for odd 1-D sizes 1 and 3, which are accepted (C67_odd_refuted); larger odd sizes raise. C67_columns_agree ties this model to the column form used by the OFDM model."
  },
  {
   "property": "C68",
   "status": "partial",
   "theorems": [
    "C68_one_dim_partial",
    "C68_two_dim_partial",
    "C68_table_partial",
    "C68_axis_refuted",
    "C68_order_refuted",
    "C68_size_refuted"
   ],
   "note": "Table correct along axis 0 (C68_one_dim_partial, C68_two_dim_partial); false of the code: bit order ignored (C68_order_refuted), axis 1 transposed (C68_axis_refuted), sizes below 8 not multiple of 4 accepted (C68_size_refuted)."
  },
  {
   "property": "C69",
   "status": "proved",
   "theorems": [
    "C69_bpsk",
    "C69_construction"
   ],
   "note": ""
  },
  {
   "property": "C70",
   "status": "partial",
   "theorems": [
    "C70_to_bin",
    "C70_too_wide",
    "C70_opposite_orders_partial",
    "C70_same_order_refuted"
   ],
   "note": "to_bin is right (C70_to_bin; numbers that do not fit give longer strings, C70_too_wide). False of the code: with the same order to_int reads the bits reversed (C70_same_order_refuted); with opposite orders it returns n modulo 256 (C70_opposite_orders_partial)."
  },
  {
   "property": "C71",
   "status": "proved",
   "theorems": [
    "C71_free_distance",
    "C71_streaming"
   ],
   "note": ""
  },
  {
   "property": "C72",
   "status": "partial",
   "theorems": [
    "C72_refuted"
   ],
   "note": "False of the code: for every input of more than one triple the returned A and B have 3 elements, those of the last triple (C72_refuted)."
  },
  {
   "property": "C73",
   "status": "proved",
   "theorems": [
    "C73_margin",
    "C73_noise",
    "C73_values"
   ],
   "note": "Over the real numbers (no rounding). The margin is a lower bound (free distance of the code x minimum energy per coded bit x spreading)."
  },
  {
   "property": "C74",
   "status": "proved",
   "theorems": [
    "C74_distance",
    "C74_two_errors"
   ],
   "note": "Frames compared over the bits both have. Whitening must be the same on both sides (it is a field of the header but also changes every payload bit)."
  },
  {
   "property": "C75",
   "status": "proved",
   "theorems": [
    "C75_symbols",
    "C75_margin",
    "C75_noise"
   ],
   "note": "Over the real numbers (no rounding of the samples). 3 is a rounding of 40 (1 - cos(pi/8)) = 3.04, reached near h = 1/4; sampling rate irrelevant."
  },
  {
   "property": "C76",
   "status": "proved",
   "theorems": [
    "C76_energy",
    "C76_peak"
   ],
   "note": "Over the real numbers (no rounding of the samples). Energy is the sum of squared moduli of the FFT-size samples of a symbol without its prefix."
  },
  {
   "property": "C77",
   "status": "proved",
   "theorems": [
    "C77_header",
    "C77_payload",
    "C77_receiver"
   ],
   "note": "Frames compared over the chips both have. Payloads of at most 7 octets: beyond that the payload interleaver loses bits (C51, C55). The factor 5 is half the free distance 10 of the code (differential encoding can merge two differences)."
  },
  {
   "property": "C78",
   "status": "proved",
   "theorems": [
    "C78_energy",
    "C78_distance",
    "C78_pulse",
    "C78_noise"
   ],
   "note": "Over the real numbers (no rounding of the samples); samples_per_symbol not a multiple of 32 in the raised-cosine bands."
  },
  {
   "property": "C79",
   "status": "partial",
   "theorems": [
    "C79_criterion",
    "C79_elsewhere_partial",
    "C79_division_by_zero_refuted",
    "C79_limit"
   ],
   "note": "False of the code: 1 - 4 r^2 t^2/Tc^2 is 0 at t = +-5/8 Tc, which is sampled exactly when samples_per_symbol is a multiple of 32 (C79_criterion); the two samples are then whatever the division gives (arbitrary in the model) although the pulse has the limit 2/5 sin(5 pi/8) there (C79_limit). All other samples are right (C79_elsewhere_partial)."
  },
  {
   "property": "C80",
   "status": "partial",
   "theorems": [
    "C80_dsss_partial",
    "C80_dsss_samples_partial",
    "C80_mdsss_chips",
    "C80_mdsss_refuted"
   ],
   "note": "True of DSSS frames (C80_dsss_partial, C80_dsss_samples_partial). False of MDSSS: the number of chips does not depend on the payload (C80_mdsss_chips, C80_mdsss_refuted)."
  },
  {
   "property": "C81",
   "status": "partial",
   "theorems": [
    "C81_fsk_refuted",
    "C81_fsk_octets_partial",
    "C81_ofdm_refuted",
    "C81_ofdm_collision_refuted",
    "C81_oqpsk_refuted",
    "C81_oqpsk_octets_partial"
   ],
   "note": "False of the code: messages that are not whole octets are accepted and the header announces the whole octets only (C81_fsk_refuted, C81_ofdm_refuted, C81_oqpsk_refuted); with MR-OFDM a message of whole octets and the same followed by one more bit can give the same signal (C81_ofdm_collision_refuted). True of whole octets (C81_fsk_octets_partial, C81_oqpsk_octets_partial; MR-OFDM: C31)."
  },
  {
   "property": "C82",
   "status": "partial",
   "theorems": [
    "C82_accepts_partial",
    "C82_refuses_partial",
    "C82_single_value_refuted",
    "C82_string_refuted",
    "C82_spreading_refuted",
    "C82_scalar_refuted"
   ],
   "note": "Documented arguments are accepted with the right symbol size (C82_accepts_partial) and others refused with ValueError (C82_refuses_partial), except where the code differs: a single pilot value is refused for two pilots or more (C82_single_value_refuted), other strings raise AttributeError (C82_string_refuted), a 0-D array of values is accepted and then every message refused (C82_scalar_refuted), and so is an object whose data tones are not a multiple of the spreading factor (C82_spreading_refuted). When an object can send: C36-C40."
  },
  {
   "property": "C83",
   "status": "partial",
   "theorems": [
    "C83_bits",
    "C83_values_refuted",
    "C83_single_refuted"
   ],
   "note": "C83_bits is the claim for arguments that are bits. False: only the sign of the numbers is read, so other numbers are not refused (C83_values_refuted), and a one-bit message is refused although it is one row (C83_single_refuted)."
  },
  {
   "property": "C84",
   "status": "partial",
   "theorems": [
    "C84_prefix_partial",
    "C84_short_refuted",
    "C84_columns",
    "C84_messages"
   ],
   "note": "True for CP <= 0 and 1/N_FFT <= CP (C84_prefix_partial, C84_messages). False for 0 < CP < 1/N_FFT: the whole symbol is repeated (C84_short_refuted)."
  },
  {
   "property": "C85",
   "status": "proved",
   "theorems": [
    "C85_subcarriers",
    "C85_samples"
   ],
   "note": "C85_subcarriers (error per data subcarrier below the decision distance), C85_samples (noise energy per symbol). The decoder of the receiver is the plain inverse of the code, so the convolutional code's gain is not used here (C73 states what it gives to a maximum-likelihood receiver)."
  },
  {
   "property": "C86",
   "status": "proved",
   "theorems": [
    "C86_measured",
    "C86_multipath",
    "C86_noise",
    "C86_gain",
    "C86_timing"
   ],
   "note": "C86_measured, C86_multipath, C86_gain, C86_timing, C86_noise. Exact arithmetic, no carrier-frequency offset."
  },
  {
   "property": "C87",
   "status": "proved",
   "theorems": [
    "C87_found",
    "C87_receiver"
   ],
   "note": "C87_found (with wrong bits), C87_receiver. Receiver specified in SFskRx.v; the sliding window moves symbol by symbol."
  },
  {
   "property": "C88",
   "status": "proved",
   "theorems": [
    "C88_frame",
    "C88_receiver"
   ],
   "note": "C88_frame, C88_receiver: no noise, real-number arithmetic; |offset| < pi h/20 per sample."
  },
  {
   "property": "C89",
   "status": "proved",
   "theorems": [
    "C89_symbols",
    "C89_frame",
    "C89_receiver"
   ],
   "note": "C89_symbols, C89_frame, C89_receiver: coherent detector (phase known), every modulation index 1/4..5/2."
  },
  {
   "property": "C90",
   "status": "proved",
   "theorems": [
    "C90_chips",
    "C90_header",
    "C90_receiver",
    "C90_gain"
   ],
   "note": "C90_chips, C90_header, C90_receiver (noise), C90_gain (unknown gain, no noise). Receiver specified in SOqMf.v; exact arithmetic, sample timing known."
  },
  {
   "property": "C91",
   "status": "proved",
   "theorems": [
    "C91_despread",
    "C91_tight",
    "C91_header",
    "C91_receiver"
   ],
   "note": "C91_despread, C91_tight (one more error can make two codes equally near), C91_header, C91_receiver. Receiver specified in SOqDs.v."
  },
  {
   "property": "C92",
   "status": "partial",
   "theorems": [
    "C92_matrix",
    "C92_codewords_refuted",
    "C92_codewords_partial",
    "C92_parity_partial",
    "C92_parity_refuted",
    "C92_message_refuted"
   ],
   "note": "The matrix is right for every size (C92_matrix). The rest is false of the code: C92_codewords_refuted (every size: the four groups whose last bit is 1 share the all-zero word, np.logical_not of 1 and of -1 being False) with C92_codewords_partial (the other four differ in exactly half of the places); C92_parity_refuted with the exact condition C92_parity_partial (only the second column of each group of four is looked at); C92_message_refuted (sizes that are no multiple of 4 raise ValueError, all others give the same chips)."
  },
  {
   "property": "C93",
   "status": "proved",
   "theorems": [
    "C93_found",
    "C93_header",
    "C93_receiver",
    "C93_tolerance",
    "C93_tight"
   ],
   "note": "C93_found (alignment and SFD), C93_header (every mode and size), C93_receiver (DSSS, at most 7 octets). C93_tolerance gives the numbers, C93_tight that no rule for the alignment tolerates one more wrong chip."
  },
  {
   "property": "C94",
   "status": "partial",
   "theorems": [
    "C94_tables",
    "C94_frequency",
    "C94_exact_partial",
    "C94_slow_refuted",
    "C94_header_refuted"
   ],
   "note": "The tables agree (C94_tables), but the code uses the data rate as chip-pair rate (C94_frequency): the chip rate is right exactly for rate mode 3 outside 2450 MHz (C94_exact_partial), too low by the spreading of the mode otherwise (C94_slow_refuted, every signal), so preamble and header of two rate modes are always sent at different rates (C94_header_refuted)."
  },
  {
   "property": "C95",
   "status": "proved",
   "theorems": [
    "C95_timing",
    "C95_chips",
    "C95_header",
    "C95_receiver"
   ],
   "note": "Timing by the strongest correlation with the pulse (its circular autocorrelation is strictly largest at 0, for every samples_per_symbol), gain by the known preamble, then the receiver of C93 on the chips. Payloads of 8 octets or more lose bits before they are sent (C55)."
  },
  {
   "property": "C96",
   "status": "partial",
   "theorems": [
    "C96_lists_partial",
    "C96_present",
    "C96_values_refuted",
    "C96_indices_refuted"
   ],
   "note": "Proved for pilots given as lists (C96_lists_partial, every history). Arrays are kept by reference: the object behaves as one built from their present contents (C96_present), so a later store changes the pilots sent (C96_values_refuted, every object and message) or makes every message fail (C96_indices_refuted)."
  },
  {
   "property": "C97",
   "status": "proved",
   "theorems": [
    "C97_estimate",
    "C97_offset",
    "C97_limit"
   ],
   "note": "C97_estimate: correlating the first STF symbol with itself one STF period later gives the offset exactly (through any channel); C97_offset: the frame is received after removing it; C97_limit: the range is sharp for this measurement."
  },
  {
   "property": "C98",
   "status": "proved",
   "theorems": [
    "C98_tracking",
    "C98_symbols",
    "C98_offset"
   ],
   "note": "C98_tracking: arbitrary gain per symbol plus errors bounded relative to it; C98_symbols: samples through multipath with any non-zero gain per symbol and for the LTF; C98_offset: uncorrected carrier offset, any frame length."
  },
  {
   "property": "C99",
   "status": "proved",
   "theorems": [
    "C99_complete",
    "C99_first"
   ],
   "note": "C99_complete: start by threshold, offset by STF, gain and phase by pilots, noise bounded per sample, any frame length, arbitrary samples after the frame; C99_first: exact modulus of the first sample, which the threshold must stay below; C99_case instantiates the hypotheses."
  },
  {
   "property": "C100",
   "status": "proved",
   "theorems": [
    "C100_stream",
    "C100_complete"
   ],
   "note": "C100_stream: the bit frame followed by any bits; C100_complete: from noisy samples with unknown start, gain, phase and carrier offset (measured on the first two preamble symbols); C100_case instantiates the hypotheses with an offset more than sixteen times the deviation."
  },
  {
   "property": "C101",
   "status": "proved",
   "theorems": [
    "C101_timing",
    "C101_chips",
    "C101_header",
    "C101_receiver",
    "C101_noise"
   ],
   "note": "C101_timing, C101_chips, C101_header (all modes and lengths), C101_receiver (DSSS up to 7 octets, longer payloads cannot be recovered, C55); C101_noise: the hypotheses on the noise hold up to a positive level; C101_case instantiates them."
  },
  {
   "property": "C102",
   "status": "proved",
   "theorems": [
    "C102_decoder",
    "C102_subcarriers",
    "C102_noise",
    "C102_multipath"
   ],
   "note": "C102_decoder (the Viterbi decoder returns a compatible input of best agreement), C102_subcarriers (any received subcarriers), C102_noise (any error on the samples below margin/4, cf. C73), C102_multipath (equalised); C102_case instantiates the hypotheses."
  },
  {
   "property": "C103",
   "status": "proved",
   "theorems": [
    "C103_bits",
    "C103_garbage"
   ],
   "note": "C103_bits (wrong coded bits), C103_garbage (arbitrary values on a list of subcarriers); C103_case instantiates the hypotheses."
  },
  {
   "property": "C104",
   "status": "proved",
   "theorems": [
    "C104_decoder",
    "C104_bits",
    "C104_hunt"
   ],
   "note": "C104_decoder (the Viterbi decoder returns an allowed input of least cost), C104_bits (two wrong bits), C104_hunt (with the delimiter search of C87); C104_case: two wrong bits that the receiver of C17 misreads."
  },
  {
   "property": "C105",
   "status": "proved",
   "theorems": [
    "C105_noise"
   ],
   "note": "C105_noise (any error on the samples after the delimiter below margin/4, cf. C75); C105_case instantiates the hypotheses."
  },
  {
   "property": "C106",
   "status": "proved",
   "theorems": [
    "C106_fsk",
    "C106_fsk_quantised",
    "C106_ofdm",
    "C106_ofdm_quantised",
    "C106_oqpsk",
    "C106_half_sine"
   ],
   "note": "C106_fsk, C106_ofdm, C106_oqpsk for any perturbation within the bound; C106_fsk_quantised, C106_ofdm_quantised for rounding of I and Q; C106_half_sine for the bound of the half-sine bands. This bounds the effect of the floating-point arithmetic of the samples, which the model does not compute. C106_case (and C85_case, C90_case) instantiate the hypotheses."
  },
  {
   "property": "C107",
   "status": "proved",
   "theorems": [
    "C107_header",
    "C107_receiver"
   ],
   "note": "C107_header for every mode and size, C107_receiver for DSSS payloads of one interleaver block. The Viterbi decoder is that of SVit, on hard decisions. C107_case: hypotheses met by a frame in which every group has wrong chips and two of the header and two of the payload are lost, where the receiver of C91 is misled. Payloads of 8 octets or more: see C55."
  },
  {
   "property": "C108",
   "status": "proved",
   "theorems": [
    "C108_receiver",
    "C108_nothing_else"
   ],
   "note": "C108_receiver: explicit receiver (forward inversion of the code for the first 63 bits, backward from the zero tail for the last ones), sizes for which the code sends a frame (see C54); C108_nothing_else: what it does not return is not in the frame (with C55_exact_partial). C108_case: 93 octets in a mode that spreads four bits at a time, wrong chips in every group."
  },
  {
   "property": "C109",
   "status": "proved",
   "theorems": [
    "C109_header",
    "C109_receiver",
    "C109_replaced"
   ],
   "note": "C109_header (all modes and sizes), C109_receiver (DSSS up to 7 octets), C109_replaced: samples replaced by any others. Matched filter of C90 followed by the receiver of C107. C109_sizes: the numbers of chip pairs; C109_case: an instance."
  },
  {
   "property": "C110",
   "status": "proved",
   "theorems": [
    "C110_bits",
    "C110_silence",
    "C110_sharp"
   ],
   "note": "C110_bits: lost bits are known to be lost; C110_silence: the soft receiver of C105, unchanged (silence makes all tones equally likely). C110_sharp: for both interleaver settings two payloads whose frames agree outside one bit more."
  },
  {
   "property": "C111",
   "status": "partial",
   "theorems": [
    "C111_airtime",
    "C111_bits_per_symbol_partial",
    "C111_bits_per_symbol_refuted"
   ],
   "note": "C111_airtime: the duration, proved as stated. bits_per_symbol() is right exactly for MCS 3 to 6 (C111_bits_per_symbol_partial) and 4 or 2 times too large for MCS 0 to 2 (C111_bits_per_symbol_refuted), because it leaves out the frequency spreading."
  },
  {
   "property": "C112",
   "status": "proved",
   "theorems": [
    "C112_copies",
    "C112_lower",
    "C112_upper",
    "C112_multipath",
    "C112_noise"
   ],
   "note": "C112_copies: any choice of copies. C112_lower, C112_upper: one end of the band. C112_multipath: the receiver chooses by what it measures on the LTF; C112_multipath_case is a channel with two nulls on subcarriers in use. C112_noise: the same with errors on the LTF and on the symbols; only the best copy of each point has to be good enough."
  },
  {
   "property": "C113",
   "status": "proved",
   "theorems": [
    "C113_airtime"
   ],
   "note": "C113_airtime gives the duration (number of samples over frequency), the sample count and the frequency. The whitening and FEC options are those of the object; C113_case is a 176-symbol frame of 50 kbit/s 2FSK."
  },
  {
   "property": "C114",
   "status": "partial",
   "theorems": [
    "C114_chips",
    "C114_airtime_partial",
    "C114_exact_partial",
    "C114_slow_refuted",
    "C114_mdsss_refuted"
   ],
   "note": "C114_chips: every signal lasts half a nominal symbol per chip, and the last pulse. C114_airtime_partial gives the duration of DSSS frames exactly: the airtime of the standard times the chips per coded bit. C114_exact_partial: as claimed in rate mode 3 outside 2450 MHz. C114_slow_refuted: at least twice too long in every other mode. C114_mdsss_refuted: with MDSSS the airtime is the same for all octet counts. The sampling frequency is computed from the data rate instead of the chip rate (C94)."
  },
  {
   "property": "C115",
   "status": "proved",
   "theorems": [
    "C115_axes",
    "C115_peak",
    "C115_attained"
   ],
   "note": "C115_axes: every sample but those of C79. C115_peak: the bound for whole signals. C115_attained: the bound is reached in every such signal. Needs |cos(pi u/2)| <= |1-u^2| for all u, so the raised-cosine formula never exceeds 1."
  },
  {
   "property": "C116",
   "status": "proved",
   "theorems": [
    "C116_symbols",
    "C116_used",
    "C116_training",
    "C116_stf"
   ],
   "note": "C116_symbols: DFT of the useful part of every header and payload symbol. C116_training: DFT of the LTF. C116_stf: DFT of the first three symbols of the STF (the second half of the fourth is negated: C42_stf). C116_used: power of every other subcarrier of every symbol. The spectrum between subcarriers (side lobes) is not part of the claim."
  }
 ]
}