{
 "C03": "False of the code: numbers strictly between 0 and 1 are truncated to 0 and sent (bits.py check_binary_array). C03_refuted gives the witness for the three modulators; C03_integers_partial is what holds for integral payloads.",
 "C19": "False of the code: np.arange(0, dt*n, dt) computed in binary64 yields n+1 points for some n, so f*1j*t raises ValueError. C19_refuted: for each of 20 usual symbol rates a payload length for which every payload raises (2FSK, no FEC, preamble 4). C19_partial: apart from that mismatch every legal payload is sent with 20 samples per symbol. C19_exact_partial: for symbol rates up to 2^53 the call succeeds exactly when round(round(d*n)/d) <= n, d the rounded time step and n the number of samples, and otherwise raises ValueError. C19_power_of_two_partial: symbol rates that are powers of two never fail.",
 "C20": "False of the code for most modulation indices (f*t instead of the integral of f). C20_refuted: 2FSK frames with a non-integral index have a phase jump at the first symbol boundary; C20_4fsk_refuted: so do 4FSK frames when 3h is not an integer; C20_exact: the exact condition on the frame's tones. C20_integer_index_partial: continuous for integral indices.",
 "C21": "False of the code: modeSwitchToIQ only checks its first argument and returns None (C21_refuted gives its complete behaviour). C21_header_refuted: the function meant to build the mode switch header fails with ValueError for all arguments (it assigns two bits to one element).",
 "C27": "False of the code: reset does not mask the seed. C27_partial for seeds of six bits; C27_exact_partial: for every other integer some input gives different outputs, so six-bit seeds are exactly those for which the claim holds.",
 "C28": "Permutation of every block and undone: proved for every configuration. 'The permutation of the standard' is false of the code for every 16-QAM configuration: the two steps are composed in the other order, which misplaces three quarters of the bits (C28_qam16_every_refuted); it holds for MCS 0..4 (C28_standard_partial).",
 "C32": "False of the code for MCS 4 and 6: the header is coded at the payload's rate 3/4 path and occupies half as many symbols again (C32_three_quarters_refuted, for every frame of these MCS). C32_half_rate_partial: true for all other MCS.",
 "C34": "False of the code when no padding is needed (slice [-N_PAD-6:-N_PAD] is empty for N_PAD = 0): the tail is then the raw PN9 sequence. C34_tail_exact gives the exact tail for all payloads; C34_octets_partial: for octet payloads it is zero except Option 4, MCS 4, L = 6 mod 9; C34_no_padding_refuted is a witness.",
 "C45": "False of the code for MCS = 7 only: it passes the range check and raises IndexError from a table lookup, whatever the other arguments (C45_mcs7_refuted). Everything else in the statement is proved.",
 "C47": "Proved where numpy's float->uint8 cast wraps (x86-64). The code casts a possibly negative float remainder, undefined in C: where negatives become 0 (AArch64) the HCS is wrong (C47_saturating_platform_refuted).",
 "C51": "Holds for the header and payloads of one block (C51_header, C51_single_block_partial). False of the code for payloads of two blocks or more: the index formula is not a permutation, coded bits 126..108nb+17 are never read, whatever the data (C51_refuted, for all block counts).",
 "C53": "False for 2450 MHz only: pilot and spread sequence differ in one chip (C53_refuted). C53_agree_partial: the four other bands.",
 "C54": "False of the code: in the modes that spread groups of 4 bits, and in MDSSS with FEC, every payload that fills an odd number of interleaver blocks raises ValueError (C54_refuted). C54_exact_partial: the exact condition for success, for every supported mode and length.",
 "C55": "False of the code: for every DSSS payload of 8 octets or more another one of the same length gives the same chips (C55_every_payload_refuted, C55_lost_refuted), and MDSSS frames do not depend on the payload (C55_mdsss_refuted). C55_single_block_partial: true for DSSS payloads of up to 7 octets. C55_exact_partial: exactly payload bits 63 .. 54 nb + 2 are lost (nb interleaver blocks): a DSSS frame and any other frame of the band have the same chips iff modes, octet count and all other payload bits agree. C108 gives a receiver for the bits that are not lost.",
 "C59": "False of the code: rate and spreading modes are not checked at construction (C59_construction gives the exact behaviour, C59_refuted); but no call on such an object ever returns a signal (C59_no_signal).",
 "C41": "Exact arithmetic (numpy's rounding is not modelled).",
 "C44": "C44_receiver: a constructive receiver (SMrRx.v; DFT of each symbol, hard decisions, deinterleaver, decoder, descrambler) knowing only option and interleaving returns MCS, seed and octets from the samples (exact arithmetic). C44_symbols_determine / C44_samples_determine: injectivity.",
 "C57": "Every chip sequence of even length and every samples_per_symbol >= 1 (C57_modulator), and every call on every object (C57_frames): the signal exists exactly when the chips do. Exact real arithmetic; raised-cosine pulse samples where the formula divides by 0 (samples_per_symbol multiple of 32) are not meaningful. Where the denominator of the raised cosine is 0 (samples_per_symbol multiple of 32, C79) the model takes an arbitrary value; the number of samples is proved there too.",
 "C58": "False of the code: C58_refuted - no signal of any object is an offset signal for any delay; C58_aligned - both chips of a pair start together (the same specification with delay 0 holds).",
 "C62": "False of the code: the pulse is sampled every 4/f second (C62_step, all bands); C62_refuted - in the half-sine bands no starting instant makes the samples those of the half sine taken every 1/f.",
 "C63": "False of the code for samples_per_symbol 1 (all bands) and 2 (915 and 2450 MHz): every sample is 0 (C63_silence_refuted). C63_samples_determine_partial: true for all larger values.",
 "C64": "False of the code for the modes that spread the payload: at the returned frequency the signal lasts longer by the number of chips per coded bit, 2 to 32 (C64_refuted, every payload and mode). Proved for rate mode 3 outside 2450 MHz (C64_unspread_partial).",
 "C65": "Over the real numbers (no rounding), for rational modulation indices; exactly the samples of the returned list.",
 "C66": "Receiver specified in SFskWave.v; every object that can be constructed (1/4 <= h <= 5/2), any non-zero complex gain, no noise; real-number arithmetic.",
 "C67": "True for every even size (C67_one_dim, C67_two_dim); false for odd 1-D sizes 1 and 3, which are accepted (C67_odd_refuted); larger odd sizes raise. C67_columns_agree ties this model to the column form used by the OFDM model.",
 "C68": "Table correct along axis 0 (C68_one_dim_partial, C68_two_dim_partial); false of the code: bit order ignored (C68_order_refuted), axis 1 transposed (C68_axis_refuted), sizes below 8 not multiple of 4 accepted (C68_size_refuted).",
 "C70": "to_bin is right (C70_to_bin; numbers that do not fit give longer strings, C70_too_wide). False of the code: with the same order to_int reads the bits reversed (C70_same_order_refuted); with opposite orders it returns n modulo 256 (C70_opposite_orders_partial).",
 "C72": "False of the code: for every input of more than one triple the returned A and B have 3 elements, those of the last triple (C72_refuted).",
 "C26": "C26_empty: the empty input fails with UnboundLocalError.",
 "C61": "The padding is the exact table of the standard (fec_padding), as a function of the number of octets.",
 "C73": "Over the real numbers (no rounding). The margin is a lower bound (free distance of the code x minimum energy per coded bit x spreading).",
 "C74": "Frames compared over the bits both have. Whitening must be the same on both sides (it is a field of the header but also changes every payload bit).",
 "C75": "Over the real numbers (no rounding of the samples). 3 is a rounding of 40 (1 - cos(pi/8)) = 3.04, reached near h = 1/4; sampling rate irrelevant.",
 "C76": "Over the real numbers (no rounding of the samples). Energy is the sum of squared moduli of the FFT-size samples of a symbol without its prefix.",
 "C77": "Frames compared over the chips both have. Payloads of at most 7 octets: beyond that the payload interleaver loses bits (C51, C55). The factor 5 is half the free distance 10 of the code (differential encoding can merge two differences).",
 "C78": "Over the real numbers (no rounding of the samples); samples_per_symbol not a multiple of 32 in the raised-cosine bands.",
 "C79": "False of the code: 1 - 4 r^2 t^2/Tc^2 is 0 at t = +-5/8 Tc, which is sampled exactly when samples_per_symbol is a multiple of 32 (C79_criterion); the two samples are then whatever the division gives (arbitrary in the model) although the pulse has the limit 2/5 sin(5 pi/8) there (C79_limit). All other samples are right (C79_elsewhere_partial).",
 "C56": "C56_receiver: an explicit chip-level receiver (despreading, differential decoding, deinterleaving, inversion of the rate-1/2 code, pilot removal) recovers modes, octet count and payload from DSSS frames of up to 7 octets; C56_header_receiver: modes and octet count in every mode and for every length. Payloads beyond one interleaver block cannot be recovered (C55).",
 "C80": "True of DSSS frames (C80_dsss_partial, C80_dsss_samples_partial). False of MDSSS: the number of chips does not depend on the payload (C80_mdsss_chips, C80_mdsss_refuted).",
 "C81": "False of the code: messages that are not whole octets are accepted and the header announces the whole octets only (C81_fsk_refuted, C81_ofdm_refuted, C81_oqpsk_refuted); with MR-OFDM a message of whole octets and the same followed by one more bit can give the same signal (C81_ofdm_collision_refuted). True of whole octets (C81_fsk_octets_partial, C81_oqpsk_octets_partial; MR-OFDM: C31).",
 "C82": "Documented arguments are accepted with the right symbol size (C82_accepts_partial) and others refused with ValueError (C82_refuses_partial), except where the code differs: a single pilot value is refused for two pilots or more (C82_single_value_refuted), other strings raise AttributeError (C82_string_refuted), a 0-D array of values is accepted and then every message refused (C82_scalar_refuted), and so is an object whose data tones are not a multiple of the spreading factor (C82_spreading_refuted). When an object can send: C36-C40.",
 "C83": "C83_bits is the claim for arguments that are bits. False: only the sign of the numbers is read, so other numbers are not refused (C83_values_refuted), and a one-bit message is refused although it is one row (C83_single_refuted).",
 "C84": "True for CP <= 0 and 1/N_FFT <= CP (C84_prefix_partial, C84_messages). False for 0 < CP < 1/N_FFT: the whole symbol is repeated (C84_short_refuted).",
 "C85": "C85_subcarriers (error per data subcarrier below the decision distance), C85_samples (noise energy per symbol). The decoder of the receiver is the plain inverse of the code, so the convolutional code's gain is not used here (C73 states what it gives to a maximum-likelihood receiver).",
 "C86": "C86_measured, C86_multipath, C86_gain, C86_timing, C86_noise. Exact arithmetic, no carrier-frequency offset.",
 "C87": "C87_found (with wrong bits), C87_receiver. Receiver specified in SFskRx.v; the sliding window moves symbol by symbol.",
 "C88": "C88_frame, C88_receiver: no noise, real-number arithmetic; |offset| < pi h/20 per sample.",
 "C89": "C89_symbols, C89_frame, C89_receiver: coherent detector (phase known), every modulation index 1/4..5/2.",
 "C90": "C90_chips, C90_header, C90_receiver (noise), C90_gain (unknown gain, no noise). Receiver specified in SOqMf.v; exact arithmetic, sample timing known.",
 "C91": "C91_despread, C91_tight (one more error can make two codes equally near), C91_header, C91_receiver. Receiver specified in SOqDs.v.",
 "C92": "The matrix is right for every size (C92_matrix). The rest is false of the code: C92_codewords_refuted (every size: the four groups whose last bit is 1 share the all-zero word, np.logical_not of 1 and of -1 being False) with C92_codewords_partial (the other four differ in exactly half of the places); C92_parity_refuted with the exact condition C92_parity_partial (only the second column of each group of four is looked at); C92_message_refuted (sizes that are no multiple of 4 raise ValueError, all others give the same chips).",
 "C93": "C93_found (alignment and SFD), C93_header (every mode and size), C93_receiver (DSSS, at most 7 octets). C93_tolerance gives the numbers, C93_tight that no rule for the alignment tolerates one more wrong chip.",
 "C94": "The tables agree (C94_tables), but the code uses the data rate as chip-pair rate (C94_frequency): the chip rate is right exactly for rate mode 3 outside 2450 MHz (C94_exact_partial), too low by the spreading of the mode otherwise (C94_slow_refuted, every signal), so preamble and header of two rate modes are always sent at different rates (C94_header_refuted).",
 "C95": "Timing by the strongest correlation with the pulse (its circular autocorrelation is strictly largest at 0, for every samples_per_symbol), gain by the known preamble, then the receiver of C93 on the chips. Payloads of 8 octets or more lose bits before they are sent (C55).",
 "C96": "Proved for pilots given as lists (C96_lists_partial, every history). Arrays are kept by reference: the object behaves as one built from their present contents (C96_present), so a later store changes the pilots sent (C96_values_refuted, every object and message) or makes every message fail (C96_indices_refuted).",
 "C97": "C97_estimate: correlating the first STF symbol with itself one STF period later gives the offset exactly (through any channel); C97_offset: the frame is received after removing it; C97_limit: the range is sharp for this measurement.",
 "C98": "C98_tracking: arbitrary gain per symbol plus errors bounded relative to it; C98_symbols: samples through multipath with any non-zero gain per symbol and for the LTF; C98_offset: uncorrected carrier offset, any frame length.",
 "C99": "C99_complete: start by threshold, offset by STF, gain and phase by pilots, noise bounded per sample, any frame length, arbitrary samples after the frame; C99_first: exact modulus of the first sample, which the threshold must stay below; C99_case instantiates the hypotheses.",
 "C100": "C100_stream: the bit frame followed by any bits; C100_complete: from noisy samples with unknown start, gain, phase and carrier offset (measured on the first two preamble symbols); C100_case instantiates the hypotheses with an offset more than sixteen times the deviation.",
 "C101": "C101_timing, C101_chips, C101_header (all modes and lengths), C101_receiver (DSSS up to 7 octets, longer payloads cannot be recovered, C55); C101_noise: the hypotheses on the noise hold up to a positive level; C101_case instantiates them.",
 "C102": "C102_decoder (the Viterbi decoder returns a compatible input of best agreement), C102_subcarriers (any received subcarriers), C102_noise (any error on the samples below margin/4, cf. C73), C102_multipath (equalised); C102_case instantiates the hypotheses.",
 "C103": "C103_bits (wrong coded bits), C103_garbage (arbitrary values on a list of subcarriers); C103_case instantiates the hypotheses.",
 "C104": "C104_decoder (the Viterbi decoder returns an allowed input of least cost), C104_bits (two wrong bits), C104_hunt (with the delimiter search of C87); C104_case: two wrong bits that the receiver of C17 misreads.",
 "C105": "C105_noise (any error on the samples after the delimiter below margin/4, cf. C75); C105_case instantiates the hypotheses.",
 "C106": "C106_fsk, C106_ofdm, C106_oqpsk for any perturbation within the bound; C106_fsk_quantised, C106_ofdm_quantised for rounding of I and Q; C106_half_sine for the bound of the half-sine bands. This bounds the effect of the floating-point arithmetic of the samples, which the model does not compute. C106_case (and C85_case, C90_case) instantiate the hypotheses.",
 "C107": "C107_header for every mode and size, C107_receiver for DSSS payloads of one interleaver block. The Viterbi decoder is that of SVit, on hard decisions. C107_case: hypotheses met by a frame in which every group has wrong chips and two of the header and two of the payload are lost, where the receiver of C91 is misled. Payloads of 8 octets or more: see C55.",
 "C108": "C108_receiver: explicit receiver (forward inversion of the code for the first 63 bits, backward from the zero tail for the last ones), sizes for which the code sends a frame (see C54); C108_nothing_else: what it does not return is not in the frame (with C55_exact_partial). C108_case: 93 octets in a mode that spreads four bits at a time, wrong chips in every group.",
 "C109": "C109_header (all modes and sizes), C109_receiver (DSSS up to 7 octets), C109_replaced: samples replaced by any others. Matched filter of C90 followed by the receiver of C107. C109_sizes: the numbers of chip pairs; C109_case: an instance.",
 "C110": "C110_bits: lost bits are known to be lost; C110_silence: the soft receiver of C105, unchanged (silence makes all tones equally likely). C110_sharp: for both interleaver settings two payloads whose frames agree outside one bit more.",
 "C111": "C111_airtime: the duration, proved as stated. bits_per_symbol() is right exactly for MCS 3 to 6 (C111_bits_per_symbol_partial) and 4 or 2 times too large for MCS 0 to 2 (C111_bits_per_symbol_refuted), because it leaves out the frequency spreading.",
 "C112": "C112_copies: any choice of copies. C112_lower, C112_upper: one end of the band. C112_multipath: the receiver chooses by what it measures on the LTF; C112_multipath_case is a channel with two nulls on subcarriers in use. C112_noise: the same with errors on the LTF and on the symbols; only the best copy of each point has to be good enough.",
 "C113": "C113_airtime gives the duration (number of samples over frequency), the sample count and the frequency. The whitening and FEC options are those of the object; C113_case is a 176-symbol frame of 50 kbit/s 2FSK.",
 "C114": "C114_chips: every signal lasts half a nominal symbol per chip, and the last pulse. C114_airtime_partial gives the duration of DSSS frames exactly: the airtime of the standard times the chips per coded bit. C114_exact_partial: as claimed in rate mode 3 outside 2450 MHz. C114_slow_refuted: at least twice too long in every other mode. C114_mdsss_refuted: with MDSSS the airtime is the same for all octet counts. The sampling frequency is computed from the data rate instead of the chip rate (C94).",
 "C115": "C115_axes: every sample but those of C79. C115_peak: the bound for whole signals. C115_attained: the bound is reached in every such signal. Needs |cos(pi u/2)| <= |1-u^2| for all u, so the raised-cosine formula never exceeds 1.",
 "C116": "C116_symbols: DFT of the useful part of every header and payload symbol. C116_training: DFT of the LTF. C116_stf: DFT of the first three symbols of the STF (the second half of the fourth is negated: C42_stf). C116_used: power of every other subcarrier of every symbol. The spectrum between subcarriers (side lobes) is not part of the claim."
}