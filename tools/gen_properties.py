import json
P=[]
def p(title, statement, quantifier, why, anchors):
    P.append(dict(id="C%02d"%(len(P)+1), title=title, statement=statement, quantifier=quantifier, why_tests_cant=why, anchors=anchors))
B="sun_phy/tools/bits.py"; PN="sun_phy/tools/pn9.py"; OP="sun_phy/tools/operations.py"; MO="sun_phy/tools/modulations.py"
RE="sun_phy/mr_ofdm/rate_encoder.py"; FI="sun_phy/mr_ofdm/fields.py"; OF="sun_phy/mr_ofdm/ofdm_modulator.py"; MR="sun_phy/mr_ofdm/mr_ofdm_modulator.py"
FS="sun_phy/mr_fsk/mr_fsk_modulator.py"; OQ="sun_phy/mr_o_qpsk/mr_o_qpsk_modulator.py"

# --- inputs
p("Octets become bits LSB-first and losslessly",
  "bytesToIQ(data) behaves as bitsToIQ on exactly 8 bits per octet, least significant bit first, in message order; two octet strings with the same bits are equal; bytes, bytearray, list and 1-D ndarray inputs holding the same octets are treated identically.",
  "every non-empty sequence of octets, in every accepted container, for the three modulators",
  "octet strings are unbounded in length and content; tests use one or two literals", [B+":to_binary_array", FS+":bytesToIQ", MR+":bytesToIQ", OQ+":bytesToIQ"])
p("Malformed payloads are rejected with TypeError/ValueError before anything is emitted",
  "An empty payload, an octet outside 0..255, a bit outside [0,1], a multi-dimensional array, a str or any other type makes bytesToIQ/bitsToIQ raise TypeError or ValueError; every accepted bit payload consists of bits 0/1 and every accepted integral element keeps its value.",
  "every Python argument (any container, any length, any numeric content)",
  "the argument space is unbounded; the boundary cases are a handful of points a sample will miss", [B+":check_binary_array", B+":to_binary_array"])
p("bitsToIQ accepts only genuine bits",
  "A payload given to bitsToIQ that contains a value other than 0 or 1 is rejected (never silently turned into another payload).",
  "every list/array of numbers", "needs all numeric contents, including non-integers", [B+":check_binary_array"])
# --- PN9
p("PN9 generator obeys its recurrence for every seed",
  "From any integer seed the n-th output of the generator is the XOR of the outputs 9 and 4 positions before it (the seed's nine low bits standing for the nine outputs before the first); only the nine low bits of the seed matter and the register stays a 9-bit value.",
  "every integer seed and every output position", "infinitely many seeds and positions", [PN+":Pn9.next", PN+":Pn9.nextN"])
p("PN9 has period exactly 511",
  "From every seed with a non-zero low 9-bit part the output sequence repeats after 511 outputs and after no smaller number of them, visits every non-zero 9-bit register value, and holds 256 ones and 255 zeros per period; a zero seed yields zeros forever.",
  "every seed, every position", "a test looks at a prefix from one seed", [PN+":Pn9"])
p("PN9 can be stopped, saved and resumed",
  "Drawing a+b values equals drawing a values and then b values; a new generator seeded with get_current_value continues the sequence; reset() returns to the construction seed and reset(s) behaves as a new generator seeded with s, whatever was drawn before.",
  "every seed, every split and every history of draws and resets", "histories are unbounded", [PN+":Pn9.nextN", PN+":Pn9.reset", PN+":Pn9.get_current_value"])
p("Whitening is a self-inverse position-wise XOR",
  "Scrambling keeps the length, XORs position i with the i-th PN9 value whatever the data (so a prefix is scrambled the same alone or inside a longer message) and scrambling twice with one seed returns the message; flipped bits stay where they are.",
  "every bit message of every length and every seed", "unbounded messages", [OP+":scrambler"])
# --- FSK
p("MR-FSK construction accepts exactly the documented parameter sets",
  "Mr_fsk_modulator(...) succeeds exactly when every argument has its documented type and range, raises TypeError for a wrong type and ValueError for a wrong value, reporting the first offending argument in order, and a success stores a usable configuration.",
  "every combination of Python values for the ten arguments", "the argument space is infinite", [FS+":Mr_fsk_modulator.__init__"])
p("MR-FSK header carries its fields recoverably",
  "The 16-bit PHR has mode-switch and reserved bits 0, the FCS type, the whitening flag and the PSDU octet count MSB first; it is produced exactly for counts 0..2047 and ValueError is raised for larger ones; different (FCS type, whitening, count) give different headers.",
  "every configuration and every payload length", "all lengths, including the 2047/2048 boundary in combination with every flag", [FS+":_PHR", FS+":_bin"])
p("MR-FSK FEC is uniquely decodable",
  "With either convolutional scheme, header and payload are recoverable from the coded stream: different data of equal length give different coded streams, and coding keeps prefixes (the code of a prefix is a prefix of the code).",
  "every bit stream and both schemes", "unbounded streams", [FS+":_FEC"])
p("MR-FSK FEC tail always flushes the encoder",
  "After the three tail bits the encoder memory is zero whatever header and payload were coded, for both schemes.",
  "every bit stream and both schemes", "every reachable encoder state at the end of an unbounded input", [FS+":_FEC", FS+":RSC_TAIL_BITS", FS+":NRNSC_TAIL_BITS"])
p("MR-FSK FEC has free distance 6",
  "The coded (data + tail) streams of two different equal-length data streams differ in at least 6 positions, and some pair differs in exactly 6.",
  "every pair of different streams of every equal length, both schemes", "pairs of unbounded streams", [FS+":_FEC"])
p("MR-FSK interleaver always fits octet payloads",
  "For every octet payload the coded header+payload+tail+pad fills whole 32-bit interleaver blocks, so interleaving never fails; for a bit payload it raises ValueError exactly when the bit count is not a multiple of 8.",
  "every payload length", "all lengths", [FS+":_FEC", FS+":_interleaver"])
p("MR-FSK interleaver is a self-inverse permutation of bit pairs",
  "Interleaving keeps the length, moves 2-bit symbols only inside their 32-bit block, applying it twice gives the input back, and two neighbouring symbols of the output come from positions at least 4 symbols apart in the input block or a wrap of the 4x4 array.",
  "every stream made of whole blocks", "unbounded streams", [FS+":_interleaver"])
p("MR-FSK whitening leaves SHR and PHR readable",
  "The whitening flag changes only bits after the (coded) PHR: the SHR and PHR parts of the frame equal those of the same frame with the payload part whitened or not, apart from the whitening flag in the PHR itself, and the payload part is the PN9-XOR of the unwhitened one.",
  "every configuration and payload", "all payloads and configurations", [FS+":bitsToIQ", OP+":scrambler"])
p("MR-FSK frame layout and length",
  "The bit frame is preamble repeated phyFSKPreambleLength times, the SFD selected by modulation/SFD group/FEC, then the PHR+PSDU part; its length is the documented function of the parameters and payload length.",
  "every configuration and payload", "all preamble lengths and payload lengths", [FS+":_SHR", FS+":bitsToIQ"])
p("MR-FSK frame round trip",
  "A receiver that knows the configuration recovers from the transmitted bit frame the exact payload, its octet count, the FCS type and the whitening flag.",
  "every configuration accepted by the constructor and every payload of 1..2047 octets", "the product of configurations and unbounded payloads", [FS+":bitsToIQ", FS+":_FEC", FS+":_interleaver", FS+":_PHR"])
p("MR-FSK symbols map to distinct frequencies",
  "Each symbol occupies 20 samples of one frequency; 2FSK maps 0/1 to -/+ h*Rs/2; 4FSK maps 01,00,10,11 to -3,-1,+1,+3 times h*Rs/2, neighbours differing in one bit; so the bit frame is recoverable from the frequencies.",
  "every bit frame, symbol rate and modulation index", "all frames and rates", [FS+":_FSKModulator"])
p("MR-FSK accepts every legal payload",
  "For every accepted configuration and every payload of 1..2047 octets bytesToIQ returns a signal (20 samples per symbol) and does not raise.",
  "every configuration and every payload of 1..2047 octets", "a failure depends on floating-point rounding of one particular length/rate pair", [FS+":_FSKModulator"])
p("MR-FSK has continuous phase",
  "The phase of the emitted signal does not jump at symbol boundaries (CPFSK).",
  "every bit frame and modulation index", "depends on every symbol position", [FS+":_FSKModulator"])
p("MR-FSK mode switch produces a signal",
  "modeSwitchToIQ with valid arguments returns the IQ signal of a mode-switch PPDU.",
  "every argument pair", "must hold for every argument", [FS+":modeSwitchToIQ", FS+":_PHR_mode_switch"])
p("MR-FSK modulator has no memory between frames",
  "The signal returned for a payload depends only on the construction parameters and that payload, not on payloads sent before on the same object, including ones that raised.",
  "every history of calls on one object", "histories are unbounded", [FS+":bitsToIQ"])
# --- OFDM coding
p("Rate-1/2 encoder is the (133,171) code",
  "Output pair n is the XOR of the input taps n,n-2,n-3,n-5,n-6 and n,n-1,n-2,n-3,n-6, earlier inputs being read from the seed; A, B and the interlaced output agree.",
  "every input sequence, position and seed", "unbounded sequences", [RE+":Rate_one_half"])
p("Rate-1/2 encoding is linear, streamable and invertible",
  "Encoding in pieces on one encoder equals encoding the concatenation; XOR of inputs gives XOR of outputs (zero seed); the input is recoverable from the output; six zeros return the encoder to the zero state.",
  "every sequence and every split", "unbounded sequences", [RE+":Rate_one_half.sequence"])
p("Rate-1/2 code has free distance 10",
  "Two different equal-length messages followed by six zero bits have coded forms differing in at least 10 positions, and some pair in exactly 10.",
  "every pair of different messages of every equal length", "pairs of unbounded messages", [RE+":Rate_one_half", OQ+":_FEC"])
p("Rate-3/4 encoder punctures correctly and stays invertible",
  "For inputs whose size is a positive multiple of 3 the output is A1 B1 A2 B3 of each triple of the rate-1/2 code, of size 4/3, and determines the input; sizes that are not a multiple of 3 raise ValueError and an empty input fails too.",
  "every input sequence", "unbounded sequences", [RE+":Rate_three_quarter"])
p("Encoder reset equals a fresh encoder",
  "After reset(s) the rate-1/2 encoder behaves as a newly constructed one with seed s.",
  "every seed and every history", "all seeds", [RE+":Rate_one_half.reset", RE+":Rate_one_half.__init__"])
p("MR-OFDM interleaver is a permutation of each block",
  "For every MCS, option and interleaving depth, interleaving rearranges bits inside blocks of N_cbps bits following the two-step permutation of the standard and can be undone, for payloads of any number of blocks.",
  "every accepted configuration and every coded stream of whole blocks", "all block counts", [MR+":_interleaver"])
p("MR-OFDM PHR carries its fields recoverably",
  "The PHR holds rate, frame length and scrambler seed MSB first at bits 0-4, 6-16, 19-20, the HCS at 22-29, all others zero; the triple is recoverable; it is built exactly for 1..2047 octets and ValueError is raised otherwise.",
  "every MCS, scrambler seed, payload length", "all values and boundary 2047/2048", [FI+":PHR", FI+":_uintarr"])
p("MR-OFDM HCS is the CRC-8 of the header",
  "The header check sequence computed with real-coefficient polynomial division equals the GF(2) CRC with generator x^8+x^2+x+1, all-ones preset and complemented output.",
  "every 22-bit header", "all headers; the implementation is not modular arithmetic", [FI+":HCS_calculation"])
p("Header check sequences detect errors",
  "Any error pattern of 1, 2 or 3 bits, any odd number of bits, or any burst of at most 8 bits in the protected header+HCS is detected, for MR-OFDM and MR-O-QPSK headers.",
  "every header and every such error pattern", "header/error products", [FI+":HCS_calculation", OQ+":_PHR"])
p("MR-OFDM PHR always occupies the standard number of symbols",
  "The PHR occupies the number of OFDM symbols prescribed for (interleaving, option), whatever the payload MCS.",
  "every accepted configuration and length", "must hold in every configuration", [MR+":_PHR", MR+":PHR_N_SYMBOLS"])
p("MR-OFDM payload padding is minimal and symbol-aligned",
  "Payload + 6 tail bits + padding is the least multiple of the data bits per symbol-group; padding bits are zero before scrambling.",
  "every configuration and payload length", "all lengths", [MR+":_padding"])
p("MR-OFDM tail bits are zero after scrambling",
  "The six bits following the payload are zero when entering the convolutional encoder, so the encoder is flushed at the end of the PSDU.",
  "every configuration and every payload", "fails only at isolated lengths", [MR+":_payload"])
p("Constellations are injective, Gray and unit power",
  "BPSK/QPSK/16-QAM map different bit groups to different points, nearest neighbours differ in one bit, the mean power times the squared modulation factor is 1, and the mapping acts group by group in order.",
  "every bit sequence of a suitable size", "unbounded sequences", [MO+":BPSK", MO+":QPSK", MO+":QAM16", MR+":K_MOD"])
p("Frequency spreading repeats data recoverably",
  "With spreading 2 or 4 each half/quarter of the data tones carries every data point rotated by a fixed quarter-turn phase depending only on tone index, so each copy alone determines the data and has the same power.",
  "every symbol matrix", "all data", [OF+":_frequency_spread"])
p("OFDM symbol assembly is lossless and collision-free",
  "For each option and each pilot set, pilots, data, DC and guard tones are disjoint and cover the FFT; data tones are filled in increasing frequency order and can be read back; DC and guards are zero.",
  "every option, every number of symbols and every data matrix", "unbounded number of symbols", [OF+":_add_pilots_and_padding", MR+":PILOTS_INDICES"])
p("Pilots continue across PHR and payload",
  "Symbol n of a frame (counted from the first PHR symbol) uses pilot set n mod S and the pilot values PN9[n*P .. n*P+P-1] from seed 0x1FF, with no restart between PHR and payload.",
  "every configuration, payload and symbol index", "unbounded symbol index", [OF+":_add_pilots_and_padding", MR+":_payload"])
p("Ofdm_modulator can be fed in pieces",
  "Calling bitsToIQ on consecutive whole-symbol pieces of a message yields the concatenation equal to one call on the whole message, and leaves the object in the same pilot state.",
  "every configuration and every split into whole symbols", "histories are unbounded", [OF+":bitsToIQ"])
p("Ofdm_modulator rejects partial symbols without side effects",
  "A bit count that is not a multiple of the bits per symbol raises ValueError and leaves the pilot state unchanged unless pad is requested, in which case fewer than one symbol of zeros is appended.",
  "every bit count", "all lengths", [OF+":bitsToIQ", OF+":_split_message"])
p("OFDM time-domain symbols: cyclic prefix and lossless IFFT",
  "Every emitted symbol is the last quarter of its N_FFT samples followed by these samples; the forward DFT of the latter returns the subcarriers, and the energy is preserved.",
  "every symbol of every frame (exact arithmetic)", "all subcarrier contents", [OF+":_ifft", OF+":_cyclic_prefix"])
p("MR-OFDM training fields have the documented structure",
  "STF is four identical cyclic-prefixed symbols with the last half symbol negated; LTF is a half-symbol prefix and two identical symbols; both depend on the option only.",
  "every configuration and payload", "all frames", [MR+":_STF", MR+":_LTF"])
p("MR-OFDM frame length in samples",
  "The number of samples of a frame is the documented function of option, MCS, interleaving and payload length, and no accepted configuration raises for 1..2047 octets.",
  "every accepted configuration and every payload length", "all lengths", [MR+":bitsToIQ"])
p("MR-OFDM frame round trip",
  "From the samples of a frame a receiver knowing option and interleaving recovers MCS, scrambler seed, frame length and the exact payload.",
  "every accepted configuration and every payload of 1..2047 octets (exact arithmetic)", "product of configurations and payloads", [MR+":bitsToIQ"])
p("MR-OFDM construction accepts exactly the supported combinations",
  "Construction succeeds exactly for supported MCS/option pairs, interleaving 0/1 and scrambler 0..3; unsupported pairs raise UnsupportedError and other bad values raise ValueError.",
  "every combination of argument values", "infinite argument space", [MR+":Mr_ofdm_modulator.__init__"])
p("MR-OFDM modulator has no memory between frames",
  "The samples returned for a payload depend only on construction parameters and payload, whatever was sent (or failed) before on the object.",
  "every call history", "unbounded histories", [MR+":bitsToIQ"])
# --- O-QPSK
p("MR-O-QPSK header carries its fields and the CRC-8",
  "The 24-bit PHR holds spreading mode, rate mode, zeros, the octet count MSB first and the CRC-8 (x^8+x^2+x+1, zero preset) of the first 16 bits; it is built exactly for counts 0..2047.",
  "every mode and length", "all lengths and modes", [OQ+":_PHR"])
p("MR-O-QPSK FEC equals the MR-OFDM rate-1/2 code with zero tail",
  "FEC output equals the rate-1/2 encoder applied to data followed by six zeros (header) or zeros up to a multiple of 63 bits (payload), so it is uniquely decodable.",
  "every data stream", "unbounded streams", [OQ+":_FEC", RE+":Rate_one_half"])
p("Bit-differential encoding is reversible",
  "Each output is the input XOR the previous output (reference bit first); decoding by XOR of neighbours returns the data; with the periodic-reset option every M-th bit is sent as is.",
  "every message, reference bit and M", "unbounded messages", [OQ+":_BDE"])
p("DSSS spreading is lossless",
  "Each group of k bits is replaced by its chip code (alternating between the two tables where prescribed), all codes of a table are distinct with 0/1 codes complementary, and despreading returns the bits; it raises ValueError exactly if the bit count is not a multiple of k.",
  "every message and every table used", "unbounded messages", [OQ+":_DSSS", OQ+":DSSS"])
p("MR-O-QPSK interleaving preserves all coded bits",
  "Header and payload interleaving only rearrange coded bits; nothing is lost or duplicated.",
  "every payload length", "the failure needs more than one interleaver block", [OQ+":_interleaver"])
p("Pilot insertion is regular and removable",
  "A pilot sequence precedes every block of MP chips (last block possibly shorter), nothing else is inserted, and removing the pilots returns the chips.",
  "every chip sequence and band", "unbounded chip sequences", [OQ+":_insert_pilots"])
p("Pilot and spreading sequences agree",
  "In each band the pilot sequence equals the SHR spreading sequence for bit 0 of that band.",
  "every band", "table consistency over all bands and positions", [OQ+":PILOT_SEQUENCES", OQ+":DSSS"])
p("MR-O-QPSK accepts every legal payload",
  "For each accepted band/rate/spreading combination and every payload of 1..2047 octets bytesToIQ returns a signal.",
  "every combination and payload length", "failures depend on length modulo the interleaver size", [OQ+":bitsToIQ", OQ+":_DSSS", OQ+":_TPC"])
p("MR-O-QPSK payloads are distinguishable",
  "Different payloads of equal length yield different signals, so a receiver can recover the payload.",
  "every combination and pair of payloads", "pairs of unbounded payloads", [OQ+":bitsToIQ", OQ+":_interleaver", OQ+":_spreading_multiplexing"])
p("MR-O-QPSK DSSS frame round trip for single-block payloads",
  "For payloads of 1..7 octets in every DSSS mode that accepts them a receiver recovers mode, length and payload from the chip sequence.",
  "every band, rate mode with bit-wise spreading and payload of 1..7 octets", "all payload contents", [OQ+":bitsToIQ"])
p("MR-O-QPSK waveform is one scaled pulse per chip pair",
  "Sample block j of the output is (chip[2j] + i chip[2j+1], as +-1) times the pulse (wherever the formula of the pulse has a value), followed by samples_per_symbol-1 zeros; the number of samples is chips/2*sps + sps - 1.",
  "every chip sequence and samples_per_symbol >= 1", "unbounded chip sequences", [OQ+":_o_qpsk_modulator"])
p("Quadrature chips are offset by half a symbol",
  "As the O in O-QPSK says, odd chips are delayed by one chip period with respect to even chips.",
  "every chip sequence and samples_per_symbol", "all chip sequences", [OQ+":_o_qpsk_modulator"])
p("MR-O-QPSK rejects unsupported parameters at construction",
  "Construction fails for every unsupported combination (MDSSS on a band without it, rate mode outside 0..3, spreading mode outside 0..1).",
  "every combination of arguments", "infinite argument space", [OQ+":Mr_o_qpsk_modulator.__init__"])
p("MR-O-QPSK modulator has no memory between frames",
  "The signal depends only on construction parameters and payload.",
  "every call history", "unbounded histories", [OQ+":bitsToIQ"])
p("MR-FSK FEC codes are those of the standard",
  "The coded stream of scheme 0 is, pair by pair, the complemented sums of input taps n,n-2,n-3 and n,n-1,n-2,n-3 over data, three zero bits and padding; that of scheme 1 is the recursive systematic code with feedback n-1,n-2,n-3 and parity taps n,n-2,n-3, whose three tail bits drive the recursion to zero.",
  "every data bit string of any length", "unbounded data; the recursion depends on the whole past", [FS+":Mr_fsk_modulator._FEC"])
p("MR-O-QPSK pulses are sampled at the returned frequency",
  "Consecutive samples of a pulse in the returned signal are 1/f seconds apart, f being the returned sampling frequency.",
  "every message, band and samples_per_symbol", "every message and parameter", [OQ+":_o_qpsk_modulator", OQ+":half_sine"])
p("MR-O-QPSK samples determine the chips",
  "Two messages sent by modulators built alike give the same samples only if they have the same chips, for every samples_per_symbol >= 1.",
  "every pair of messages, band, rate mode, samples_per_symbol and call history", "ranges over all pairs of messages", [OQ+":_o_qpsk_modulator", OQ+":raised_cosine"])
p("MR-O-QPSK payload goes out at the data rate of the mode",
  "At the returned sampling frequency a DSSS payload of n octets lasts 8n/(data rate of the mode) seconds, up to the pilots and a fixed overhead.",
  "every payload, band, rate mode and samples_per_symbol", "all payload lengths and modes", [OQ+":_o_qpsk_modulator", OQ+":DATA_RATE"])
p("MR-FSK samples are unit-amplitude tones",
  "Every complex sample returned by the MR-FSK modulator has modulus 1 and equals exp(2 pi i f t), where t is its instant at the returned sampling frequency (20 samples per symbol) and f is the deviation of its symbol: +-h*rate/2 (or +-3h*rate/2).",
  "every constructed object, call history, message", "all messages, rates and rational modulation indices", [FS+":_FSKModulator", FS+":bitsToIQ"])
p("MR-FSK frames survive a frequency discriminator",
  "A receiver that sees the returned samples multiplied by any non-zero complex gain and looks only at the rotation between the first two samples of each symbol recovers every bit of the frame, hence every header field and every payload octet.",
  "every constructed object, call history, payload of 1..2047 octets and complex gain", "ranges over all payloads, indices and gains", [FS+":_FSKModulator", FS+":bytesToIQ"])
p("QPSK follows its documented table on every array, axis and bit order",
  "get_modulator('QPSK', MSB_first, bits_axis).convert maps pairs of bits along the chosen axis to the documented constellation points in either bit order, for 1-D and 2-D arrays of any size; an odd number of bits is refused with an exception.",
  "every array shape and content, axis and bit order", "array shapes and contents are unbounded", [MO+":QPSK.convert", MO+":Modulator.convert"])
p("16-QAM follows its documented table on every array, axis and bit order",
  "get_modulator('QAM16', MSB_first, bits_axis).convert maps groups of four bits along the chosen axis to the documented constellation points, honours the bit order, keeps the layout of the array along the other axis and refuses sizes that are not a multiple of 4.",
  "every array shape and content, axis and bit order", "array shapes and contents are unbounded; small sizes behave differently from large ones", [MO+":QAM16.convert", MO+":Modulator.convert"])
p("BPSK works on every kind of argument and modulators are constructed only from valid arguments",
  "BPSK maps numbers, lists and arrays of any shape elementwise to -1/+1 and refuses anything else; get_modulator returns the modulator of the given name, bit order and axis and raises ValueError for an unknown name, a non-boolean order or a non-integral or negative axis.",
  "every argument", "infinite argument space", [MO+":BPSK.convert", MO+":get_modulator", MO+":Modulator.__init__"])
p("Numbers to bits and back",
  "to_bin writes a number on exactly width bits in the requested order; to_int with the same order reads it back.",
  "every width, every number that fits", "all numbers and widths", [B+":to_bin", B+":to_int"])
p("Rate-3/4 code has free distance 5 and can be fed in pieces",
  "From any seed, two different messages of equal length followed by the same six or more bits (the tail) are coded by the rate-3/4 encoder into bit strings that differ in at least 5 places, and 5 is reached; feeding an encoder whole triples in several calls gives the same bits as one call.",
  "every seed, pair of messages of any length, tail and cut", "pairs of unbounded messages", [RE+":Rate_three_quarter"])
p("Rate-3/4 encoder returns the A and B sequences of its input",
  "Like the rate-1/2 encoder, sequence() of the rate-3/4 encoder returns next to the coded bits the A and B output sequences of the whole input.",
  "every seed and input", "all inputs", [RE+":Rate_three_quarter"])
p("MR-OFDM frames tolerate noise up to a known margin",
  "Two different frames (different MCS, scrambler seed or payload, same OFDM option and interleaving) give signals whose difference has an energy of at least a margin that depends only on the MCS of the first (160, 80, 40, 20, 10, 4, 2 for MCS 0..6, data subcarriers having mean energy 1); hence whatever noise of energy below a quarter of the margin is added, the frame sent is strictly closer to the received samples than any other frame.",
  "every pair of reachable objects with the same option and interleaving, every pair of payloads of 1..2047 octets, every noise", "ranges over all pairs of frames and all noise sequences", [MR+":bytesToIQ", MR+":_payload", RE, OF])
p("MR-FSK coded frames tolerate two bit errors",
  "With FEC enabled, two frames with different payloads or FCS types (same modulation, preamble, SFD, FEC scheme, interleaving and whitening; payload sizes may differ) differ in at least six of the bits they both have; hence a frame received with at most two wrong bits is strictly closer to the frame sent than to any other one.",
  "every pair of reachable objects, every pair of payloads of 1..2047 octets, every pattern of two errors", "ranges over all pairs of frames", [FS+":bytesToIQ", FS+":_FEC", FS+":_interleaver"])
p("MR-FSK signals tolerate noise up to a known margin",
  "Each symbol in which two transmissions use different tones costs at least 3 units of energy (every sample has energy 1), for every modulation index; so two frames with different contents are at least 3 apart without FEC, 18 with FEC and 2FSK, 9 with FEC and 4FSK, and whatever noise of energy below a quarter of that is added, the frame sent is strictly closer to the received samples than any other frame.",
  "every pair of reachable objects that agree on the receiver's knowledge, every pair of payloads of 1..2047 octets, every noise", "ranges over all pairs of frames, all modulation indices and all noise sequences", [FS+":bytesToIQ", FS+":_FSKModulator"])
p("MR-OFDM symbols have bounded energy and samples bounded amplitude",
  "Every header symbol (cyclic prefix apart) has energy equal to the number of data and pilot subcarriers; so has every payload symbol with MCS 0..4, and with 16-QAM the energy of the data part stays between 1/5 and 9/5 of that; no sample of a frame, training fields included, exceeds in modulus the value reached with all subcarriers in phase.",
  "every reachable object, payload and call history", "ranges over all payloads and all contents of the subcarriers", [MR+":bytesToIQ", OF+":subcarriersToIQ", MR+":_STF", MR+":_LTF"])
p("MR-O-QPSK frames tolerate chip errors",
  "Two frames of one band whose headers say something different (rate mode, spreading mode or payload length) differ in at least 5 times as many chips as the band spends on a header bit (40 or 80), and two DSSS frames with the same header and different payloads of at most 7 octets in at least 5 times the chips of a payload bit (10 when the payload is not spread); hence a frame received with fewer than half that many wrong chips is strictly closer to the frame sent than to any other one.",
  "every pair of reachable objects of one band, every pair of payloads, every pattern of chip errors", "ranges over all pairs of frames", [OQ+":bytesToIQ", OQ+":_FEC", OQ+":_interleaver", OQ+":_DSSS", OQ+":_BDE"])
p("MR-O-QPSK signals tolerate noise up to a known margin",
  "Every chip contributes the energy of the pulse to the signal and every chip in which two transmissions (same band and samples_per_symbol) differ four times that to their difference; the energy of the half-sine pulse is samples_per_symbol/4; hence whatever noise of energy below that of the chips in which two frames must differ is added, the frame sent is strictly closer to the received samples than any other frame.",
  "every pair of reachable objects, every pair of messages and every noise", "ranges over all pairs of frames and all noise sequences", [OQ+":_o_qpsk_modulator", OQ+":half_sine", OQ+":raised_cosine"])
p("The MR-O-QPSK pulse has its proper value at every sampled instant",
  "For every samples_per_symbol each sample of the raised-cosine pulse in the output is the raised cosine at its instant, which has a finite value everywhere.",
  "every message, raised-cosine band and samples_per_symbol", "all numbers of samples per symbol; only multiples of 32 hit the singular instants", [OQ+":raised_cosine", OQ+":_o_qpsk_modulator"])
p("MR-O-QPSK frame layout and length",
  "A frame is the preamble and SFD, the coded header and the coded payload with a pilot before each block; its number of chips is the documented function of band, mode and octet count (header: 60 coded bits; payload: 126 coded bits for each 63 bits begun, times the chips per bit of the mode), and the number of samples follows from it.",
  "every reachable object, mode and payload of 1..2047 octets", "all sizes in all band and mode combinations", [OQ+":bytesToIQ", OQ+":_insert_pilots", OQ+":_DSSS", OQ+":_MDSSS"])
p("bitsToIQ: the header announces exactly the bits sent",
  "When a message of bits is accepted by bitsToIQ of any of the three modulators, eight times the octet count of the frame's header is the number of bits sent, so a receiver can tell the message from any other one.",
  "every reachable object of the three classes and every message of bits that is accepted", "all message lengths, whole octets or not", [FS+":bitsToIQ", MR+":bitsToIQ", OQ+":bitsToIQ"])
p("Ofdm_modulator accepts exactly the documented arguments",
  "The constructor of Ofdm_modulator accepts an integer power of two N_FFT, a known modulation name, integer paddings, spreading factor 1, 2 or 4, and pilots given as increasing indices (one set or one column per set) with values 'pn9', one value per pilot or a single value; anything else raises ValueError; an accepted object has the documented number of bits per symbol and can send every message that fills whole symbols.",
  "every combination of arguments (numbers, strings, arrays of any shape, other objects)", "infinite argument space", [OF+":Ofdm_modulator.__init__", OF+":bitsToIQ"])
p("Ofdm_modulator.bitsToIQ takes one row of bits",
  "bitsToIQ of Ofdm_modulator accepts a list or array whose elements are bits and which has one dimension, or one besides dimensions of size 1, and sends these bits; anything else raises ValueError and leaves the object unchanged.",
  "every object, history and argument of any shape", "array shapes and contents are unbounded", [OF+":bitsToIQ"])
p("The cyclic prefix has the requested length",
  "For every fraction CP between 0 and 1 each symbol produced by Ofdm_modulator is its N_FFT samples preceded by a copy of the last int(N_FFT*CP) of them, for bitsToIQ as for subcarriersToIQ (whose argument is one column of N_FFT values or a two-dimensional array with one symbol per column; any other shape raises ValueError).",
  "every size, fraction, content of the subcarriers and message", "continuous range of fractions and contents", [OF+":_cyclic_prefix", OF+":bitsToIQ", OF+":subcarriersToIQ"])
p("MR-OFDM samples can be received through noise",
  "A hard-decision receiver that knows only the OFDM option and the interleaving mode recovers MCS, scrambler seed and octets from samples with noise, whenever each data subcarrier is off by less than the decision distance of its modulation (1 for BPSK, 1/sqrt 2 for QPSK, 1/sqrt 10 for 16-QAM), in particular whenever the noise energy in the useful part of every symbol is below the square of that distance.",
  "every reachable object, payload of 1..2047 octets, every received sample sequence", "ranges over all frames and all noise sequences", [MR+":bytesToIQ", OF+":bitsToIQ", RE, FI])
p("MR-OFDM samples can be received through multipath with the LTF as reference",
  "After a channel with echoes up to the length of the cyclic prefix (a quarter of a symbol), dividing by the response measured on the LTF gives the channel exactly on every used subcarrier, and the receiver of the previous property recovers the frame if no used subcarrier is cancelled; so does any unknown nonzero gain and phase, and windows taken up to a quarter of a symbol early; with noise in addition, the frame is recovered if the error of each subcarrier stays below a stated multiple of the channel's response there.",
  "every reachable object, payload of 1..2047 octets, every channel response no longer than the prefix, every noise", "ranges over all frames, all channels and all noise sequences", [MR+":_LTF", MR+":bytesToIQ", OF+":_cyclic_prefix", OF+":subcarriersToIQ"])
p("MR-FSK frames can be found from any point of the preamble",
  "A receiver that starts listening at any symbol of the preamble (of any length) and hunts for the first of the four delimiters, allowing one wrong bit, finds the start of the frame, learns the delimiter group and whether FEC is used, even with one wrong bit in each window of a delimiter's length; no earlier position and no other delimiter is taken; it then reads header and payload knowing only modulation, FEC scheme and interleaving.",
  "every reachable object, payload, preamble length, starting symbol and such pattern of wrong bits", "ranges over all frames, preamble lengths, starting points and error patterns", [FS+":bytesToIQ", FS+":_SHR"])
p("MR-FSK survives carrier offset, unknown gain and sample timing",
  "Through any nonzero gain and phase and any carrier offset below the inner deviation, a discriminator that starts at any sample of the preamble other than the last of a symbol reads the frame from that symbol on, and the receiver of the previous property recovers delimiter, FEC flag, header and payload.",
  "every reachable object (every modulation index), payload, gain, offset and starting sample", "continuous ranges of gains and offsets, all frames and starting points", [FS+":_FSKModulator", FS+":bytesToIQ"])
p("MR-FSK symbols can be received one by one through noise",
  "A detector that takes for each symbol the tone nearest to its 20 samples is right for every symbol in which the noise energy is below 3/4 (a sample has energy 1), whatever the modulation index; the symbols it gets wrong are at most those with more noise; if there are none the receiver reads delimiter, FEC flag, header and payload.",
  "every reachable object, payload and received sample sequence", "ranges over all frames, modulation indices and noise sequences", [FS+":_FSKModulator", FS+":bytesToIQ"])
p("MR-O-QPSK frames can be received from their samples with a matched filter",
  "Correlating each chip pair of the received samples with the pulse and taking signs gives at most two wrong chips for each chip pair in which the noise energy reaches the energy of the pulse; with none, preamble, SFD and header (every mode and size) and DSSS payloads of at most 7 octets are read; an unknown nonzero gain and phase is measured exactly on the first chip pair and the frame read likewise.",
  "every reachable object, message, noise and gain", "ranges over all frames, all noise sequences and a continuum of gains", [OQ+":bytesToIQ", OQ+":_o_qpsk_modulator"])
p("MR-O-QPSK despreading corrects chip errors",
  "Despreading each group of chips to the nearest code recovers the bits whenever fewer chips of the group are wrong than half the smallest distance of its table (3, 7, 15, 31 or 63 wrong chips of 8, 16, 32, 64 or 128 for one-bit tables; 1, 2 or 5 for the four-bit tables of 8, 16, 32 chips), pilots aside; so the header of every frame, and DSSS payloads of at most 7 octets, are read in spite of that many errors in every group.",
  "every reachable object, payload, mode and such pattern of chip errors", "ranges over all frames and error patterns", [OQ+":_DSSS", OQ+":bytesToIQ"])
p("MDSSS coding stages keep the payload",
  "The Hadamard matrix of every power-of-two size is symmetric with orthogonal rows of 1 and -1; the Hadamard encoder gives the eight groups of three bits words that differ in at least half of their places; the parity row completes every column of three bits to odd parity; bits of any number are padded and encoded, and different payloads give different chips.",
  "every matrix size, group, bit matrix and payload", "matrix sizes and payloads are unbounded", [OQ+":_hadamard_matrix", OQ+":_hadamard_codeword", OQ+":_hadamard_encoder", OQ+":_SPC_encoder", OQ+":_TPC", OQ+":_MDSSS"])
p("MR-O-QPSK frames can be found from any chip of the preamble",
  "A receiver that starts at any chip of the preamble that leaves one period of its codes aligns itself in spite of 6 (32-chip codes), 7 (920 MHz), 12 (64-chip) or 28 (128-chip) wrong chips in the first period; hunting for the SFD with four wrong bits allowed it finds the start of the header exactly, and takes no earlier position, although up to two codes of any 17 are illegible; it then reads the header of every mode and size, and DSSS payloads of at most 7 octets.",
  "every reachable object, message, starting chip and such pattern of chip errors", "ranges over all frames, starting points and error patterns", [OQ+":bytesToIQ", OQ+":_SHR", OQ+":_DSSS"])
p("MR-O-QPSK uses one chip rate per band",
  "At the returned sampling frequency the chips of every frame of a band leave at the same chip rate whatever the mode (100 kchip/s, 1 Mchip/s or 2 Mchip/s), so that preamble and header can be read before the mode is known; the data rates, the spreading of the modes and that chip rate agree.",
  "every reachable object, message, band, mode and samples_per_symbol", "all modes, messages and sampling factors", [OQ+":_o_qpsk_modulator", OQ+":DATA_RATE"])
p("MR-O-QPSK frames are received from their samples without prior synchronisation",
  "A receiver that knows the band and samples_per_symbol only, and hears the signal through an unknown nonzero complex gain from an unknown sample of the preamble on (one period of it left), finds exactly where the chip pairs begin, the gain, the chips and the SFD, and reads the rate mode, spreading mode and length of every frame, and the payload of DSSS frames of at most 7 octets.",
  "every reachable object, supported mode, payload, gain, first sample heard, and every samples_per_symbol for which the pulse has a value and is not silent", "all gains (a continuum), offsets, payloads and sampling factors", [OQ+":_o_qpsk_modulator", OQ+":bytesToIQ", OQ+":half_sine", OQ+":raised_cosine"])
p("Ofdm_modulator keeps its own settings",
  "Once built, an Ofdm_modulator answers each message as its constructor arguments say, whatever the caller later does with the lists and arrays it passed; the checks made by the constructor hold for its whole life.",
  "every constructor call, every interleaving of stores into the caller's arrays with messages", "all histories of stores and calls", [OF+":Ofdm_modulator.__init__", OF+":_add_pilots_and_padding"])
p("MR-OFDM frames survive a carrier frequency offset",
  "The STF lets a receiver measure the difference between the transmitter's carrier and its own exactly, for any offset below half the spacing of the STF tones (41.7 kHz for option 1, 20.8 kHz for options 2 and 3, 10.4 kHz for option 4) and any multipath channel shorter than the cyclic prefix; once removed, the frame is received. One more STF tone spacing gives the same measurement.",
  "all options, MCS, scramblers, messages, channels shorter than the prefix, real offsets below the limit", "continuum of offsets and channels, all messages", [MR+":_STF", MR+":Mr_ofdm_modulator.bytesToIQ"])
p("The pilots let a receiver follow every symbol of MR-OFDM",
  "Whatever complex gain each OFDM symbol suffers (unknown phase, fading, level jumps), the pilots of that symbol alone are enough to undo it: the frame is received for every sequence of non-zero gains, in the presence of bounded errors, and with an uncorrected small carrier offset for frames of any length.",
  "all options, MCS, scramblers, messages, sequences of gains, channels, error patterns below the bound, frame lengths", "continuum of gains, all messages", [OF+":_add_pilots_and_padding", MR+":Mr_ofdm_modulator.bytesToIQ"])
p("An MR-OFDM frame is found and received with everything unknown",
  "A receiver that knows only the option can find the start of the frame (first sample above a threshold), measure the carrier offset with the STF, follow gain and phase with the pilots and recover MCS, scrambler and octets, from a stream that contains the frame with an unknown gain, an unknown carrier offset and bounded noise on every sample, preceded by anything quieter than the threshold and followed by anything at all. The first sample of a frame has a fixed level, given exactly for each option.",
  "all options, MCS, scramblers, messages, gains, offsets below the limit, noise below the bound, samples before and after", "continuum of gains, offsets and noise, all messages and streams", [MR+":_STF", OF+":_add_pilots_and_padding", MR+":Mr_ofdm_modulator.bytesToIQ"])
p("An MR-FSK frame is found and received with everything unknown",
  "A receiver that knows only the modulation, its index, the FEC scheme and interleaving finds an MR-FSK frame in a stream of samples and recovers delimiter group, FEC flag, FCS type, whitening flag and octets, although start, preamble length, gain, phase and carrier offset are unknown and every sample is noisy; the stream before is anything quieter than a threshold, after the frame anything at all. The offset may be many times the frequency deviation: it is limited by the sampling rate only, because the preamble alternates between opposite tones.",
  "all accepted parameters, messages of 1..2047 octets, gains, offsets below the limit, noise below the bound, samples before and after", "continuum of gains, offsets and noise, all messages and streams", [FS+":Mr_fsk_modulator.bytesToIQ", FS+":Mr_fsk_modulator._FSKModulator", FS+":Mr_fsk_modulator._SHR"])
p("An MR-O-QPSK frame is received with timing, gain, phase, carrier offset and beginning unknown, in noise",
  "A receiver that knows only the band and the samples per chip pair, hearing a frame of MR-O-QPSK from any sample of its preamble on (one period and a chip pair of the preamble left), through an unknown gain and phase, with an unknown carrier offset and noise on every sample, finds where the chip pairs begin from the envelope, measures the offset on one period of the preamble, and recovers every chip, the mode and length, and in DSSS the payload of at most 7 octets. The offset may turn the carrier almost half a turn per chip pair; the noise may be anything below a level that is positive for every pulse and every such offset.",
  "all supported bands and modes, payloads, gains, offsets below the limit, noise below the bound, listening instants", "continuum of gains, offsets and noise, all messages and instants", [OQ+":bytesToIQ", OQ+":_SHR", OQ+":_o_qpsk_modulator"])
p("An MR-OFDM frame is decoded in any noise up to half its distance to other frames",
  "A receiver that knows only the OFDM option and the interleaving, decides each coded bit softly from all the copies of its subcarrier and runs the Viterbi algorithm, returns the MCS, the scrambler and the octets sent, whatever the error on the samples, if its energy is below a quarter of the margin of the MCS (the guarantee for a closest-frame search, achieved by an algorithm whose work is proportional to the length of the frame). The same holds for any subcarriers, however obtained, if the energy of their error is below a quarter of the margin in the header and in the payload.",
  "all configurations, payloads of 1 to 2047 octets, all errors of energy below the bound; every sequence of received values for the decoder", "continuum of noise, all messages", [MR+":Mr_ofdm_modulator.bytesToIQ", RE+":Rate_encoder.sequence"])
p("An MR-OFDM frame survives wrong coded bits, or garbage on a few subcarriers",
  "With hard decisions, a receiver returns the MCS, the scrambler and the octets sent as long as at most 4 coded bits of the header and at most 4 coded bits of the payload (2 at rate 3/4) are wrong, wherever they are; so whatever is received on that many subcarriers' worth of bits (4 BPSK subcarriers, 2 QPSK, 1 16-QAM at rate 1/2), the others being noisy below the decision distance.",
  "all configurations, payloads of 1 to 2047 octets, all positions of the errors and values received there", "all messages, error patterns and values", [MR+":Mr_ofdm_modulator.bytesToIQ", RE+":Rate_encoder.sequence"])
p("A coded MR-FSK frame is read correctly despite two wrong bits",
  "A receiver that runs the Viterbi algorithm on the bits received after the delimiter (through de-whitening and de-interleaving), with work proportional to the length of the frame, returns the FCS flag, the whitening flag and the octets sent if at most two of these bits are wrong, wherever they are. The same holds when it has to find the delimiter itself, listening from any symbol of the preamble on, with at most one wrong bit in any window of the length of the delimiter.",
  "all transmitters with FEC (both schemes, interleaved or not, whitened or not, 2FSK and 4FSK), payloads of 1 to 2047 octets, all positions of the errors, every start of listening", "all messages and error patterns", [FS+":Mr_fsk_modulator.bytesToIQ", FS+":Mr_fsk_modulator._FEC"])
p("A coded MR-FSK frame is read correctly in any noise below a quarter of its distance to other frames",
  "A receiver that compares each symbol received with the tones it can be and runs the Viterbi algorithm on the energies of the differences returns the FCS flag, the whitening flag and the octets sent, whatever the error on the samples after the delimiter, if its energy is below a quarter of the margin (18 for 2FSK, 9 for 4FSK, a sample having energy 1).",
  "all transmitters with FEC, all modulation indices, payloads of 1 to 2047 octets, all errors of energy below the bound", "continuum of noise, all messages", [FS+":Mr_fsk_modulator.bytesToIQ", FS+":Mr_fsk_modulator._FEC"])
p("Frames can be read from samples that are only approximately right",
  "Whatever the rounding of the samples returned (floating point, conversion to single precision, quantisation), the message sent can be read from them if each one is within a fixed absolute error of its exact value: 0.19 for MR-FSK (so I and Q may be rounded to multiples of 1/4), 1/36 for MR-OFDM (multiples of 1/26), and for MR-O-QPSK any error below the root mean square of the pulse (1/2 for half-sine pulses).",
  "all transmitters, all messages (MR-O-QPSK: the header of every frame, the payload of DSSS frames of at most 7 octets), all perturbations within the bound, whatever the number of samples", "continuum of perturbations, all messages", [FS+":Mr_fsk_modulator.bitsToIQ", MR+":Mr_ofdm_modulator.bytesToIQ", OQ+":Mr_o_qpsk_modulator.bytesToIQ"])
p("MR-O-QPSK frames can be read when whole groups of chips are lost",
  "A receiver that despreads to the nearest code and decodes the convolutional code with the Viterbi algorithm reads the modes and the octet count of every frame although two of the 60 groups of header chips are received as anything at all (and the others have correctable chip errors), whatever happens to the preamble and the payload. For DSSS frames of at most 7 octets it reads the payload as well when two of its groups are lost, or four chips where the bits are not spread.",
  "all bands, modes, platforms, payloads (header: every frame of up to 2047 octets; payload: DSSS up to 7 octets), all sets of chip errors within the bound", "all messages and all error patterns", [OQ+":Mr_o_qpsk_modulator.bytesToIQ", OQ+":Mr_o_qpsk_modulator._PHR", OQ+":Mr_o_qpsk_modulator._DSSS"])
p("Everything an MR-O-QPSK DSSS frame contains can be read, whatever its size",
  "One receiver reads, from the chips of every DSSS frame of 1 to 2047 octets, the rate mode, the octet count and every payload bit except those numbered 63 to 54 nb + 2 (nb: interleaver blocks of 63 bits), also when each group of chips has correctable chip errors; the excepted bits can be changed without changing any chip, so no receiver reads more.",
  "all bands, DSSS rate modes, platforms, payloads of 1 to 2047 octets, all chip errors within the bound", "all payloads and sizes, all error patterns", [OQ+":Mr_o_qpsk_modulator.bytesToIQ", OQ+":Mr_o_qpsk_modulator._interleaver", OQ+":Mr_o_qpsk_modulator._DSSS"])
p("MR-O-QPSK frames survive bursts of interference",
  "Whatever is received during a number of consecutive chip pairs anywhere in the frame (silence, another transmission), and with noise of less energy than the pulse in every other chip pair, the modes and the octet count of every frame are read from the samples: 7 chip pairs at 470 and 868 MHz, 15 in the other bands. DSSS payloads of at most 7 octets as well, for a number of pairs depending on the rate mode (1 to 31).",
  "all bands, modes, platforms, messages, samples_per_symbol with a regular pulse, all positions and contents of the burst, all noise within the bound", "continuum of received samples, all messages and positions", [OQ+":Mr_o_qpsk_modulator.bytesToIQ", OQ+":Mr_o_qpsk_modulator._o_qpsk_modulator"])
p("Coded MR-FSK frames survive fades",
  "If consecutive bits of a coded frame are lost (anywhere in the frame), the flags and the octets sent are recovered from the others: 16 bits with interleaving, 7 without. The same holds from the samples, with a receiver that does not know about the fade: during 16 (interleaving) or 7 symbols of 2FSK, 8 or 3 of 4FSK, there is silence, and the energy of the noise on the other symbols after the delimiter is less than 3/4. One lost bit more, and two different payloads can look the same.",
  "all configurations with FEC, all payloads, all positions of the fade, all noise within the bound", "all messages and fade positions, continuum of received samples", [FS+":_FEC", FS+":_interleaver", FS+":Mr_fsk_modulator.bytesToIQ"])
p("MR-OFDM payloads go out at the data rate of the standard",
  "At the returned sampling frequency a frame of n octets lasts 6 training symbols of 120 us, a header whose duration does not depend on the payload, and (8n+6) bits at the data rate of the option and MCS (50 to 800 kbit/s), rounded up to whole symbols, or groups of 4 or 2 symbols when the MCS spreads; bits_per_symbol() is this data rate times 120 us.",
  "all options, MCS, interleaving depths, scramblers, histories and payloads of 1..2047 octets", "all payload lengths and configurations; the returned frequency is a real number", [MR+":Mr_ofdm_modulator.bytesToIQ", MR+":Mr_ofdm_modulator.bits_per_symbol"])
p("MR-OFDM frames can be read from part of the band",
  "Every data point of a header, and of a payload with MCS 0, 1 or 2, is sent several times in its symbol, and one good copy is enough: whatever is received on the other subcarriers, a receiver that picks for each point any copy received within the decision distance recovers MCS, scrambler and octets. In particular the lower half or the upper half of the band is enough (with MCS 0, a quarter). After multipath, picking the copy that is strongest on the LTF recovers the frame unless the channel cancels all copies of some point.",
  "all options, MCS, interleaving modes, scramblers, histories, payloads of 1..2047 octets, all choices of copies, all received values on the other subcarriers, all channels not longer than the prefix", "continuum of received values and channels, all messages", [MR+":Mr_ofdm_modulator.bytesToIQ", OF+":_frequency_spread"])
p("MR-FSK frames last as long as their bits at the symbol rate",
  "The samples of an MR-FSK frame, at the frequency returned with them, last exactly 8 symbols per preamble repetition, 16 for the delimiter, and one symbol per bit (2FSK) or per two bits (4FSK) of header and payload, coded or not, at the symbol rate of the mode. With FEC, every bit of the header, the payload, 3 tail bits and 5 or 13 padding bits becomes two coded bits.",
  "all 2FSK and 4FSK objects, all payloads of 1..2047 octets, all histories of the object", "all messages and options", [FS+":Mr_fsk_modulator.bytesToIQ"])
p("MR-O-QPSK frames last as long as their chips at the chip rate of the band",
  "The samples of an MR-O-QPSK frame, at the frequency returned with them, last as long as the chips of a frame of that mode and octet count at the chip rate of the band, and the rest of the last pulse.",
  "all bands, rate modes, spreading modes, samples per symbol, payloads of 1..2047 octets, all histories of the object, all choices of the pulse outside its domain", "all messages and options", [OQ+":Mr_o_qpsk_modulator.bytesToIQ"])
p("MR-O-QPSK samples have bounded amplitude",
  "No sample of a signal exceeds the square root of 2 in modulus: both axes have the same absolute value, at most 1, at every sample. The bound is reached, whatever the payload, when the samples per symbol are even (raised cosine) or a multiple of 4 (half-sine).",
  "all bands, rate modes, spreading modes, messages and histories of the object; all samples except, in the raised-cosine bands and when samples_per_symbol is a multiple of 32, the two of each symbol of C79", "continuum of pulse values, all messages", [OQ+":Mr_o_qpsk_modulator.bytesToIQ", OQ+":raised_cosine", OQ+":half_sine"])
p("MR-OFDM signals are silent on DC and in the guard bands",
  "In every header and payload symbol, in the long training field and in the first three symbols of the short training field of every frame, the DC subcarrier and the guard subcarriers of the option carry exactly nothing, and every other subcarrier is used: modulus 1 in the long training field and in symbols with BPSK or QPSK, power between 1/5 and 9/5 in symbols with 16-QAM.",
  "all options, MCS, interleaving modes, scramblers, histories of the object, payloads of 1..2047 octets, all symbols, all unused subcarriers", "all messages and histories, every symbol", [MR+":Mr_ofdm_modulator.bytesToIQ", OF+":_add_pilots_and_padding"])
with open('/verif/properties.jsonl','w') as f:
    for x in P: f.write(json.dumps(x,ensure_ascii=False)+"\n")
for x in P: print(x['id'],x['title'])
