# Formal model of sun_phy in Rocq (Coq 8.16.1)

## 1. Trusted base

* **Coq's kernel** (8.16.1), no native_compute, no plugin, no kernel check switched off.
* **Axioms.** No axiom of our own. `Print Assumptions` is run under every property theorem; the table in
  section 6 (regenerated by `tools/gen_assumptions.py`) gives its answer for each of them. Theorems that do not
  talk about samples are *closed under the global context*. Theorems about real or complex samples
  (`Prop_Time`, `Prop_Wave`, `Prop_OqRate`, `Prop_FskWave`, `Prop_FskNoise`, `Prop_FskRx`, `Prop_Gap`, `Prop_Power`, `Prop_OqNoise`, `Prop_OqMf`, `Prop_OqAcq`, `Prop_Pulse`, `Prop_OqRx`, `Prop_MrRx`, `Prop_Cfo`, `Prop_Track`, `Prop_OfdmAcq`, `Prop_FskAcq`, `Prop_OqCfo`, `Prop_Vit`, `Prop_FskVit`, `Prop_Acc`, `Prop_OqVit`, `Prop_OqLong`, `Prop_OqBurst`, `Prop_FskFade`, `Prop_Air`, `Prop_Band`, `Prop_FskAir`, `Prop_OqAir`, `Prop_OqPeak`, `Prop_Silent`, `Prop_OfdmArgs`) use only the three axioms on which the standard library builds
  its real numbers: `ClassicalDedekindReals.sig_not_dec` (N), `ClassicalDedekindReals.sig_forall_dec` (F) and
  `FunctionalExtensionality.functional_extensionality_dep` (E). The theorems of `Prop_Float`
  (binary64 rounding, with Flocq's rounding operators over the reals) use in addition the standard library's
  `Classical_Prop.classic` (C), and so do those of `Prop_OqPeak` (the bounds), `Prop_Cfo`, `Prop_Track`, `Prop_OfdmAcq`, `Prop_FskAcq` and `Prop_OqCfo` that use the standard library's `acos`
  and `sin_lt_x`; Flocq itself declares no axiom. Other names that a library-wide listing may show
  (the sealed `RbaseSymbolsImpl`/`RinvImpl` fields, `ssrunder`) come with
  `Require`d standard-library/Coquelicot files; no property theorem depends on them.
* **The reading of the Python code**: the model files (`M*.v`, `Tables.v`, `Py.v`) are hand-written from the source,
  each definition citing file and lines. `Tables.v` is generated from the literals in `/repo` by
  `tools/gen_tables.py` (which uses Python's `ast` on the source text; nothing of `/repo` is executed). `Vectors.v`
  checks, by computation in the kernel, that the model reproduces the 802.15.4g reference tables shipped in
  `sun_phy/tests/tables` (FSK annex M, OFDM annexes L/N, O-QPSK annex O), the way the project's tests do;
  these are regression tests of the model, not property proofs.
* **The semantics given to numpy/Python primitives** (list in section 3).

## 2. Layout of `/verif/rocq/theories`

| kind | files | content |
|---|---|---|
| substrate | `Py` | exceptions as values (`res`), state monad, Python values, slices, reshape, indexed assignment |
| model | `MBits MPn9 MRate MFields MModul MOfdm MMrOfdm MFsk MOqpsk MTime MWave MFskWave MTools MOfdmArgs MOfdmMem`, `Tables` | the code, function by function; no proofs |
| specification | `SBits SEntry SPn9 SRate SFsk SCrc SOfdm SMrOfdm SOqpsk STime SFloat SGap SFskGap SWave SFskWave SFskRx STools SPower SOqGap SOqRx SOqMf SOqDs SMdsss SOqSync SOqRate SOqAcq SMrRx SCfo STrack SOfdmAcq SFskAcq SOqCfo SVit SFskVit SOqVit SOqLong SOqBurst SFade SAir SBand SAcc SOfdmArgs SOfdmMem` | small independent specifications (recurrences, CRC over GF(2), receivers, layouts, "reachable object") |
| lemmas | `PList PBits PEntry PConv PRate PRate34 PPn9 PFskFec PFsk PPoly PFields PModul POfdm PStd PMrOfdm PMrRx POqpsk POqRun PTime PFloat PGap PFskGap PFskNoise PWave PPower POqGap POqNoise POqAcq POqRx POqCfo PRecv PChannel PCfo POfdmAcq PSync PVit PSoft PBessel PFskVit PFskSoft PFskFade PBand PPeak` | proofs |
| properties | `Prop_*.v` | the theorems `Cxx_...`, each followed by `Print Assumptions`, with `Example`s of non-vacuity |
| regression | `Vectors` | reference vectors |

Objects are records; a method is a function from the record to a new record and a result (`state -> state * res A`), so
that call histories, including calls that raise half way, are lists of method calls. "Reachable object" predicates
(`fsk_object` for MR-FSK, `used` for MR-OFDM, `oq_used` for MR-O-QPSK) say: built by the constructor with these
arguments, then used by any list of public calls, failing ones included.

Naming: `_refuted` = the English claim is false of the code; the theorem is the counterexample (as general as we
could make it: usually *every* input of a class, not one witness). `_partial` = proved on part of the range; the
note in MANIFEST.json says what is missing. A property with a `_refuted` or `_partial` theorem has status "partial".

## 3. What is modelled and how

| code | model | simplifications |
|---|---|---|
| `tools/bits.py` | `MBits` | argument kinds: bytes, bytearray, list, ndarray (any dimension), str, other; numbers are exact rationals (no NaN/inf). |
| `tools/pn9.py`, `tools/operations.py` | `MPn9` | none |
| `tools/modulations.py` | `MTools` (whole module, any shape, axis, order), `MModul` (the one-column form used inside the OFDM model; tied to the former by `C67_columns_agree`) | array elements finite real numbers |
| `mr_ofdm/rate_encoder.py` | `MRate` | none |
| `mr_ofdm/fields.py` and `np.polymul/polydiv/polyadd` | `MFields` | float coefficients are exact integers (they stay below 2^53, proved in `PFields`); the cast of negative floats to uint8 is a parameter of the header of O-QPSK (see C47) |
| `mr_ofdm/ofdm_modulator.py` | `MOfdm` (frequency domain, Gaussian integers), `MTime` (IFFT, cyclic prefix; complex reals), `MOfdmArgs` (constructor and bitsToIQ over Python values of any type and shape), `MOfdmMem` (pilot arrays shared with the caller) | arrays of float indices, 2-D arrays of values and index arrays without columns are not modelled; `math.log(N, 2).is_integer()` is read as "N is a power of two" (in floats math.log(2**29, 2) is not integral: sizes from 2^29 on are outside the model); verbose printing dropped; assignment to the `shape` of a shared array is not modelled |
| `mr_ofdm/mr_ofdm_modulator.py` | `MMrOfdm`, `MTime` | the same |
| `mr_fsk/mr_fsk_modulator.py` | `MFsk` (frames, phases in exact rationals, `np.arange` length in IEEE binary64 via `SpecFloat`), `MFskWave` (samples) | modulation index and symbol rate are rationals (every finite float is one); NaN/inf excluded |
| `mr_o_qpsk/mr_o_qpsk_modulator.py` | `MOqpsk` (chips), `MWave` (pulse shaping over the reals) | the value the raised cosine takes where its formula divides by 0 (samples_per_symbol multiple of 32, C79) is a parameter `glitch` of the model, arbitrary in every theorem; an infinity there is not modelled |

Not modelled: verbose/colour printing; `setup.py`; the tests; getters that only return stored debug attributes
(except where a property needs them); floating-point rounding of sample values (numpy's `exp`, `fft`, `convolve`
are taken exact over the reals) except the one place where rounding decides an observable outcome, the number of
points returned by `np.arange` in the FSK modulator; memory exhaustion and other environment failures; concurrent
use of one object from several threads (the code has no locking and makes no claim). C106 bounds what the rounding of
sample values can do: any computed samples within its (large) bounds of the exact ones carry the same message.

numpy semantics assumed: `reshape(-1, n)` raises ValueError when the size does not divide; slices clip; negative
indices count from the end; shape broadcasting as documented; `np.binary_repr` as in its source; `np.polydiv` as in
its source; `packbits` little-endian; `min()/max()` of an empty array raises ValueError; float -> uint8 casts of integral
values wrap modulo 256 on the platform of the reference tests (and, in one theorem, saturate).

## 4. Method

* lists of any length: structural induction; block codes by automata (finite sweep over the 8 or 64 encoder
  states checked by `vm_compute`, lifted to all messages by induction); free distances by a potential function
  checked on each automaton edge;
* interleavers: finite check per configuration that an index map is a permutation, lifted to any number of blocks;
* CRC: relation between numpy's integer polynomial division and GF(2) division, for all inputs;
* PN9: algebra over the 512 register values, lifted to all integer seeds and all positions;
* frames: receivers written independently (`S*.v`) and proved to invert the transmitter for all objects, payloads
  and call histories;
* time domain: DFT inversion and Parseval by geometric sums of roots of unity over C, for every size.

## 5. Plan and outcome per property

(English statements in `properties.jsonl`, theorem names and caveats in `MANIFEST.json`.)

| id | how it is modelled and proved | outcome |
|---|---|---|
| C01 | `to_binary_array` against `lsb_bits`, list induction; the three `bytesToIQ` | proved |
| C02 | case analysis of every argument kind; the object is not changed when raising | proved |
| C03 | witness in (0,1) | refuted; integral payloads proved |
| C04-C06 | recurrence by bit algebra; period by sweep over 511 states; histories by induction | proved |
| C07 | list induction | proved |
| C08 | constructor on arbitrary Python values, exact acceptance set and first offending argument | proved |
| C09 | header bits against MSB-first fields | proved |
| C10-C12, C61 | FEC automata, tail, potential function (free distance 6), tap equations | proved |
| C13, C14 | block permutation of bit pairs | proved |
| C15-C17 | frame layout; receiver inverts | proved |
| C18 | tones per symbol | proved |
| C19 | binary64 model of `np.arange` (SpecFloat), tied to rounding over the reals (Flocq); raising lengths by computation for each usual rate; exact success criterion; powers of two never fail | refuted; exact criterion proved |
| C20 | phases in turns, rational | refuted for 2FSK (h not integral) and 4FSK (3h not integral); exact condition given |
| C21 | complete behaviour of `modeSwitchToIQ` | refuted |
| C22 | frame depends only on construction parameters, induction over histories | proved |
| C23-C26 | 64-state automaton, taps, streaming, linearity, inversion, free distance 10 | proved |
| C27 | reset does not mask the seed | refuted outside 0..63; proved inside |
| C28 | index map a permutation for each configuration | permutation proved; "of the standard" refuted for 16-QAM |
| C29-C31 | header fields, CRC-8, error detection by minimum-distance sweep and polynomial argument | proved |
| C32 | symbol count of the header | refuted for MCS 4 and 6; proved for the others |
| C33 | padding arithmetic | proved |
| C34 | Python slice `[-N_PAD-6:-N_PAD]` | refuted when N_PAD = 0; exact tail for all payloads |
| C35-C37 | Gaussian-integer constellations, spreading phases, tone bookkeeping (all options and pilot sets) | proved |
| C38-C40 | pilot state threaded through calls | proved |
| C41, C42 | DFT over C; training fields | proved |
| C43, C44 | sample counts; samples determine MCS, seed, payload | proved |
| C45 | constructor | refuted for MCS 7 only |
| C46 | histories | proved |
| C47 | header and CRC, with the platform cast as a parameter | proved (wrapping platforms) |
| C48-C50, C52 | FEC = rate-1/2 code, differential coding, spreading, pilots | proved |
| C51 | interleaver index map | refuted for two or more blocks; proved for one |
| C53 | tables | refuted for 2450 MHz; proved for the others |
| C54 | exact success condition | refuted for odd numbers of blocks in the 4-bit modes |
| C55 | collision construction | refuted from 8 octets on; proved up to 7 |
| C56 | chip-level receiver | proved |
| C57, C58, C62-C64 | convolution with the pulse over the reals | C57 proved; C58, C62 refuted; C63 refuted for 1-2 samples/symbol; C64 refuted when spread |
| C59, C60 | constructor, histories | C59 refuted (exact behaviour given); C60 proved |
| C65, C66 | complex exponentials, frequency discriminator | proved |
| C67-C69 | nd-array model of `modulations.py` | QPSK proved for even sizes, refuted for sizes 1, 3; 16-QAM refuted (order, axis, small sizes); BPSK proved |
| C70 | `to_bin`/`to_int` | `to_bin` proved; round trip refuted (reversed) |
| C71 | potential function over pairs of encoder states for the punctured automaton | proved |
| C72 | returned triple of `Rate_three_quarter.sequence` | refuted for every input of more than one triple |
| C73 | code distances (C25, C71), interleaver = permutation, constellation distance >= 4 per differing bit, spreading = rotations, DFT isometry; parallelogram inequality for the receiver | proved |
| C74 | free distance of the FEC for equal sizes; least weight over 16 further steps (table per state) for different sizes; interleaver = permutation; whitening = XOR | proved |
| C75 | sum of 20 cosines bounded by pairing samples 10 or 2 apart; C74; parallelogram inequality | proved |
| C76 | Parseval on each symbol, value of every subcarrier kind; triangle inequality on the inverse transform for the peak | proved |
| C77 | code distance 10 carried through interleaver (permutation of one block), differential coding (halves at most), spreading (multiplies) and pilots | proved |
| C78 | signal as concatenation of pulses; sums of squares; orthogonality for the half-sine energy; C77 and the parallelogram inequality | proved |
| C79 | exact set of singular samples by arithmetic; limit with Coquelicot; the model takes an arbitrary value there | partial (false of the code for multiples of 32) |
| C80 | length of each part from the run lemmas; layout formula in `SOqRx`; MDSSS output has constant length | partial (false of MDSSS) |
| C81 | header of the run lemmas for any bit count; receiver of C17, frame equality for MR-OFDM, `SOqRx` receiver for MR-O-QPSK | partial (false when the size is not a multiple of 8) |
| C82 | `MOfdmArgs`: constructor over Python values (ints, bools, strings, arrays by shape); case analysis; `SOfdmArgs` = documented arguments | partial (four deviations refuted) |
| C83 | `MOfdmArgs.ofdm_send`: np.squeeze on the list of dimensions | partial (numbers that are not bits; one-bit messages) |
| C84 | `MTime` prefix with a rational CP; DFT analysis of the body | partial (false for 0 < N*CP < 1) |
| C85 | constructive receiver `SMrRx`; `PRecv.receiver_core`: it returns the frame whenever every data subcarrier is within the decision distance; Bessel's inequality (`PChannel.analyse_error`) for the form in sample energies | proved |
| C86 | convolution with a channel no longer than the prefix is multiplication of each subcarrier (`PChannel.window_through`); LTF signs square to 1 on used subcarriers | proved |
| C87 | every window of the preamble and of preamble+SFD is at least 5 bits from every delimiter, the delimiters are at least 4 apart (finite facts, lifted to preambles of any length by periodicity) | proved |
| C88 | phase difference of neighbouring samples = tone + offset; its sign and size decide the symbol (`demodulate`) | proved |
| C89 | two different tones are at least 3 apart in energy over a symbol (C75's bound), triangle inequality | proved |
| C90 | Cauchy-Schwarz: noise of energy below that of the pulse cannot change the sign of a correlation | proved |
| C91 | smallest distance of each table (finite), triangle inequality, group by group | proved |
| C92 | Sylvester construction by induction on log2 of the size; code words from the orthogonality of its rows; parity row by groups of four columns | the matrix proved, the rest refuted, exact conditions proved |
| C93 | the cyclic shifts of the preamble code are pairwise far apart (computed per band), nearest shift by the triangle inequality; SFD windows by distance of the SFD to its shifts through preamble; then C91 | proved |
| C94 | tables by cases; the frequency of every accepted request from the master lemma of the run | tables proved, the claim refuted with the exact condition |
| C95 | strict maximum of the circular autocorrelation of the pulses (zeros of half sine and raised cosine), argmax lemma, correlations of the preamble phases by computation in Z, then C93 | proved |
| C96 | `MOfdmMem`: heap of the caller's arrays, object with copies or references, histories of stores and sends; induction on the history | partial (false for arrays) |
| C97 | `SCfo`: offset, correlation of the STF one period apart, argument, correction; inverse DFT shows the STF periodic, the channel keeps it so; then C86 | proved |
| C98 | `STrack`: mean of the pilots as the gain of a symbol; C38 gives the pilots, error propagation as in C86; for the offset, chord bound on the phase within a symbol and C76 for its energy | proved |
| C99 | `SOfdmAcq`: threshold start, then C97's offset estimate and C98's tracking; Cauchy-Schwarz bounds the noise in the correlation, the energy of the STF is exact (C97), the residual offset feeds the drift lemma of C98 | proved |
| C100 | `SFskAcq`: threshold start, mean turn of a symbol as argument of the correlation of its samples, offset from two preamble symbols, then C87's hunting receiver, cut where the header says; noise bound on the argument as in C99 | proved |
| C101 | `SOqCfo`: timing from the envelope, turns from chip pair to chip pair matched with those of one preamble period, offset as the argument of the match, then quarter-turn decisions and the receiver of C93; the match is checked for all bands and phases in integers, noise bounds as in C99 | proved |
| C102 | `SVit`: soft bits clipped to [-1, 1], mean of the spread copies, Viterbi with known tail and padding. Trellis invariant (each register state keeps a best path), then: changing coded bits costs at least their number minus the energy of the error in units of k^2 sf, free distances of C71/C73, Bessel's inequality from samples to subcarriers | proved |
| C103 | the same decoder on signs: each wrong bit costs 2 of the agreement, free distance 10 or 5; positions of the garbage as an arbitrary list | proved |
| C104 | `SFskVit`: trellis over the register of the code, inputs free / known / flushing the register; header first (32 steps), then the whole frame. Costs carried through interleaver and whitening (both permute or flip bits), distance 6 of C74, triangle inequality | proved |
| C105 | the same decoder with the energies of the differences with the tones as costs; 3 units of energy per wrong tone (C75), parallelogram inequality symbol by symbol | proved |
| C106 | `SAcc`: samples within eps of the exact ones, rounding to multiples of q. Energy of the error per symbol, then the receivers of C85, C89 and C90 | proved |
| C107 | `SOqVit`: the receiver of `SOqDs` with the Viterbi decoder of `SVit` in place of the inverse of the code; groups lost counted. Each lost group gives one wrong bit, two after differential decoding; the free distance 10 (C25) allows four | proved |
| C108 | `SOqLong`: receiver for DSSS frames of any size. Position of each coded bit in the interleaved sequence; the code inverted forwards on the first block and backwards from the tail | proved |
| C109 | `SOqBurst`: consecutive chip pairs received as anything. A burst overlaps at most two groups in more than the correctable number of chips, also after the pilots are taken out; then C107 | proved |
| C110 | `SFade`: lost bits cost nothing; silence costs the same for every tone. A difference of code words that vanishes outside the fade starts and ends at state 0 within the two interleaver blocks the fade can touch (induction on the rest of the frame); states reachable there computed for every offset | proved |
| C111 | `SAir`: table of data rates; frame length of C43 divided by the sampling rate. `bits_per_symbol()` leaves out the spreading | partial: true for MCS 3 to 6, refuted for MCS 0 to 2 |
| C112 | `SBand`: receiver of `SMrRx` reading, for each point, the copy it is told to (turned back). Each copy is the same point turned (spreading of `SOfdm`), turning back preserves distances, then as C44/C85; multipath as C86 with the largest of the measured responses | proved |
| C113 | no new spec: frame length of C16 in symbols (C18), samples and frequency of `MFskWave` (C65) | proved |
| C114 | chip counts of `SOqRx` (C80), rates of `SOqRate` (C94), sample counts of C57 | exact duration proved; refuted except in rate mode 3 outside 2450 MHz |
| C115 | pulses of `SWave`; both factors of the raised cosine bounded by 1 for all times (Taylor bound of cos, sin x <= x), samples by C57 | proved |
| C116 | subcarriers as measured by the receiver of `SMrRx`, unused ones by `guard_or_dc` of `SOfdm`; symbol contents by C41/C44, LTF by C42 | proved |

## 6. Print Assumptions, theorem by theorem

closed = "Closed under the global context"; N = `sig_not_dec`, F = `sig_forall_dec`, E =
`functional_extensionality_dep` (all three from the standard library).

<!-- ASSUMPTIONS BEGIN -->
| theorem | file | axioms |
|---|---|---|
| `C01_bytes_is_bits` | Prop_Bits | closed |
| `C01_containers_agree` | Prop_Bits | closed |
| `C01_lossless` | Prop_Bits | closed |
| `C01_lsb_first` | Prop_Bits | closed |
| `C02_accepted_bits` | Prop_Bits | closed |
| `C02_bits_rejected` | Prop_Bits | closed |
| `C02_bytes_rejected` | Prop_Bits | closed |
| `C03_integers_partial` | Prop_Bits | closed |
| `C03_refuted` | Prop_Bits | closed |
| `C04_nine_bits` | Prop_Pn9 | closed |
| `C04_recurrence` | Prop_Pn9 | closed |
| `C05_period` | Prop_Pn9 | closed |
| `C06_resume` | Prop_Pn9 | closed |
| `C07_prefix_and_errors` | Prop_Pn9 | closed |
| `C07_whitening` | Prop_Pn9 | closed |
| `C08_outcome` | Prop_Fsk | closed |
| `C09_header` | Prop_Fsk | closed |
| `C09_recoverable` | Prop_Fsk | closed |
| `C09_too_long` | Prop_Fsk | closed |
| `C100_complete` | Prop_FskAcq | C E F N |
| `C100_stream` | Prop_FskAcq | closed |
| `C101_chips` | Prop_OqCfo | C E F N |
| `C101_header` | Prop_OqCfo | C E F N |
| `C101_noise` | Prop_OqCfo | E F N |
| `C101_receiver` | Prop_OqCfo | C E F N |
| `C101_timing` | Prop_OqCfo | E F N |
| `C102_decoder` | Prop_Vit | E F |
| `C102_multipath` | Prop_Vit | E F N |
| `C102_noise` | Prop_Vit | E F N |
| `C102_subcarriers` | Prop_Vit | E F N |
| `C103_bits` | Prop_Vit | E F N |
| `C103_garbage` | Prop_Vit | E F N |
| `C104_bits` | Prop_FskVit | E F |
| `C104_decoder` | Prop_FskVit | E F |
| `C104_hunt` | Prop_FskVit | E F |
| `C105_noise` | Prop_FskVit | E F N |
| `C106_fsk` | Prop_Acc | E F N |
| `C106_fsk_quantised` | Prop_Acc | E F N |
| `C106_half_sine` | Prop_Acc | E F N |
| `C106_ofdm` | Prop_Acc | E F N |
| `C106_ofdm_quantised` | Prop_Acc | E F N |
| `C106_oqpsk` | Prop_Acc | E F N |
| `C107_header` | Prop_OqVit | E F |
| `C107_receiver` | Prop_OqVit | E F |
| `C108_nothing_else` | Prop_OqLong | closed |
| `C108_receiver` | Prop_OqLong | closed |
| `C109_header` | Prop_OqBurst | E F N |
| `C109_receiver` | Prop_OqBurst | E F N |
| `C109_replaced` | Prop_OqBurst | E F N |
| `C10_decodable` | Prop_Fsk | closed |
| `C10_decoder` | Prop_Fsk | closed |
| `C10_prefix` | Prop_Fsk | closed |
| `C110_bits` | Prop_FskFade | E F |
| `C110_sharp` | Prop_FskFade | closed |
| `C110_silence` | Prop_FskFade | E F N |
| `C111_airtime` | Prop_Air | E F N |
| `C111_bits_per_symbol_partial` | Prop_Air | E F N |
| `C111_bits_per_symbol_refuted` | Prop_Air | E F N |
| `C112_copies` | Prop_Band | E F N |
| `C112_lower` | Prop_Band | E F N |
| `C112_multipath` | Prop_Band | E F N |
| `C112_noise` | Prop_Band | E F N |
| `C112_upper` | Prop_Band | E F N |
| `C113_airtime` | Prop_FskAir | E F N |
| `C114_airtime_partial` | Prop_OqAir | E F N |
| `C114_chips` | Prop_OqAir | E F N |
| `C114_exact_partial` | Prop_OqAir | E F N |
| `C114_mdsss_refuted` | Prop_OqAir | E F N |
| `C114_slow_refuted` | Prop_OqAir | E F N |
| `C115_attained` | Prop_OqPeak | E F N |
| `C115_axes` | Prop_OqPeak | C E F N |
| `C115_peak` | Prop_OqPeak | C E F N |
| `C116_symbols` | Prop_Silent | E F N |
| `C116_training` | Prop_Silent | E F N |
| `C116_stf` | Prop_Silent | E F N |
| `C116_used` | Prop_Silent | E F N |
| `C11_flush` | Prop_Fsk | closed |
| `C12_attained` | Prop_Fsk | closed |
| `C12_free_distance` | Prop_Fsk | closed |
| `C13_bits` | Prop_Fsk | closed |
| `C13_octets_fit` | Prop_Fsk | closed |
| `C14_interleaver` | Prop_Fsk | closed |
| `C14_rejects` | Prop_Fsk | closed |
| `C14_spread` | Prop_Fsk | closed |
| `C15_uncoded_pair` | Prop_Fsk | closed |
| `C15_whitening` | Prop_Fsk | closed |
| `C16_layout` | Prop_Fsk | closed |
| `C16_length` | Prop_Fsk | closed |
| `C17_bits` | Prop_Fsk | closed |
| `C17_round_trip` | Prop_Fsk | closed |
| `C17_samples` | Prop_Fsk | closed |
| `C18_gray` | Prop_Fsk | closed |
| `C18_recoverable` | Prop_Fsk | closed |
| `C18_tones` | Prop_Fsk | closed |
| `C19_exact_partial` | Prop_Float | C E F N |
| `C19_partial` | Prop_Fsk | closed |
| `C19_power_of_two_partial` | Prop_Float | C E F N |
| `C19_refuted` | Prop_Fsk | closed |
| `C20_4fsk_refuted` | Prop_Fsk | closed |
| `C20_exact` | Prop_Fsk | closed |
| `C20_integer_index_partial` | Prop_Fsk | closed |
| `C20_refuted` | Prop_Fsk | closed |
| `C21_header_refuted` | Prop_Fsk | closed |
| `C21_refuted` | Prop_Fsk | closed |
| `C22_no_memory` | Prop_Fsk | closed |
| `C23_taps` | Prop_Rate | closed |
| `C24_flush` | Prop_Rate | closed |
| `C24_invertible` | Prop_Rate | closed |
| `C24_linear` | Prop_Rate | closed |
| `C24_streaming` | Prop_Rate | closed |
| `C25_common_tail` | Prop_Rate | closed |
| `C25_free_distance` | Prop_Rate | closed |
| `C26_empty` | Prop_Rate | closed |
| `C26_invertible` | Prop_Rate | closed |
| `C26_puncture` | Prop_Rate | closed |
| `C26_sizes` | Prop_Rate | closed |
| `C27_exact_partial` | Prop_Rate | closed |
| `C27_partial` | Prop_Rate | closed |
| `C27_refuted` | Prop_Rate | closed |
| `C28_permutation` | Prop_MrOfdm | closed |
| `C28_qam16_every_refuted` | Prop_MrOfdm | closed |
| `C28_qam16_refuted` | Prop_MrOfdm | closed |
| `C28_standard_partial` | Prop_MrOfdm | closed |
| `C28_undone` | Prop_MrOfdm | closed |
| `C29_accepted_lengths` | Prop_Fields | closed |
| `C29_layout` | Prop_Fields | closed |
| `C29_recoverable` | Prop_Fields | closed |
| `C29_refuses` | Prop_Fields | closed |
| `C30_crc8_is_remainder` | Prop_Fields | closed |
| `C30_float_exact` | Prop_Fields | closed |
| `C30_hcs_is_crc8` | Prop_Fields | closed |
| `C31_ofdm_detects` | Prop_Fields | closed |
| `C31_ofdm_sent` | Prop_Fields | closed |
| `C31_oqpsk_detects` | Prop_Fields | closed |
| `C32_half_rate_partial` | Prop_MrOfdm | closed |
| `C32_three_quarters_refuted` | Prop_MrOfdm | closed |
| `C33_padding` | Prop_MrOfdm | closed |
| `C34_no_padding_refuted` | Prop_MrOfdm | closed |
| `C34_octets_partial` | Prop_MrOfdm | closed |
| `C34_tail_exact` | Prop_MrOfdm | closed |
| `C35_factor_used` | Prop_Time | E F N |
| `C35_gray` | Prop_Ofdm | closed |
| `C35_injective` | Prop_Ofdm | closed |
| `C35_mapping` | Prop_Ofdm | closed |
| `C35_rejected` | Prop_Ofdm | closed |
| `C35_unit_power` | Prop_Time | E F N |
| `C36_each_copy` | Prop_Ofdm | closed |
| `C36_power` | Prop_Ofdm | closed |
| `C36_rejected` | Prop_Ofdm | closed |
| `C36_spread` | Prop_Ofdm | closed |
| `C37_fixed_pilots` | Prop_Ofdm | closed |
| `C37_options` | Prop_Ofdm | closed |
| `C37_symbols` | Prop_Ofdm | closed |
| `C37_without_pilots` | Prop_Ofdm | closed |
| `C38_pilots` | Prop_MrOfdm | closed |
| `C39_pieces` | Prop_Ofdm | closed |
| `C40_pad` | Prop_Ofdm | closed |
| `C40_partial_rejected` | Prop_Ofdm | closed |
| `C41_frames` | Prop_Time | E F N |
| `C41_modulator` | Prop_Time | E F N |
| `C41_refused` | Prop_Time | E F N |
| `C41_subcarriers` | Prop_Time | E F N |
| `C42_frame` | Prop_Time | E F N |
| `C42_ltf` | Prop_Time | E F N |
| `C42_stf` | Prop_Time | E F N |
| `C43_refused` | Prop_MrOfdm | closed |
| `C43_samples` | Prop_Time | E F N |
| `C43_samples_refused` | Prop_Time | E F N |
| `C43_sampling_rate` | Prop_Time | E F |
| `C43_symbols` | Prop_MrOfdm | closed |
| `C44_receiver` | Prop_MrRx | E F N |
| `C44_samples_determine` | Prop_Time | E F N |
| `C44_symbols_determine` | Prop_MrOfdm | closed |
| `C45_accepted` | Prop_MrOfdm | closed |
| `C45_mcs7_refuted` | Prop_MrOfdm | closed |
| `C45_unsupported` | Prop_MrOfdm | closed |
| `C45_value_error` | Prop_MrOfdm | closed |
| `C46_no_memory` | Prop_MrOfdm | closed |
| `C46_samples` | Prop_Time | E F N |
| `C47_accepted_lengths` | Prop_Fields | closed |
| `C47_errors_detected` | Prop_Fields | closed |
| `C47_layout` | Prop_Fields | closed |
| `C47_saturating_platform_refuted` | Prop_Fields | closed |
| `C48_header` | Prop_Oqpsk | closed |
| `C48_payload` | Prop_Oqpsk | closed |
| `C48_unique` | Prop_Oqpsk | closed |
| `C49_decode` | Prop_Oqpsk | closed |
| `C49_periodic` | Prop_Oqpsk | closed |
| `C49_relation` | Prop_Oqpsk | closed |
| `C50_codes` | Prop_Oqpsk | closed |
| `C50_refused` | Prop_Oqpsk | closed |
| `C50_spreading` | Prop_Oqpsk | closed |
| `C51_header` | Prop_Oqpsk | closed |
| `C51_refuted` | Prop_Oqpsk | closed |
| `C51_single_block_partial` | Prop_Oqpsk | closed |
| `C52_insertion` | Prop_Oqpsk | closed |
| `C52_removable` | Prop_Oqpsk | closed |
| `C53_agree_partial` | Prop_Oqpsk | closed |
| `C53_refuted` | Prop_Oqpsk | closed |
| `C54_exact_partial` | Prop_Oqpsk | closed |
| `C54_refuted` | Prop_Oqpsk | closed |
| `C55_every_payload_refuted` | Prop_Oqpsk | closed |
| `C55_exact_partial` | Prop_OqLoss | closed |
| `C55_lost_refuted` | Prop_Oqpsk | closed |
| `C55_mdsss_refuted` | Prop_Oqpsk | closed |
| `C55_single_block_partial` | Prop_Oqpsk | closed |
| `C56_header` | Prop_Oqpsk | closed |
| `C56_header_receiver` | Prop_OqRx | closed |
| `C56_receiver` | Prop_OqRx | closed |
| `C56_round_trip` | Prop_Oqpsk | closed |
| `C57_frames` | Prop_Wave | E F N |
| `C57_modulator` | Prop_Wave | E F N |
| `C58_aligned` | Prop_Wave | E F N |
| `C58_refuted` | Prop_Wave | E F N |
| `C59_construction` | Prop_Oqpsk | closed |
| `C59_no_signal` | Prop_Oqpsk | closed |
| `C59_refuted` | Prop_Oqpsk | closed |
| `C60_no_memory` | Prop_Oqpsk | closed |
| `C61_nrnsc` | Prop_Fsk | closed |
| `C61_rsc` | Prop_Fsk | closed |
| `C62_refuted` | Prop_Wave | E F N |
| `C62_step` | Prop_Wave | E F N |
| `C63_samples_determine_partial` | Prop_Wave | E F N |
| `C63_silence_refuted` | Prop_Wave | E F N |
| `C64_refuted` | Prop_Wave | E F N |
| `C64_unspread_partial` | Prop_Wave | E F N |
| `C65_tones` | Prop_FskWave | E F N |
| `C66_frame` | Prop_FskWave | E F N |
| `C66_payload` | Prop_FskWave | E F N |
| `C67_columns_agree` | Prop_Tools | closed |
| `C67_odd_refuted` | Prop_Tools | closed |
| `C67_one_dim` | Prop_Tools | closed |
| `C67_other_arguments` | Prop_Tools | closed |
| `C67_two_dim` | Prop_Tools | closed |
| `C68_axis_refuted` | Prop_Tools | closed |
| `C68_one_dim_partial` | Prop_Tools | closed |
| `C68_order_refuted` | Prop_Tools | closed |
| `C68_size_refuted` | Prop_Tools | closed |
| `C68_table_partial` | Prop_Tools | closed |
| `C68_two_dim_partial` | Prop_Tools | closed |
| `C69_bpsk` | Prop_Tools | closed |
| `C69_construction` | Prop_Tools | closed |
| `C70_opposite_orders_partial` | Prop_Bits | closed |
| `C70_same_order_refuted` | Prop_Bits | closed |
| `C70_to_bin` | Prop_Bits | closed |
| `C70_too_wide` | Prop_Bits | closed |
| `C71_free_distance` | Prop_Rate | closed |
| `C71_streaming` | Prop_Rate | closed |
| `C72_refuted` | Prop_Rate | closed |
| `C73_margin` | Prop_Gap | E F N |
| `C73_noise` | Prop_Gap | E F N |
| `C73_values` | Prop_Gap | E F N |
| `C74_distance` | Prop_FskGap | closed |
| `C74_two_errors` | Prop_FskGap | closed |
| `C75_margin` | Prop_FskNoise | E F N |
| `C75_noise` | Prop_FskNoise | E F N |
| `C75_symbols` | Prop_FskNoise | E F N |
| `C76_energy` | Prop_Power | E F N |
| `C76_peak` | Prop_Power | E F N |
| `C77_header` | Prop_OqGap | closed |
| `C77_payload` | Prop_OqGap | closed |
| `C77_receiver` | Prop_OqGap | closed |
| `C78_distance` | Prop_OqNoise | E F N |
| `C78_energy` | Prop_OqNoise | E F N |
| `C78_noise` | Prop_OqNoise | E F N |
| `C78_pulse` | Prop_OqNoise | E F N |
| `C79_criterion` | Prop_Pulse | E F |
| `C79_division_by_zero_refuted` | Prop_Pulse | E F N |
| `C79_elsewhere_partial` | Prop_Pulse | E F N |
| `C79_limit` | Prop_Pulse | E F N |
| `C80_dsss_partial` | Prop_OqRx | closed |
| `C80_dsss_samples_partial` | Prop_OqRx | E F N |
| `C80_mdsss_chips` | Prop_OqRx | closed |
| `C80_mdsss_refuted` | Prop_OqRx | closed |
| `C81_fsk_octets_partial` | Prop_Count | closed |
| `C81_fsk_refuted` | Prop_Count | closed |
| `C81_ofdm_collision_refuted` | Prop_Count | closed |
| `C81_ofdm_refuted` | Prop_Count | closed |
| `C81_oqpsk_octets_partial` | Prop_OqRx | closed |
| `C81_oqpsk_refuted` | Prop_OqRx | closed |
| `C82_accepts_partial` | Prop_OfdmArgs | closed |
| `C82_refuses_partial` | Prop_OfdmArgs | closed |
| `C82_scalar_refuted` | Prop_OfdmArgs | closed |
| `C82_single_value_refuted` | Prop_OfdmArgs | closed |
| `C82_spreading_refuted` | Prop_OfdmArgs | closed |
| `C82_string_refuted` | Prop_OfdmArgs | closed |
| `C83_bits` | Prop_OfdmArgs | closed |
| `C83_single_refuted` | Prop_OfdmArgs | closed |
| `C83_values_refuted` | Prop_OfdmArgs | closed |
| `C84_columns` | Prop_OfdmArgs | E F N |
| `C84_messages` | Prop_OfdmArgs | E F N |
| `C84_prefix_partial` | Prop_OfdmArgs | E F N |
| `C84_short_refuted` | Prop_OfdmArgs | E F N |
| `C85_samples` | Prop_MrRx | E F N |
| `C85_subcarriers` | Prop_MrRx | E F N |
| `C86_gain` | Prop_MrRx | E F N |
| `C86_measured` | Prop_MrRx | E F N |
| `C86_multipath` | Prop_MrRx | E F N |
| `C86_noise` | Prop_MrRx | E F N |
| `C86_timing` | Prop_MrRx | E F N |
| `C87_found` | Prop_FskRx | closed |
| `C87_receiver` | Prop_FskRx | closed |
| `C88_frame` | Prop_FskRx | E F N |
| `C88_receiver` | Prop_FskRx | E F N |
| `C89_frame` | Prop_FskRx | E F N |
| `C89_receiver` | Prop_FskRx | E F N |
| `C89_symbols` | Prop_FskRx | E F N |
| `C90_chips` | Prop_OqMf | E F N |
| `C90_gain` | Prop_OqMf | E F N |
| `C90_header` | Prop_OqMf | E F N |
| `C90_receiver` | Prop_OqMf | E F N |
| `C91_despread` | Prop_OqDs | closed |
| `C91_header` | Prop_OqDs | closed |
| `C91_receiver` | Prop_OqDs | closed |
| `C91_tight` | Prop_OqDs | closed |
| `C92_codewords_partial` | Prop_Mdsss | closed |
| `C92_codewords_refuted` | Prop_Mdsss | closed |
| `C92_matrix` | Prop_Mdsss | closed |
| `C92_message_refuted` | Prop_Mdsss | closed |
| `C92_parity_partial` | Prop_Mdsss | closed |
| `C92_parity_refuted` | Prop_Mdsss | closed |
| `C93_found` | Prop_OqSync | closed |
| `C93_header` | Prop_OqSync | closed |
| `C93_receiver` | Prop_OqSync | closed |
| `C93_tight` | Prop_OqSync | closed |
| `C93_tolerance` | Prop_OqSync | closed |
| `C94_exact_partial` | Prop_OqRate | E F N |
| `C94_frequency` | Prop_OqRate | E F N |
| `C94_header_refuted` | Prop_OqRate | E F N |
| `C94_slow_refuted` | Prop_OqRate | E F N |
| `C94_tables` | Prop_OqRate | closed |
| `C95_chips` | Prop_OqAcq | E F N |
| `C95_header` | Prop_OqAcq | E F N |
| `C95_receiver` | Prop_OqAcq | E F N |
| `C95_timing` | Prop_OqAcq | E F N |
| `C96_indices_refuted` | Prop_OfdmMem | closed |
| `C96_lists_partial` | Prop_OfdmMem | closed |
| `C96_present` | Prop_OfdmMem | closed |
| `C96_values_refuted` | Prop_OfdmMem | closed |
| `C97_estimate` | Prop_Cfo | C E F N |
| `C97_limit` | Prop_Cfo | C E F N |
| `C97_offset` | Prop_Cfo | C E F N |
| `C98_offset` | Prop_Track | C E F N |
| `C98_symbols` | Prop_Track | E F N |
| `C98_tracking` | Prop_Track | E F N |
| `C99_complete` | Prop_OfdmAcq | C E F N |
| `C99_first` | Prop_OfdmAcq | E F N |
<!-- ASSUMPTIONS END -->
