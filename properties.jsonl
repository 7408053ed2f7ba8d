{"id": "C01", "title": "Golay block decoding corrects every pattern of up to three errors", "statement": "If a packed 23-bit word is a codeword of the (23,12) Golay code generated by x^11+x^10+x^6+x^5+x^4+x^2+1 with at most three bits flipped, mbe_checkGolayBlock replaces it by exactly the 12 data bits of that codeword.", "quantifier": "all 4096 data words times all error patterns of weight at most three (8.4 million words)", "why_tests_cant": "tests try one data word with one flipped bit; the claim depends on all 2048 entries of a correction table", "anchors": ["src/ecc/ecc.c: mbe_checkGolayBlock", "src/ecc/ecc_const.c: golayGenerator, golayMatrix"]}
{"id": "C02", "title": "Golay bit-array decoding is nearest-codeword decoding with an exact change count", "statement": "For every array of 23 bits mbe_golay2312 writes, in positions 22..11, the data bits of the unique Golay codeword at Hamming distance at most three from the input, copies positions 10..0 unchanged, and returns the number of positions in which output and input differ, which is between 0 and 3. Decoding its own output again changes nothing and returns 0.", "quantifier": "all 2^23 bit arrays", "why_tests_cant": "2^23 inputs, and uniqueness of the nearest codeword is a statement about the whole code", "anchors": ["src/ecc/ecc.c: mbe_golay2312, mbe_checkGolayBlock"]}
{"id": "C03", "title": "Golay block decoding ignores bits above the 23-bit codeword", "statement": "As documented (upper bits ignored; on return the long holds 12-bit data), mbe_checkGolayBlock applied to any value gives the result of applying it to the low 23 bits, and the result is below 4096.", "quantifier": "all values of a 64-bit long", "why_tests_cant": "the domain is 2^64 values; tests only pass 23-bit values", "anchors": ["include/mbelib-neo/mbelib.h: mbe_checkGolayBlock doc", "src/ecc/ecc.c: mbe_checkGolayBlock"]}
{"id": "C04", "title": "Hamming (15,11) decoding corrects every single error", "statement": "For every array of 15 bits mbe_hamming1511 writes a codeword of the (15,11) Hamming code (the word satisfying the four published parity equations) that differs from the input in at most one position; it returns 1 if they differ and 0 if the input already was a codeword. Hence every codeword with at most one flipped bit is restored completely.", "quantifier": "all 2^15 inputs", "why_tests_cant": "tests exercise one codeword", "anchors": ["src/ecc/ecc.c: mbe_hamming1511, ham1511_lut", "src/ecc/ecc_const.c: hammingGenerator"]}
{"id": "C05", "title": "IMBE 7100x4400 Hamming (15,11) decoding corrects every single error", "statement": "Same as C04 for mbe_7100x4400hamming1511 and its own parity equations.", "quantifier": "all 2^15 inputs", "why_tests_cant": "tests exercise one codeword", "anchors": ["src/ecc/ecc.c: mbe_7100x4400hamming1511, ham1511_7100_lut", "src/ecc/ecc_const.c: imbe7100x4400hammingGenerator"]}
{"id": "C06", "title": "AMBE C0 correction restores the data and reports exactly what it changed", "statement": "For every 0/1 AMBE frame mbe_eccAmbe3600x2400C0 / mbe_eccAmbe3600x2450C0 change only row 0, the 12 data bits afterwards are those of the nearest Golay codeword to bits 1..23 (so up to three errors are corrected), and the return value is the number of bits of row 0 that changed, at most 3.", "quantifier": "all 2^96 frames", "why_tests_cant": "the frame space cannot be enumerated; the extra parity repair interacts with the Golay result", "anchors": ["src/ambe/ambe_common.c: mbe_eccAmbe3600C0_common", "src/ambe/ambe3600x2450.c: mbe_eccAmbe3600x2450C0", "src/ambe/ambe3600x2400.c: mbe_eccAmbe3600x2400C0"]}
{"id": "C07", "title": "AMBE C0 extra parity bit is repaired only when the Golay codeword is clean", "statement": "The comment says that the extra parity bit is corrected when the protected 23-bit codeword has no syndrome: whenever C0 correction changes the extra bit (row 0, bit 0), the 23 protected bits form a Golay codeword.", "quantifier": "all 2^24 C0 rows", "why_tests_cant": "needs all combinations of check-bit errors with the parity bit", "anchors": ["src/ambe/ambe_common.c: mbe_eccAmbe3600C0_common comment and errs == 0 test"]}
{"id": "C08", "title": "AMBE demodulation is an involution keyed by C0 that touches only row 1", "statement": "For every 0/1 AMBE frame demodulation changes only bits 0..22 of row 1, XORs bit 22-i with the top bit of the (i+1)-th term of x -> 173x+13849 mod 65536 started at 16 times the 12 C0 data bits, keeps the frame 0/1, and applying it twice restores the frame.", "quantifier": "all 2^96 frames", "why_tests_cant": "state space; round trip is for every key and every payload", "anchors": ["src/ambe/ambe_common.c: mbe_demodulateAmbe3600Data_common", "src/ambe/ambe3600x2450.c: mbe_demodulateAmbe3600x2450Data", "src/ambe/ambe3600x2400.c: mbe_demodulateAmbe3600x2400Data"]}
{"id": "C09", "title": "AMBE frame path recovers every transmitted parameter vector within FEC capability", "statement": "If a frame is produced by encoding any 49 parameter bits as the AMBE 3600 format specifies (Golay C0 with parity, Golay C1 scrambled by C0, uncoded C2 and C3) and then at most three of the 23 Golay bits of C0 and at most three of C1 are flipped, the frame entry points store exactly those 49 bits in ambe_d.", "quantifier": "all 2^49 parameter vectors times all correctable error patterns", "why_tests_cant": "astronomically many combinations of data, key and error pattern", "anchors": ["src/ambe/ambe_common.c: mbe_eccAmbe3600Data_common", "src/ambe/ambe3600x2450.c: mbe_processAmbe3600x2450Framef", "src/ambe/ambe3600x2400.c: mbe_processAmbe3600x2400Framef"]}
{"id": "C10", "title": "IMBE 7200x4400 demodulation is an involution keyed by C0", "statement": "For every 0/1 frame mbe_demodulateImbe7200x4400Data leaves rows 0 and 7 and the unused cells unchanged, XORs rows 1..3 (23 bits each) and 4..6 (15 bits each), highest bit first, with successive top bits of the generator x -> 173x+13849 mod 65536 started at 16 times the C0 data bits, and is its own inverse.", "quantifier": "all 2^184 frames", "why_tests_cant": "state space", "anchors": ["src/imbe/imbe7200x4400.c: mbe_demodulateImbe7200x4400Data"]}
{"id": "C11", "title": "IMBE 7200x4400 frame path recovers every transmitted parameter vector within FEC capability", "statement": "If any 88 parameter bits are encoded as the IMBE format specifies (four Golay words, three Hamming words, seven uncoded bits, rows 1..6 scrambled by C0) and at most three bits of each Golay word and at most one bit of each Hamming word are flipped, mbe_processImbe7200x4400Framef stores exactly those 88 bits in imbe_d, errs is the number of flipped C0 data bits and errs2 is the number of flipped Golay data bits plus the number of flipped Hamming bits.", "quantifier": "all 2^88 parameter vectors times all correctable error patterns", "why_tests_cant": "astronomically many combinations", "anchors": ["src/imbe/imbe7200x4400.c: mbe_eccImbe7200x4400C0, mbe_eccImbe7200x4400DataInternal, mbe_processImbe7200x4400Framef"]}
{"id": "C12", "title": "IMBE 7100x4400 demodulation is an involution keyed by C0", "statement": "For every 0/1 frame mbe_demodulateImbe7100x4400Data leaves rows 0 and 6 and unused cells unchanged, XORs row 1 (24 bits), rows 2..3 (23 bits) and rows 4..5 (15 bits) with the key stream started at 16 times the 7 C0 data bits, and is its own inverse.", "quantifier": "all 2^168 frames", "why_tests_cant": "state space", "anchors": ["src/imbe/imbe7100x4400.c: mbe_demodulateImbe7100x4400Data"]}
{"id": "C13", "title": "IMBE 7100x4400 frame path recovers every transmitted parameter vector within FEC capability", "statement": "If any 88 parameter bits in the 7100 layout are encoded as the 7100x4400 format specifies (shortened Golay C0, three Golay words, two Hamming words, 23 uncoded bits, scrambling by C0) and at most three bits of each Golay word and one of each Hamming word are flipped, the frame entry point stores in imbe_d exactly those bits rearranged to the 7200 layout.", "quantifier": "all 2^88 parameter vectors times all correctable error patterns", "why_tests_cant": "astronomically many combinations", "anchors": ["src/imbe/imbe7100x4400.c: mbe_eccImbe7100x4400C0, mbe_eccImbe7100x4400DataInternal, mbe_processImbe7100x4400Framef"]}
{"id": "C14", "title": "7100-to-7200 layout conversion is a lossless rearrangement that preserves the pitch", "statement": "For every 88-bit vector mbe_convertImbe7100to7200 writes every output position exactly from one input position (no position is lost, duplicated or left uninitialised), the 8 pitch bits read by the 7200 decoder equal the 8 pitch bits of the input, and two different inputs never give the same output.", "quantifier": "all 2^88 vectors", "why_tests_cant": "the permutation depends on the data itself through the pitch", "anchors": ["src/imbe/imbe7100x4400.c: mbe_convertImbe7100to7200"]}
{"id": "C15", "title": "Error counters returned by the frame entry points are bounded", "statement": "For every 0/1 frame: AMBE errs <= 3 and errs <= errs2 <= 6; IMBE 7200 errs <= 3 and errs <= errs2 <= 15; IMBE 7100 errs <= 3 and errs <= errs2 <= 14; the status string therefore never needs more than errs2+3 bytes, i.e. 9, 18 and 17 bytes.", "quantifier": "all frames", "why_tests_cant": "worst-case bounds over the whole frame space", "anchors": ["src/imbe/imbe7200x4400.c: mbe_processImbe7200x4400Framef", "src/imbe/imbe7100x4400.c: mbe_processImbe7100x4400Framef", "src/ambe/ambe3600x2450.c: mbe_processAmbe3600x2450Framef", "src/ambe/ambe3600x2400.c: mbe_processAmbe3600x2400Framef"]}
{"id": "C16", "title": "Status string grammar and size", "statement": "Whatever the bits, counters and history, a process call writes exactly errs2 '=' characters (none if errs2 is negative), then at most two markers from the documented set in documented order, then a NUL, so at most errs2+3 bytes are written and the string is NUL-terminated.", "quantifier": "all inputs, error counts and decoder states", "why_tests_cant": "marker combinations depend on decoder history", "anchors": ["include/mbelib-neo/mbelib.h: err_str doc", "src/imbe/imbe7200x4400.c: mbe_processImbe4400Dataf_withC0", "src/ambe/ambe3600x2450.c: mbe_processAmbe2450Dataf", "src/ambe/ambe3600x2400.c: mbe_processAmbe2400Dataf"]}
{"id": "C17", "title": "IMBE frame classification and model size", "statement": "mbe_decodeImbe4400Parms returns 1 exactly for the 48 pitch codes above 207 and then changes nothing but the repeat field; otherwise it returns 0 and sets the number of harmonics to floor(0.9254*floor((b0+39.5)/4+0.25)), between 9 and 56, and the number of voicing bands to floor((L+2)/3) capped at 12.", "quantifier": "all pitch codes, payloads and previous states", "why_tests_cant": "floating-point truncations must be exact for every code; tests check three codes", "anchors": ["src/imbe/imbe7200x4400.c: mbe_decodeImbe4400Parms"]}
{"id": "C18", "title": "IMBE parameter unpacking reads every bit exactly once and no uninitialised memory", "statement": "For every valid pitch code, the 79 payload bits are distributed so that every quantiser bit used to build voicing, gain and amplitude parameters has been written from exactly one payload bit, every payload bit is used, and all table and buffer indices are in range.", "quantifier": "all pitch codes and payloads", "why_tests_cant": "depends on 48 bit-order tables with 79 entries each being mutually consistent with two bit-allocation tables", "anchors": ["src/imbe/imbe7200x4400.c: mbe_decodeImbe4400Parms", "src/internal/imbe7200x4400_const.h: bo, ba, hoba, ImbeJi"]}
{"id": "C19", "title": "Parameter decoding never reads outside the amplitude history", "statement": "Decoding a voice frame (IMBE 4400, AMBE 2450, AMBE 2400) after any frame sequence from initialisation only reads elements of the previous frame's log2Ml array that exist (indices 0..56).", "quantifier": "all frame sequences", "why_tests_cant": "an out-of-range read needs a particular pair of consecutive pitch codes; sanitizers only see executed pairs and may not flag intra-struct reads", "anchors": ["src/imbe/imbe7200x4400.c: mbe_decodeImbe4400Parms intkl", "src/ambe/ambe3600x2450.c: mbe_decodeAmbe2450Parms_internal", "src/ambe/ambe3600x2400.c: mbe_decodeAmbe2400Parms", "include/mbelib-neo/mbelib.h: mbe_parameters.log2Ml"]}
{"id": "C20", "title": "AMBE 2450 frame classification", "statement": "mbe_decodeAmbe2450Parms returns 7 (tone) exactly when the first six bits are ones, the last four bits are zero or the first and last four bits of the second vector agree, and, if a total error count is known, it is below 6; otherwise 2 (erasure) exactly for pitch codes 120..123 and 126..127, and 0 (voice) for all others, of which 124 and 125 are silence models with 15 and 14 harmonics.", "quantifier": "all 2^49 parameter vectors and error counts", "why_tests_cant": "overlapping conditions over the whole parameter space", "anchors": ["src/ambe/ambe3600x2450.c: mbe_decodeAmbe2450Parms_internal"]}
{"id": "C21", "title": "AMBE 2450 table accesses stay in range", "statement": "For every parameter vector every codebook and voicing-table index computed by AMBE 2450 decoding is inside its table, every coefficient read was written, and the number of harmonics is between 9 and 56.", "quantifier": "all parameter vectors and previous states with 9..55 harmonics", "why_tests_cant": "index computation uses rounded floating-point products", "anchors": ["src/ambe/ambe3600x2450.c: mbe_decodeAmbe2450Parms_internal", "src/internal/ambe3600x2450_const.h"]}
{"id": "C22", "title": "AMBE 2400 frame classification and table accesses", "statement": "mbe_decodeAmbe2400Parms classifies every parameter vector as voice, tone or silence as documented, never returns the erasure code 2, and all table indices are in range for every exp2f within 1% of the true value.", "quantifier": "all parameter vectors", "why_tests_cant": "index computation uses rounded floating-point products of a library function", "anchors": ["src/ambe/ambe3600x2400.c: mbe_decodeAmbe2400Parms", "src/internal/ambe3600x2400_const.h"]}
{"id": "C23", "title": "IMBE repeat and mute state machine", "statement": "In every history of IMBE frames the repeat counter stays in 0..4; k consecutive frames that need repetition after a good frame give repeat counts 1,2,3,4,0,1,... ; a frame is marked R exactly when it needs repetition and marked M exactly when its repeat count is 4 or its error rate exceeds the muting threshold, and a marked-M frame outputs comfort noise.", "quantifier": "all frame histories", "why_tests_cant": "history-dependent; tests look at one transition", "anchors": ["src/imbe/imbe7200x4400.c: mbe_processImbe4400Dataf_withC0", "src/core/mbelib.c: mbe_synthesizeSpeechf"]}
{"id": "C24", "title": "AMBE repeat, mute and reset state machine", "statement": "In every history of AMBE 2450 frames the stored repeat counters are equal and in 0..3 after each call; three consecutive frames needing repetition reuse the last model and the fourth emits comfort noise, is marked M and resets all three states to the AMBE defaults.", "quantifier": "all frame histories", "why_tests_cant": "history-dependent", "anchors": ["src/ambe/ambe3600x2450.c: mbe_processAmbe2450Dataf", "src/ambe/ambe3600x2400.c: mbe_processAmbe2400Dataf"]}
{"id": "C25", "title": "IMBE processing always uses the IMBE muting threshold", "statement": "As commented in the code, after any IMBE process call the current state carries the IMBE muting threshold even if the states were previously used by AMBE.", "quantifier": "all previous states and frames", "why_tests_cant": "only a repeat frame directly after a codec switch shows the difference", "anchors": ["src/imbe/imbe7200x4400.c: mbe_processImbe4400Dataf_withC0 comment", "src/core/mbelib.c: mbe_useLastMbeParms"]}
{"id": "C26", "title": "Long streams never overflow the amplitude threshold", "statement": "For every sequence of frames with in-range error counts the adaptive smoothing never evaluates a signed overflow: the stored amplitude threshold stays within int.", "quantifier": "all frame histories of any length", "why_tests_cant": "the overflow needs hours of audio", "anchors": ["src/core/mbe_adaptive.c: mbe_applyAdaptiveSmoothing Tm"]}
{"id": "C27", "title": "Adaptive smoothing is transparent on clean streams", "statement": "If the error rate is at most 0.005 and at most four errors were corrected, adaptive smoothing changes no voicing decision whose amplitude is finite, resets the amplitude threshold to 20480, and leaves all amplitudes unchanged unless their sum exceeds 20480.", "quantifier": "all parameter states", "why_tests_cant": "for all states", "anchors": ["src/core/mbe_adaptive.c: mbe_applyAdaptiveSmoothing"]}
{"id": "C28", "title": "Adaptive smoothing keeps the energy floor and never unvoices a band", "statement": "After adaptive smoothing of any state the local energy is at least 10000 (or NaN if it was computed from NaN input), every band voiced before is voiced after, and fields other than Ml, Vl, localEnergy and amplitudeThreshold are unchanged.", "quantifier": "all states", "why_tests_cant": "for all states", "anchors": ["src/core/mbe_adaptive.c: mbe_applyAdaptiveSmoothing"]}
{"id": "C29", "title": "Smoothed error rate is bounded", "statement": "Starting from initialisation, after any sequence of process calls with 0 <= errs2 <= 15 (IMBE) or 0 <= errs2 <= 6 (AMBE) the stored error rate is a finite float in [0, 0.11] resp. [0, 0.128].", "quantifier": "all histories", "why_tests_cant": "unbounded histories of rounded floating-point filtering", "anchors": ["src/imbe/imbe7200x4400.c: mbe_processImbe4400Dataf_withC0", "src/ambe/ambe3600x2450.c: mbe_processAmbe2450Dataf", "src/ambe/ambe3600x2400.c: mbe_processAmbe2400Dataf"]}
{"id": "C30", "title": "Float to 16-bit conversion saturates, is monotone, odd and identical in scalar and SIMD builds", "statement": "For every non-NaN float sample mbe_floattoshort yields trunc(7x) saturated to [-31128, 31128]; the map is monotone and odd; the SSE2 and NEON code paths give the same 160 results as the scalar code; the scalar conversion is undefined exactly for NaN.", "quantifier": "all 2^32 float values in each of the 160 positions", "why_tests_cant": "2^32 values per lane and three code paths", "anchors": ["src/core/mbelib.c: mbe_floattoshort"]}
{"id": "C31", "title": "Synthesised samples are bounded", "statement": "Every non-NaN sample that mbe_synthesizeSpeechf writes has magnitude at most 32767*0.95/7, whatever the parameters, history, and the results of the math and FFT libraries.", "quantifier": "all parameter states", "why_tests_cant": "all inputs", "anchors": ["src/core/mbelib.c: mbe_synthesizeSpeechf, mbe_clipFloatBuffer"]}
{"id": "C32", "title": "Comfort noise is bounded and never NaN", "statement": "For every generator state every comfort-noise sample is a finite float of magnitude at most 0.003*32767/7 and at most 98 after conversion to 16 bits.", "quantifier": "all 2^48 generator states", "why_tests_cant": "2^48 states", "anchors": ["src/core/mbe_adaptive.c: mbe_synthesizeComfortNoisef, mbe_synthesizeComfortNoise"]}
{"id": "C33", "title": "Seeding fully determines later noise on that thread", "statement": "After mbe_setThreadRngSeed(s), whatever happened before on the thread, the following n comfort-noise frames are the frames java.util.Random(s) would give through nextFloat, seeds 0 and 0x6d25357b behave identically, and the generator never has a shorter period than 2^48.", "quantifier": "all seeds, all prior histories, all n", "why_tests_cant": "history independence and period", "anchors": ["src/core/mbelib.c: mbe_setThreadRngSeed", "src/core/mbe_adaptive.c: mbe_seedComfortNoiseRng, mbe_java_random_next_bits"]}
{"id": "C34", "title": "Unvoiced noise generator has full period and seamless overlap", "statement": "From every integer seed in 0..53124 the unvoiced noise generator visits all 53125 values before repeating, always holds an integer in that range exactly representable as float, and the first 96 samples of every noise buffer after the first equal the last 96 of the previous one.", "quantifier": "all seeds and all numbers of frames", "why_tests_cant": "unbounded frame sequences; exactness of float arithmetic", "anchors": ["src/core/mbe_unvoiced_fft.c: mbe_generate_noise_lcg, mbe_generate_noise_with_overlap"]}
{"id": "C35", "title": "Unvoiced cold-start seed override is used once, by the next cold start only", "statement": "After mbe_setThreadRngSeed(s) the next stream that starts cold on the thread starts its noise from s mod 53125; later cold starts on that thread without a new call use 3147; warm streams never consume it.", "quantifier": "all interleavings of streams on a thread", "why_tests_cant": "order dependence", "anchors": ["src/core/mbe_unvoiced_fft.c: mbe_seedUnvoicedNoiseLcg, mbe_generate_noise_with_overlap"]}
{"id": "C36", "title": "Threads do not influence each other", "statement": "For every schedule interleaving API calls of any number of threads on disjoint states, each call returns what it returns when its thread runs alone.", "quantifier": "all schedules", "why_tests_cant": "schedules cannot be enumerated by tests", "anchors": ["src/core/mbe_adaptive.c: MBE_THREAD_LOCAL state", "src/core/mbe_unvoiced_fft.c: MBE_THREAD_LOCAL state", "src/core/mbelib.c: MBE_THREAD_LOCAL state", "src/internal/mbe_compiler.h"]}
{"id": "C37", "title": "A tone identifier accepted by the 2450 decoder is synthesisable", "statement": "For every tone parameter vector the 2450 path accepts the identifier exactly when tone synthesis has frequencies for it, and the 16 DTMF digits map to the standard row/column frequencies.", "quantifier": "all tone vectors", "why_tests_cant": "two independently written tables must agree", "anchors": ["src/ambe/ambe3600x2450.c: ambe2450_is_valid_tone_id", "src/core/mbelib.c: mbe_lookupToneFreqs, mbe_synthesizeTonef"]}
{"id": "C38", "title": "Tone phase is continuous over any number of frames", "statement": "Synthesising n consecutive tone frames with the same identifier produces exactly the first 160n samples of one oscillator pair whose 32-bit phases advance by the same step each sample, modulo 2^32.", "quantifier": "all n, all identifiers, all starting phases", "why_tests_cant": "unbounded n", "anchors": ["src/core/mbelib.c: mbe_renderTonef, mbe_synthesizeTonef, mbe_synthesizeTonefdstar"]}
{"id": "C39", "title": "AMBE 2400 single-tone frames are audible", "statement": "A 2400 frame decoded as single tone 7..122 with fewer than two C0 errors and fewer than three errors in total produces the samples of D-STAR tone synthesis for that tone in the output buffer.", "quantifier": "all single-tone vectors and states", "why_tests_cant": "needs the combination of two branch ladders", "anchors": ["src/ambe/ambe3600x2400.c: mbe_processAmbe2400Dataf", "src/core/mbelib.c: mbe_synthesizeTonefdstar"]}
{"id": "C40", "title": "Valid tone frames leave the voice history untouched", "statement": "A 2450 tone frame with a valid identifier changes neither prev_mp nor prev_mp_enhanced (except for first-use AMBE initialisation), so voice decoding continues as if the tone frame had not been there.", "quantifier": "all tone vectors and states", "why_tests_cant": "for all states", "anchors": ["src/ambe/ambe3600x2450.c: mbe_processAmbe2450Dataf"]}
{"id": "C41", "title": "Decoder parameters stay numbers", "statement": "After any sequence of AMBE 2450 frames from initialisation no amplitude stored in the states is NaN.", "quantifier": "all frame sequences", "why_tests_cant": "needs an erasure followed by a repeat", "anchors": ["src/ambe/ambe_common.c: mbe_setAmbeErasureParms_common", "src/core/mbelib.c: mbe_spectralAmpEnhance"]}
{"id": "C42", "title": "Synthesis window is symmetric with the documented plateau", "statement": "The 211-entry overlap-add window satisfies w(n) = w(-n) and equals 1 for -55 <= n <= 55 as documented.", "quantifier": "all n in -105..105", "why_tests_cant": "finite but untested; documentation claim", "anchors": ["src/core/mbe_unvoiced_fft.c: Ws_synthesis comment, mbe_synthesisWindow"]}
{"id": "C43", "title": "Overlap-add never divides by zero and the fast path equals the reference", "statement": "For all previous and current spectra the optimised overlap-add (scalar and SIMD) writes bit-for-bit what the reference formula writes, and the normaliser exceeds 1e-10 for every sample.", "quantifier": "all 2x256 float buffers", "why_tests_cant": "all float inputs", "anchors": ["src/core/mbe_unvoiced_fft.c: mbe_wola_combine, mbe_wola_combine_fast"]}
{"id": "C44", "title": "Unvoiced bands tile the spectrum", "statement": "For every pitch the FFT bands of consecutive harmonics are adjacent without gap or overlap, start at a non-negative bin, never exceed bin 128, and no bin index used is outside the 256-point transform.", "quantifier": "all pitch values and band counts", "why_tests_cant": "rounded floating-point band edges", "anchors": ["src/core/mbe_unvoiced_fft.c: mbe_synthesizeUnvoicedFFTWithNoise, mbe_unvoiced_magnitude_squared_sum"]}
{"id": "C45", "title": "Initialisation and copying are complete", "statement": "mbe_initMbeParms makes the three states equal and independent of their previous contents; mbe_moveMbeParms and mbe_useLastMbeParms make the destination equal to the source in every field and do not change the source.", "quantifier": "all previous contents", "why_tests_cant": "for all contents", "anchors": ["src/core/mbelib.c: mbe_initMbeParms, mbe_moveMbeParms, mbe_useLastMbeParms"]}
{"id": "C46", "title": "16-bit entry points are the float entry points followed by conversion", "statement": "For every input and state each short process/synthesis function leaves the same states, counters and status string as its float counterpart and its samples are mbe_floattoshort of the float samples; the quality knob and the ignored errs argument never influence any result.", "quantifier": "all inputs and states", "why_tests_cant": "relational claim over all inputs", "anchors": ["src/imbe/imbe7200x4400.c: mbe_processImbe4400Data, mbe_processImbe7200x4400Frame", "src/ambe/ambe3600x2450.c: mbe_processAmbe2450Data", "src/ambe/ambe3600x2400.c: mbe_processAmbe2400Data", "src/core/mbelib.c: mbe_synthesizeSpeech, mbe_synthesizeTone, mbe_synthesizeSilence"]}
{"id": "C47", "title": "Codec switch to AMBE starts from AMBE defaults", "statement": "The first AMBE call after generic initialisation or after IMBE use behaves exactly as from AMBE-initialised states, and later AMBE calls never re-initialise spuriously: after any AMBE call the stored muting threshold is the AMBE one.", "quantifier": "all states and frames", "why_tests_cant": "history-dependent", "anchors": ["src/ambe/ambe_common.c: mbe_ensureAmbeDefaults_common, mbe_initAmbeParms_common"]}
{"id": "C48", "title": "Spectral enhancement touches only amplitudes", "statement": "mbe_spectralAmpEnhance changes only Ml[1..L]; when the energy correction is finite, amplitudes that are zero stay zero; no positive amplitude becomes negative or the other way round; and harmonics with 8l <= L are scaled only by the common energy correction.", "quantifier": "all states", "why_tests_cant": "for all states", "anchors": ["src/core/mbelib.c: mbe_spectralAmpEnhance"]}
{"id": "C49", "title": "Log amplitudes are bounded for every bit stream", "statement": "Starting from initialisation, after any sequence of IMBE frames all stored log2 amplitudes are finite and below a fixed bound, for every cosine implementation with values in [-1,1] and every exp2f that is exact at the integers 0 to 9.", "quantifier": "all frame sequences", "why_tests_cant": "stability of a recursive predictor over unbounded histories in rounded arithmetic", "anchors": ["src/imbe/imbe7200x4400.c: mbe_decodeImbe4400Parms"]}
{"id": "C50", "title": "Version string fits the legacy buffer", "statement": "mbe_printVersion writes at most 32 bytes including a terminating NUL for every version string, and the text is the longest prefix of the version string that fits.", "quantifier": "all version strings", "why_tests_cant": "the version string is a build parameter", "anchors": ["src/core/mbelib.c: mbe_printVersion, mbe_versionString"]}
{"id": "C51", "title": "Pre-enhancement energy handoff is used at most once and only for its state", "statement": "The energy recorded by mbe_spectralAmpEnhance for a state is used by the next adaptive smoothing of that same state and by no later one; smoothing of another state neither uses nor clears it, and a process call never leaves a pending handoff.", "quantifier": "all call sequences", "why_tests_cant": "order dependence of thread-local state", "anchors": ["src/core/mbe_adaptive.c: mbe_setPreEnhRm0, mbe_applyAdaptiveSmoothing", "src/core/mbelib.c: mbe_spectralAmpEnhance"]}
{"id": "C52", "title": "2450 frames request repetition only at saturated error counts", "statement": "In the 2450 frame path a voice frame is repeated exactly when three data-bit corrections were made in C0 and three in C1; the alternative criterion of four C0 errors can never be met.", "quantifier": "all frames", "why_tests_cant": "unreachability claim", "anchors": ["src/ambe/ambe3600x2450.c: mbe_processAmbe3600x2450Framef, repeat criteria"]}
{"id": "C53", "title": "Voiced phase state is wrapped", "statement": "Speech synthesis stores in the previous state voiced phases in [0, 2*pi] for every finite phase, for every state.", "quantifier": "all states", "why_tests_cant": "rounded fmod at the boundary", "anchors": ["src/core/mbelib.c: mbe_synthesizeSpeechf PSIl wrap"]}
{"id": "C54", "title": "Process calls are defined and keep the states well formed", "statement": "Every IMBE 4400, AMBE 2450 and AMBE 2400 process call on well-formed states with any parameter bits and error counts in range returns without undefined behaviour and leaves well-formed states, unless the previous frame has 56 harmonics (C19) or the amplitude threshold is at the integer limit (C26).", "quantifier": "all well-formed states, parameter bits and error counts", "why_tests_cant": "unbounded histories of states", "anchors": ["src/imbe/imbe7200x4400.c: mbe_processImbe4400Dataf", "src/ambe/ambe3600x2450.c: mbe_processAmbe2450Dataf", "src/ambe/ambe3600x2400.c: mbe_processAmbe2400Dataf", "src/core/mbelib.c: mbe_synthesizeSpeechf, mbe_spectralAmpEnhance"]}
{"id": "C55", "title": "Harmonics of decoded frames lie below half the sampling rate", "statement": "For every parameter vector decoded as voice or silence by the IMBE 4400, AMBE 2450 and AMBE 2400 decoders the highest harmonic L * w0 is at most pi.", "quantifier": "all parameter vectors", "why_tests_cant": "all codes of three codecs, including silence models", "anchors": ["src/imbe/imbe7200x4400.c: mbe_decodeImbe4400Parms", "src/ambe/ambe3600x2450.c: mbe_decodeAmbe2450Parms", "src/ambe/ambe3600x2400.c: mbe_decodeAmbe2400Parms"]}
{"id": "C56", "title": "Concealed IMBE frames repeat the last model", "statement": "After a concealed IMBE frame (marked R, fewer than four before it) the stored previous frame has the same fundamental, harmonic and band count, voicing decisions and amplitudes of the harmonics present as before the call; the same holds over a run of up to four concealed frames.", "quantifier": "all states, frame contents and error counts", "why_tests_cant": "the concealed frame is decoded first and its decoder writes into the previous frame's arrays", "anchors": ["src/imbe/imbe7200x4400.c: mbe_processImbe4400Dataf_withC0", "src/core/mbelib.c: mbe_useLastMbeParms"]}
{"id": "C57", "title": "The noise generator of a stream continues from frame to frame", "statement": "Every frame that synthesises speech advances the stream's noise generator by 160 draws from where the frame before it left it.", "quantifier": "all frame histories", "why_tests_cant": "the stored seed is only visible in the unvoiced noise of later frames", "anchors": ["src/imbe/imbe7200x4400.c: mbe_processImbe4400Dataf_withC0", "src/core/mbelib.c: mbe_useLastMbeParms, mbe_synthesizeSpeechf"]}
{"id": "C58", "title": "Local energy stays a number", "statement": "After any sequence of AMBE frames from initialisation the stored local energy of prev_mp_enhanced is not NaN, so error-driven smoothing can always force bands to voiced.", "quantifier": "all frame sequences", "why_tests_cant": "One NaN, reached by three particular frames, silently disables smoothing for the rest of a stream; the audio of those frames sounds normal.", "anchors": ["src/core/mbe_adaptive.c: mbe_applyAdaptiveSmoothing", "src/ambe/ambe3600x2450.c: mbe_processAmbe2450Dataf"]}
{"id": "C59", "title": "Correctable channel errors act only through their counts", "statement": "For each of the four frame formats, a run of frames that encode some parameter vectors and are hit by at most the correctable number of errors per code word gives exactly the samples, status strings, error counts and states that the parameter-level calls give on the transmitted vectors with the exact numbers of errors; any frame whatever amounts to such a call on some parameter bits with counts in range.", "quantifier": "all parameter vectors, encodings, correctable error patterns, states and run lengths", "why_tests_cant": "error patterns times frame histories; tests compare decoded bits of a few frames, not the audio of hit and clean streams", "anchors": ["src/imbe/imbe7200x4400.c: mbe_processImbe7200x4400Framef", "src/imbe/imbe7100x4400.c: mbe_processImbe7100x4400Framef", "src/ambe/ambe3600x2450.c: mbe_processAmbe3600x2450Framef", "src/ambe/ambe3600x2400.c: mbe_processAmbe3600x2400Framef"]}
{"id": "C60", "title": "Cosine caches never change results", "statement": "The lazily filled cosine tables of the IMBE, AMBE 2450 and AMBE 2400 decoders are invisible: over every history of decode calls from program start, on whichever inputs, each call returns what the decoder that evaluates every cosine afresh returns.", "quantifier": "all histories of decode calls", "why_tests_cant": "a wrong cache key or a cache entry left unfilled shows only for particular block lengths in a particular order", "anchors": ["src/imbe/imbe7200x4400.c: imbe_get_dct_cache", "src/ambe/ambe3600x2450.c: ambe2450_get_dct_cache", "src/ambe/ambe3600x2400.c: ambe_get_dct_cache"]}
{"id": "C61", "title": "IMBE amplitudes follow the decoding formula", "statement": "Every harmonic of an accepted IMBE frame gets the log amplitude given by: uniform dequantisation of the gain and higher order fields, two stages of inverse cosine transform, and prediction from the interpolated amplitudes of the previous frame minus their mean with the coefficient for that number of harmonics; the amplitude is its power of two.", "quantifier": "all parameter vectors, all previous frames", "why_tests_cant": "the value depends on all 79 payload bits and the whole history; tests compare single vectors", "anchors": ["src/imbe/imbe7200x4400.c: mbe_decodeImbe4400Parms, gain vector, Cik, Tl, prediction"]}
{"id": "C62", "title": "AMBE amplitudes follow the decoding formula", "statement": "Every harmonic of an AMBE 2450 or 2400 voice frame gets the log amplitude given by: codebook gain shape vector, inverse cosine transform, four blocks of codebook coefficients transformed, prediction with coefficient 0.65, and the recursive gain in place of the residual mean; unvoiced amplitudes are scaled by 0.2046/sqrt(w0).", "quantifier": "all parameter vectors, all previous frames", "why_tests_cant": "the value depends on all codebook fields and the whole history", "anchors": ["src/ambe/ambe3600x2450.c: mbe_decodeAmbe2450ParmsInternal", "src/ambe/ambe3600x2400.c: mbe_decodeAmbe2400Parms"]}
{"id": "C63", "title": "Which parameter bits are used", "statement": "IMBE processing never reads parameter bit 87 and AMBE 2400 processing never reads parameter bit 24: flipping them changes neither samples nor states. Every other bit of an AMBE voice frame belongs to exactly one field.", "quantifier": "all parameter vectors and states", "why_tests_cant": "absence of influence on any output", "anchors": ["src/imbe/imbe7200x4400.c: mbe_decodeImbe4400Parms", "src/ambe/ambe3600x2400.c: mbe_decodeAmbe2400Parms", "src/ambe/ambe3600x2450.c: mbe_decodeAmbe2450ParmsInternal"]}
{"id": "C64", "title": "Speech frames follow the synthesis formula", "statement": "Every sample of a speech frame that is not muted is the clipped sum of the voiced part (per harmonic: an interpolated cosine when harmonic < 8 is voiced on both sides and the pitch is steady, otherwise the fading previous oscillator and the rising current one) and the overlap-added inverse transform of noise whose bins are scaled band by band to the unvoiced amplitudes; both parameter sets and the thread state end as the formula says.", "quantifier": "all well-formed states, thread states, sets of library functions", "why_tests_cant": "160 samples depend on two whole parameter sets, the noise generator and the transforms", "anchors": ["src/core/mbelib.c: mbe_synthesizeSpeechf", "src/core/mbe_unvoiced_fft.c: mbe_synthesizeUnvoicedFFTWithNoise"]}
{"id": "C65", "title": "Smoothing follows its formula", "statement": "Error-driven smoothing computes the running energy, the voicing limit and the amplitude limit by the stated formulas, makes voiced exactly the harmonics above the voicing limit, scales all amplitudes by limit over sum exactly when the sum is above the limit, and changes nothing else.", "quantifier": "all well-formed sets", "why_tests_cant": "the error branches need error rates tests do not reach, and 'changes nothing else' is a claim about all fields", "anchors": ["src/core/mbe_adaptive.c: mbe_applyAdaptiveSmoothing"]}
{"id": "C66", "title": "Fully voiced frames have no random phase", "statement": "In a frame whose harmonics are all voiced the phase used for synthesis equals the advanced phase for every harmonic: the random part is proportional to the number of unvoiced harmonics.", "quantifier": "all frames", "why_tests_cant": "an off-by-one in a count shows as a small phase jitter in upper harmonics", "anchors": ["src/core/mbelib.c: mbe_synthesizeSpeechf, numUv"]}
{"id": "C67", "title": "Oscillators do not drift", "statement": "With cosf and sinf accurate to 2^-23 at the start phase and the step, each of the 160 values of the recursive oscillator used for a voiced harmonic is finite and within 2^-13 of the cosine of its phase.", "quantifier": "all start phases and steps", "why_tests_cant": "accumulated rounding over all float values of phase and step", "anchors": ["src/core/mbelib.c: mbe_synthesizeSpeechf oscillator recurrences"]}
{"id": "C68", "title": "AMBE log amplitudes and gain stay bounded", "statement": "After any non-empty sequence of AMBE 2450 or 2400 frames that starts from initialisation or takes over a state last used by IMBE, every stored log amplitude is finite and of size at most 81 (2450) or 90 (2400) and the recursive gain of size at most 14 or 11.", "quantifier": "all frame sequences, error counts and sets of library functions with a cosine in [-1,1] and log2f at most 6", "why_tests_cant": "recursive prediction through gain and amplitudes over unbounded streams", "anchors": ["src/ambe/ambe3600x2450.c: mbe_decodeAmbe2450ParmsInternal", "src/ambe/ambe3600x2400.c: mbe_decodeAmbe2400Parms"]}
{"id": "C69", "title": "Enhancement follows the published formula", "statement": "Spectral amplitude enhancement replaces the amplitudes 1..L by: weight sqrt(M_l) * (0.96 pi (R0^2 + R1^2 - 2 R0 R1 cos(l w0)) / (w0 R0 (R0^2 - R1^2)))^(1/4) limited to [0.5, 1.2] above L/8, weight 1 below, and one common factor sqrt(R0 / new energy); nothing else of the parameter set changes, and the cosines used are within 2^-14 of cos(l w0).", "quantifier": "all parameter sets with at most 56 harmonics", "why_tests_cant": "a wrong sign or moment in the weight changes timbre slightly in every frame and no status", "anchors": ["src/core/mbelib.c: mbe_spectralAmpEnhance"]}
{"id": "C70", "title": "Enhancement keeps the energy of a frame", "statement": "If the enhanced amplitudes are finite the sum of their squares equals that of the amplitudes before the call to one part in 100000.", "quantifier": "all amplitudes of size at most 1e9 and energy at least 1e-12, all sets of library functions", "why_tests_cant": "a claim about real sums against rounded ones for every amplitude vector", "anchors": ["src/core/mbelib.c: mbe_spectralAmpEnhance"]}
{"id": "C71", "title": "The transform of unvoiced speech is the Fourier transform", "statement": "In exact arithmetic the forward transform of 256 samples stores bins 0 and 128 and the real and imaginary parts of bins 1 to 127 of their discrete Fourier transform, the backward transform stores the samples that belong to such bins, and one after the other multiplies every sample by 256.", "quantifier": "all samples, all old buffer contents", "why_tests_cant": "the code is four radix-4 passes over permuted buffers; a wrong index or twiddle can hide in a few bins", "anchors": ["src/external/pffft/pffft.c: pffft_new_setup, pffft_transform_ordered (scalar, N = 256)"]}
{"id": "C72", "title": "The transforms are defined for every input", "statement": "In single precision, whatever cos and sin return, both transforms read only initialised cells inside their buffers, write every result, and give results that depend on the samples alone, not on old contents of output or work buffer.", "quantifier": "all samples including infinities and NaN, all buffers", "why_tests_cant": "an unwritten or stale cell shows only with particular memory contents", "anchors": ["src/external/pffft/pffft.c: rfftf1_ps, rfftb1_ps, rffti1_ps, pffft_zreorder", "src/core/mbe_unvoiced_fft.c: mbe_fft_plan"]}
{"id": "C73", "title": "Rounding errors of the transforms are small", "statement": "If cos and sin are accurate to 2^-23, then for 256 samples of size at most B every result of the single precision forward transform is finite and within B/256 of the exact Fourier bin, every result of the backward transform is within B/128 of the exact sum, and one after the other they return 256 times each sample to within 5 B.", "quantifier": "all samples of size at most B, B from 1e-15 to 1e18 (1e15 for the round trip)", "why_tests_cant": "error growth through eight butterfly levels for every sample vector", "anchors": ["src/external/pffft/pffft.c: rfftf1_ps, rfftb1_ps, rffti1_ps", "src/core/mbe_unvoiced_fft.c"]}
{"id": "C74", "title": "Error-free frames give numbers as samples", "statement": "A sequence of IMBE frames received without errors gives samples that are numbers, not NaN, and the 16-bit entry points are defined on it.", "quantifier": "all sequences of error-free frames from initialisation, all accurate sets of library functions", "why_tests_cant": "needs a particular frame repeated about eight times; amplitudes then overflow inside enhancement and every sample becomes NaN without any marker", "anchors": ["src/core/mbelib.c: mbe_spectralAmpEnhance, mbe_synthesizeSpeechf, mbe_floattoshort", "src/imbe/imbe7200x4400.c: mbe_decodeImbe4400Parms"]}
{"id": "C75", "title": "Moderate frames give numbers as samples", "statement": "With an accurate library, a stream of IMBE frames with at most 20 errors each gives only samples that are numbers within the sample limit, and 16-bit conversion of them is defined, as long as every parameter set decoded has amplitudes up to 2^28 and energy of at least 1e-6. That is so whenever the residual coded in each frame lies between lo and hi with 3.335 hi - 2.335 lo at most 27.8 (for instance -3 to 6). Enhancement then multiplies no amplitude by more than 3.2 and keeps the energy, and synthesis keeps phases and noise memory bounded.", "quantifier": "all such streams of up to 333000 frames from initialisation, all buffers, thread states and qualities", "why_tests_cant": "absence of NaN and infinity over unbounded histories through enhancement, smoothing, oscillators and transforms", "anchors": ["src/core/mbelib.c: mbe_spectralAmpEnhance, mbe_synthesizeSpeechf, mbe_floattoshort", "src/imbe/imbe7200x4400.c: mbe_decodeImbe4400Parms, mbe_processImbe4400Dataf", "src/core/mbe_unvoiced_fft.c: mbe_synthesizeUnvoicedFFTWithNoise", "src/core/mbe_adaptive.c: mbe_applyAdaptiveSmoothing"]}
{"id": "C76", "title": "Tone frames sound the frequencies of their identifier", "statement": "With cosf and sinf accurate to 2^-23, the samples of consecutive 2450 tone frames of one identifier and amplitude, of consecutive D-STAR tone frames, and of consecutive decoder calls with such frames, differ from the sum of sinusoids of the identifier's frequencies at 8000 samples a second and the level of the amplitude code by at most 0.006 plus 4e-6 per sample elapsed, without a jump of phase between frames.", "quantifier": "all identifiers with a tone, all amplitude codes, any number of frames, all starting phases and states", "why_tests_cant": "phase drift and discontinuities over unboundedly many frames; every identifier, level and starting phase", "anchors": ["src/core/mbelib.c: mbe_synthesizeTonef, mbe_synthesizeTonefdstar", "src/ambe/ambe_common.c", "src/ambe/ambe3600x2450.c: mbe_processAmbe2450Dataf"]}
{"id": "C77", "title": "Moderate AMBE frames give numbers as samples", "statement": "With an accurate library, a stream of AMBE frames of either rate with at most 20 errors each, in which no voice frame is concealed between an erasure and the next decoded voice frame, gives only samples that are numbers of size at most 4448, as long as every parameter set decoded has amplitudes up to 2^28 and energy of at least 1e-6. That is so whenever the gain steps are at most g and the residuals lie between lo and hi with 2 g + 2.8573 (hi - lo) at most 29.2.", "quantifier": "all such streams of up to 300000 frames from initialisation, all buffers, thread states and qualities, both rates", "why_tests_cant": "absence of NaN and infinity over unbounded histories of voice, tone, erasure and concealed frames", "anchors": ["src/core/mbelib.c: mbe_spectralAmpEnhance, mbe_synthesizeSpeechf", "src/ambe/ambe3600x2450.c: mbe_decodeAmbe2450Parms, mbe_processAmbe2450Dataf", "src/ambe/ambe3600x2400.c: mbe_decodeAmbe2400Parms, mbe_processAmbe2400Dataf"]}
{"id": "C78", "title": "Error-free AMBE voice frames give numbers as samples", "statement": "A sequence of AMBE 3600x2450 voice frames received without errors gives samples that are numbers, not NaN, and the 16-bit entry points are defined on it.", "quantifier": "all sequences of error-free voice frames from initialisation, all accurate sets of library functions", "why_tests_cant": "needs a particular frame repeated about thirteen times; gain and amplitudes then feed back until enhancement overflows and every sample becomes NaN without any marker", "anchors": ["src/core/mbelib.c: mbe_spectralAmpEnhance, mbe_synthesizeSpeechf, mbe_floattoshort", "src/ambe/ambe3600x2450.c: mbe_decodeAmbe2450Parms, mbe_processAmbe2450Dataf, mbe_processAmbe2450Data"]}
{"id": "C79", "title": "The four-lane FFT computes the discrete Fourier transform", "statement": "In exact arithmetic the vector code of the real transform of 256 samples (setup, passes on four lanes, the combination of the lanes, the reordering) returns the 129 bins of the discrete Fourier transform in the packed order; the backward code returns the samples of packed bins. The old contents of output and scratch do not matter.", "quantifier": "all inputs of 256 samples, all earlier buffer contents", "why_tests_cant": "needs every lane, twiddle and sign of the 4x4 combination to be right for every bin; tests compare a few inputs with tolerances", "anchors": ["src/external/pffft/pffft.c: pffft_new_setup, radf4_ps, radb4_ps, pffft_real_finalize, pffft_real_preprocess, pffft_zreorder, pffft_transform_internal"]}
{"id": "C80", "title": "The four-lane FFT is defined and accurate in single precision", "statement": "With any functions cos and sin the vector transforms are defined on every input and do not depend on old buffer contents. With cos and sin accurate to 2^-23 and samples of size at most B, every result is finite and within B/256 (forward) or B/128 (backward) of the exact value, hence within B/128 and B/64 of the results of the scalar code; forward then backward returns 256 times the samples to 5 B.", "quantifier": "all inputs of 256 floats up to size B, all B from 1e-15 to 1e18, all accurate cos and sin, all earlier buffer contents", "why_tests_cant": "worst-case rounding over all inputs and all accurate libraries; agreement of two builds of the same source", "anchors": ["src/external/pffft/pffft.c: pffft_new_setup, radf4_ps, radb4_ps, pffft_real_finalize, pffft_real_preprocess, pffft_transform_ordered"]}
{"id": "C81", "title": "What is received does not depend on how it is made to sound", "statement": "Two decoders whose prediction history agrees (pitch, bands, voicing, amplitudes, gain, prediction logarithms, error counters) and that get the same frames return the same status strings and keep agreeing, whatever the transforms, sinf and expf return, whichever build (scalar, SSE2 or NEON, with or without tones) runs, whether a transform plan could be allocated, and whatever the thread random state, the unvoiced quality, the old output buffers, the address of the parameter sets and the remembered energies, phases and noise are.", "quantifier": "all streams of IMBE 4400 and AMBE 2450/2400 parameter frames of any length, all pairs of admissible states with the same history, all pairs of libraries that share cosf, exp2f and log2f", "why_tests_cant": "relates two whole executions over all libraries, builds and hidden states", "anchors": ["src/imbe/imbe7200x4400.c: mbe_processImbe4400Dataf_withC0", "src/ambe/ambe3600x2450.c: mbe_processAmbe2450Dataf_internal", "src/ambe/ambe3600x2400.c: mbe_processAmbe2400Dataf", "src/core/mbelib.c: mbe_spectralAmpEnhance, mbe_synthesizeSpeechf"]}
{"id": "C82", "title": "The scalar, SSE2 and NEON builds agree up to rounding", "statement": "The sums of squares of enhancement and of the noise bands, which the SSE2 and NEON code adds in four lanes and joins in different orders, are in every build within 1/50000 of the exact sum (plus 1e-36), the gain of an unvoiced band is within 1/50000 of the exact gain unless its power is within 1 % of the threshold 1e-10, and a voiced sample is within 0.008 times the largest amplitude of the exact sum of its harmonics. The scaling loops, the overlap-add and the conversion of numbers to 16 bits give the same bits. Synthesis of a frame whose bands are all voiced leaves the same state in all builds, and the samples of any two builds differ by at most 1/50 of the largest amplitude.", "quantifier": "all amplitudes up to 1e12 (1e16 for the sums), all accurate cosf and sinf, all bounded transforms, all admissible states", "why_tests_cant": "agreement of three differently ordered computations for all inputs; a test compares a few frames on one machine", "anchors": ["src/core/mbelib.c: mbe_spectralAmpEnhance, mbe_add_voiced_block4, mbe_synthesizeSpeechf", "src/core/mbe_unvoiced_fft.c: mbe_magnitude_squared_sum, mbe_synthesizeUnvoicedFFTWithNoise"]}
{"id": "C83", "title": "A build without tones is the same decoder with silent tones", "statement": "Built with NOTONES, the tone functions write 160 zeros and leave the parameter set. For every stream of AMBE 2450 frames the two builds return the same status strings, the same samples at every frame that is no tone (and zeros at tones), and end in the same voice decoder and thread state, or run into the same undefined behaviour. AMBE 2400 streams and all calls that synthesise no tone are identical in both builds.", "quantifier": "all streams of AMBE 2450 and 2400 parameter frames of any length from any admissible state, all schedules of other calls on any memory, all libraries and instruction sets", "why_tests_cant": "relates two builds over whole executions from all states; a test build is one or the other", "anchors": ["src/core/mbelib.c: mbe_synthesizeTonef, mbe_synthesizeTonefdstar", "src/ambe/ambe3600x2450.c: mbe_processAmbe2450Dataf_internal", "src/ambe/ambe3600x2400.c: mbe_processAmbe2400Dataf", "CMakeLists.txt: NOTONES"]}
{"id": "C84", "title": "The debug output shows the transmitted bits", "statement": "Each mbe_dump function prints every transmitted cell of its frame (144, 142 or 72) or every parameter bit (88 or 49) exactly once, highest bit of each code word first, with spaces at the boundaries of the code words or groups, and reads no other cell. For cells that are bits, equal outputs mean equal bits.", "quantifier": "all frames and parameter arrays of the right size with any char in each cell; injectivity for all arrays of bits", "why_tests_cant": "the whole output for all 2^144 frames, and that different frames never print alike; a test compares a few strings", "anchors": ["src/imbe/imbe7200x4400.c: mbe_dumpImbe4400Data, mbe_dumpImbe7200x4400Data, mbe_dumpImbe7200x4400Frame", "src/imbe/imbe7100x4400.c: mbe_dumpImbe7100x4400Data, mbe_dumpImbe7100x4400Frame", "src/ambe/ambe3600x2450.c: mbe_dumpAmbe2450Data, mbe_dumpAmbe3600x2450Frame", "src/ambe/ambe3600x2400.c: mbe_dumpAmbe2400Data, mbe_dumpAmbe3600x2400Frame"]}
{"id": "C85", "title": "Running out of memory only costs the unvoiced part", "statement": "Asking for a thread's FFT plan is defined whatever malloc answers. If it yields no plan, every block allocated on the way has been freed; if it yields one, the plan owns seven blocks that it keeps for the thread, its buffers are 64-byte aligned, disjoint and inside those blocks, a later request returns it without allocating, and freeing it gives back exactly its blocks.", "quantifier": "all allocators that behave as the C standard says, failing at any calls, and all interleavings of requests with allocations, frees and stores of the rest of the program", "why_tests_cant": "needs malloc to fail at every possible call, and a statement about all heap layouts; a test with a failing allocator tries a few", "anchors": ["src/core/mbe_unvoiced_fft.c: mbe_fft_plan_alloc, mbe_fft_plan_free", "src/external/pffft/pffft.c: pffft_aligned_malloc, pffft_aligned_free, pffft_new_setup, pffft_destroy_setup", "src/core/mbelib.c: mbe_get_fft_plan"]}
{"id": "C86", "title": "Careful use of the interface can fail in two ways only", "statement": "Threads share parameter sets and make calls in any order: initialisation, copies, the bare decoders, enhancement, smoothing, synthesis, tones, noise, seeds, and the processing functions for all formats, float and 16-bit. The sets given to a call are distinct, arrays have the documented sizes, bits are bits, counts lie between 0 and 100, and a set is decoded into, enhanced or synthesised only after initialisation (or a copy or a decoded model) has filled it. Then, over up to 357000 calls, undefined behaviour comes from one call, and either that call decodes with a previous frame of 56 harmonics, or it is one that delivers speech as 16-bit samples in the scalar build. With float output and no decoding every such program runs to the end.", "quantifier": "all programs of up to 357000 calls on any number of threads and sets, all libraries with an accurate exp2f, all three instruction sets, all initial memory contents", "why_tests_cant": "memory safety over all interleavings of the whole interface; the list of exceptions is exhaustive", "anchors": ["include/mbelib-neo/mbelib.h: the whole interface", "src/core/mbelib.c: mbe_synthesizeSpeechf, mbe_floattoshort", "src/imbe/imbe7200x4400.c: mbe_decodeImbe4400Parms", "src/ambe/ambe3600x2450.c: mbe_decodeAmbe2450Parms", "src/ambe/ambe3600x2400.c: mbe_decodeAmbe2400Parms"]}
{"id": "C87", "title": "Plans belong to threads, whatever malloc answers", "statement": "Threads share parameter sets and the memory of malloc, which may fail at any call; threads end and new ones begin. Every call either has an FFT plan or has none, and the answers and parameter sets are those of the decoder with or without unvoiced part accordingly. A thread that has a plan keeps it until it ends; a thread that got none asks again. Threads that share no parameter set get the answers they get alone with the same luck, and if malloc has seven blocks whenever a thread asks first, the run is the one in which every call has a plan. A careful program meets undefined behaviour only in the two ways of the property before, or in a request for a plan in which pffft_new_setup runs out of memory.", "quantifier": "all allocators that behave as the C standard says, all programs on any number of threads that come and go (up to 357000 calls for the last sentence), all libraries and instruction sets, all initial memory contents", "why_tests_cant": "needs malloc to fail at every possible call of every thread in all interleavings", "anchors": ["src/core/mbelib.c: mbe_get_fft_plan, mbe_synthesizeSpeechf", "src/core/mbe_unvoiced_fft.c: mbe_fft_plan_alloc", "include/mbelib-neo/mbelib.h: the whole interface"]}
{"id": "C88", "title": "Memory is held only by threads that run", "statement": "Whenever no thread has an FFT plan, the library holds no memory. Every thread with a plan holds seven blocks of its own, in which the plan and its four buffers lie, and calls by threads that have plans allocate nothing.", "quantifier": "all allocators that behave as the C standard says, all programs on any number of threads that come and go", "why_tests_cant": "a leak of one plan per ended thread shows only in long-running programs", "anchors": ["src/core/mbelib.c: mbe_get_fft_plan", "src/core/mbe_unvoiced_fft.c: mbe_fft_plan_alloc, mbe_fft_plan_free"]}
{"id": "C89", "title": "NULL is harmless where the source tests for it", "statement": "With a NULL set the three predicates answer no; with a NULL buffer or set comfort noise, silence, the version string and smoothing do nothing and draw no random number; tone synthesis without a set writes silence, and without a buffer leaves the set as it is. Synthesis of speech without the previous set or without a buffer is defined exactly for frames that are muted: the former gives comfort noise and leaves the current set unsmoothed, the latter smooths and draws no random number. Every other NULL given to the functions that initialise, copy, enhance, synthesise or convert is undefined behaviour.", "quantifier": "all arguments, sets, thread states, libraries and builds", "why_tests_cant": "the undefined cases cannot be tested, and the defined ones depend on the whole state", "anchors": ["src/core/mbe_adaptive.c: mbe_requiresAdaptiveSmoothing, mbe_requiresMuting, mbe_isMaxFrameRepeat, mbe_synthesizeComfortNoisef, mbe_applyAdaptiveSmoothing", "src/core/mbelib.c: mbe_printVersion, mbe_renderTonef, mbe_synthesizeTonef, mbe_synthesizeTonefdstar, mbe_synthesizeSilencef, mbe_synthesizeSpeechf"]}
{"id": "C90", "title": "Overlap-add on 32-bit ARM", "statement": "Where NEON has no division (32-bit ARM), the overlap-add of the noise multiplies by a refined reciprocal estimate and flushes subnormals. For spectra and a frame of finite floats of size at most b (1 <= b <= 1e30) it stays inside its arrays and every sample is finite and within b/200000 of the sample of the builds that divide. Whatever the floats, the first and the last 32 samples are the same bit for bit. The others are not always the same.", "quantifier": "all arrays of the right lengths; for the distance, all finite floats of size at most b and all b from 1 to 1e30", "why_tests_cant": "the tests run on one architecture, and the error must be bounded for all spectra", "anchors": ["src/core/mbe_unvoiced_fft.c: mbe_wola_combine_fast"]}
{"id": "C91", "title": "Fused multiply-add changes the sums of squares by rounding only", "statement": "Compilers may fuse a product with the addition that follows, at any places (AArch64 does, and vmlaq_f32 is such an instruction). Fused or not at each place, and with or without NEON, the energy and its weighted moment in the enhancement of at most 56 amplitudes up to 1e16 and the power of a noise band of numbers up to 1e15 stay inside their arrays and are the exact sums of squares up to a ten thousandth (1e-36 for underflow). With no fusing they are the sums of the scalar and NEON builds. The results are not the same bit for bit.", "quantifier": "all choices of fusing, all finite amplitudes and spectra of the stated sizes, all band counts and limits", "why_tests_cant": "one build fuses in one way; the bound is for all ways and all inputs", "anchors": ["src/core/mbelib.c: mbe_spectralAmpEnhance", "src/core/mbe_unvoiced_fft.c: mbe_magnitude_squared_sum"]}
{"id": "C92", "title": "Damage stays in the code word it hits", "statement": "Take a frame that encodes a parameter vector and any errors in it, as long as the first code word C0 has at most three. Then a code word gives exactly the parameter bits sent if and only if it was hit by no more errors than its code corrects (three for Golay, one for Hamming, none for plain bits), whatever happened to the others. For IMBE 7200x4400 and AMBE the same holds of C0 itself, so that without any premise the whole vector is the one sent if and only if every word was hit by no more errors than its code corrects. The error counters never exceed the channel's errors, each word counted up to what its code corrects (for AMBE when C0 was sent with even parity). Four errors in C0 alone can spoil every other code word and report ten errors.", "quantifier": "all parameter vectors, all encodings, all error patterns with at most three errors in C0, for AMBE 3600, IMBE 7200x4400 and IMBE 7100x4400", "why_tests_cant": "tests use patterns within the reach of the codes; the number of patterns beyond it is 2^100 and more", "anchors": ["src/ambe/ambe_common.c: mbe_eccAmbe3600C0_common, mbe_demodulateAmbe3600Data_common, mbe_eccAmbe3600Data_common", "src/imbe/imbe7200x4400.c: mbe_eccImbe7200x4400C0, mbe_demodulateImbe7200x4400Data, mbe_eccImbe7200x4400Data", "src/imbe/imbe7100x4400.c: mbe_eccImbe7100x4400C0, mbe_demodulateImbe7100x4400Data, mbe_eccImbe7100x4400Data"]}
{"id": "C93", "title": "Repeat and mute decisions hardly depend on rounding", "statement": "Compilers may fuse products with additions in the error rate filter, the local energy filter and the repeat threshold, differently in every frame. After any number of frames with at most 15 (IMBE) or 6 (AMBE) errors each, the filtered error rate is within 1e-6 of the filter computed with real numbers. The local energy never falls below its floor of 10000 and is within one part in 100000 of the loudest frame. From a fresh IMBE state, every build repeats and mutes exactly the frames that exact arithmetic repeats and mutes, as long as no rate comes within 2e-6 of the muting threshold and no error count within 1e-4 of the repeat threshold. Without this condition builds can differ: 56 frames are given of which the last is muted by a build that fuses and played by one that does not.", "quantifier": "all choices of fusing at every place in every frame, all streams of any length, all parameter bits, all current sets", "why_tests_cant": "one build fuses in one way; rounding errors accumulate over streams of any length, and the streams on which builds differ are rare", "anchors": ["src/imbe/imbe7200x4400.c: mbe_processImbe4400Dataf_withC0", "src/ambe/ambe3600x2450.c: mbe_processAmbe2450Dataf", "src/ambe/ambe3600x2400.c: mbe_processAmbe2400Dataf", "src/core/mbe_adaptive.c: mbe_applyAdaptiveSmoothing, mbe_requiresMuting"]}
{"id": "C94", "title": "Fused arithmetic leaves the pitch and phase of tones unchanged", "statement": "Compilers may fuse products with additions in tone synthesis: in the phase step, in the angle of every sample and in the sum of the two tones, differently at every sample. Any sequence of tone frames, of any identifiers and amplitudes, leaves exactly the same parameter set as without fusing, so that pitch and phase never drift between builds. With an accurate sine every sample of any such sequence is within 0.012 of the sample without fusing (full level is 4447), and tones of one identifier are the sinusoids of its frequencies within the bound of the unfused build. The samples are not identical: a frame is given whose first sample differs.", "quantifier": "all choices of fusing at every sample, all sequences of tone frames of any length, all starting phases, all library sines (accurate ones for the bounds)", "why_tests_cant": "tests run one build over short streams; that builds do not drift apart is a statement about streams of any length", "anchors": ["src/core/mbelib.c: mbe_tonePhaseStep, mbe_toneSampleFromPhase, mbe_renderTonef, mbe_synthesizeTonef, mbe_synthesizeTonefdstar"]}
{"id": "C95", "title": "Fused arithmetic keeps voiced oscillators on their cosines", "statement": "Compilers may fuse products with additions in the recurrence that turns each voiced oscillator from sample to sample, and in the addition of its windowed value to the output, differently at every sample. With a cosine and a sine accurate to 2^-23, whatever is fused and in scalar, SSE2 and NEON builds, each of the 160 samples is increased by the cosine of its phase times the window and twice the amplitude, up to 0.00026 of the amplitude and a ten millionth of the sample. So any two builds agree up to twice that. The samples are not identical in general.", "quantifier": "all choices of fusing at every sample, all phases and pitches for which the library is accurate, all finite amplitudes and samples up to 1e30, both window halves, all builds", "why_tests_cant": "the recurrence accumulates rounding errors over 160 steps in a way that depends on every choice of the compiler; a test sees one build", "anchors": ["src/core/mbelib.c: mbe_add_voiced_block4, mbe_synthesizeSpeechf"]}
{"id": "C96", "title": "Interpolated harmonics follow their phases from frame to frame", "statement": "For the first seven harmonics with steady pitch, voiced in both frames, synthesis interpolates phase and amplitude over the frame. With a cosine and a sine accurate to 2^-23, pitches up to 0.4, phases up to 16 and finite amplitudes up to M, there is a whole number of turns for which the frequency is corrected by half a turn per frame at most (up to rounding), and each of the 160 samples is increased by twice the interpolated amplitude times the cosine of the interpolated phase, up to 0.0013 M and a ten millionth of the sample. The interpolated phase starts at the previous phase and ends at the current one less whole turns. This holds in builds that fuse products and additions at any places, which all choose the same number of turns, so any two agree up to twice the error.", "quantifier": "all choices of fusing at every place and sample, all harmonics 1 to 7, all pitches, phases, amplitudes and samples in range, all accurate libraries", "why_tests_cant": "rounding errors of phases of hundreds of radians add up over the frame and depend on the compiler; tests hear one build", "anchors": ["src/core/mbelib.c: mbe_synthesizeSpeechf"]}
{"id": "C97", "title": "Voiced synthesis is the sum of its harmonics in every build", "statement": "The voiced part of a frame is made of up to 56 harmonics: the first seven glide in phase and amplitude when the pitch is steady and both frames are voiced, and all others fade out from the previous phase and in towards the current one. With a cosine and a sine accurate to 2^-23, pitches up to 0.4, phases up to 16 and amplitudes up to M, every sample is the sum of the harmonics computed with real numbers, up to 0.0031 M for each harmonic. This holds in scalar, SSE2 and NEON builds, with products and additions fused in any way in each harmonic and sample, so any two such builds agree up to twice the error.", "quantifier": "all choices of fusing for every harmonic, place and sample, all pairs of parameter sets in range, any voicing, all accurate libraries", "why_tests_cant": "the errors of 56 recurrences add up, in ways that depend on the build; a test compares one build with stored samples", "anchors": ["src/core/mbelib.c: mbe_synthesizeSpeechf, mbe_add_voiced_block4"]}
