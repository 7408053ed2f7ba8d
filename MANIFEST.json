{
 "claims": [
  {
   "property": "C01",
   "status": "proved",
   "theorems": [
    "C01_golay_block_corrects_three"
   ],
   "note": "Full statement."
  },
  {
   "property": "C02",
   "status": "proved",
   "theorems": [
    "C02_golay_nearest_codeword"
   ],
   "note": "Full statement."
  },
  {
   "property": "C03",
   "status": "partial",
   "theorems": [
    "C03_golay_block_upper_bits_refuted",
    "C03_golay_block_upper_bits_partial"
   ],
   "note": "The statement is false of the code: bits 23..31 of the argument appear as bits 12..20 of the result. The second theorem states exactly what happens for every long."
  },
  {
   "property": "C04",
   "status": "proved",
   "theorems": [
    "C04_hamming_corrects_one"
   ],
   "note": "Full statement."
  },
  {
   "property": "C05",
   "status": "proved",
   "theorems": [
    "C05_hamming7100_corrects_one"
   ],
   "note": "Full statement."
  },
  {
   "property": "C06",
   "status": "proved",
   "theorems": [
    "C06_ambe_c0_correction"
   ],
   "note": "Full statement."
  },
  {
   "property": "C07",
   "status": "partial",
   "theorems": [
    "C07_ambe_c0_parity_refuted",
    "C07_ambe_c0_parity_partial"
   ],
   "note": "False of the code: the test looks at corrected data bits only, so a single check-bit error makes the code flip a correct extra bit. The second theorem states when the extra bit changes."
  },
  {
   "property": "C08",
   "status": "proved",
   "theorems": [
    "C08_ambe_demodulation"
   ],
   "note": "Full statement."
  },
  {
   "property": "C09",
   "status": "proved",
   "theorems": [
    "C09_ambe_recovers",
    "C09_ambe_encoding_exists"
   ],
   "note": "Full statement for the error-correction half of the frame entry points, with exact error counts."
  },
  {
   "property": "C10",
   "status": "proved",
   "theorems": [
    "C10_imbe7200_demodulation"
   ],
   "note": "Full statement."
  },
  {
   "property": "C11",
   "status": "proved",
   "theorems": [
    "C11_imbe7200_recovers",
    "C11_imbe7200_encoding_exists"
   ],
   "note": "Full statement for the error-correction half of the frame entry point, with exact error counts."
  },
  {
   "property": "C12",
   "status": "proved",
   "theorems": [
    "C12_imbe7100_demodulation"
   ],
   "note": "Full statement."
  },
  {
   "property": "C13",
   "status": "proved",
   "theorems": [
    "C13_imbe7100_recovers",
    "C13_imbe7100_encoding_exists"
   ],
   "note": "Full statement."
  },
  {
   "property": "C14",
   "status": "proved",
   "theorems": [
    "C14_conversion_is_rearrangement",
    "C14_conversion_injective"
   ],
   "note": "Full statement."
  },
  {
   "property": "C15",
   "status": "proved",
   "theorems": [
    "C15_ambe_counters",
    "C15_imbe7200_counters",
    "C15_imbe7100_counters",
    "C15_status_2450",
    "C15_status_2400",
    "C15_status_7200",
    "C15_status_7100"
   ],
   "note": "Full statement: counters of the error-correction half for every 0/1 frame, and the number of status bytes of every frame call that returns."
  },
  {
   "property": "C16",
   "status": "proved",
   "theorems": [
    "C16_status_imbe",
    "C16_status_ambe2450",
    "C16_status_ambe2400"
   ],
   "note": "Full statement for every call that returns."
  },
  {
   "property": "C17",
   "status": "proved",
   "theorems": [
    "C17_rejected",
    "C17_accepted",
    "C17_size",
    "C17_fundamental"
   ],
   "note": "Accepted frames: conditional on the call returning; C18_defined says when it returns. K is min(12, floor((L+2)/3))."
  },
  {
   "property": "C18",
   "status": "proved",
   "theorems": [
    "C18_permutation",
    "C18_fields",
    "C18_sizes",
    "C18_defined"
   ],
   "note": "Uninitialised or out-of-range reads are UB in the model. The history read with 56 previous harmonics is C19."
  },
  {
   "property": "C19",
   "status": "partial",
   "theorems": [
    "C19_refuted",
    "C19_every",
    "C19_ambe_refuted",
    "C19_ambe_every",
    "C19_out_of_range",
    "C19_out_of_range_2450",
    "C19_out_of_range_2400"
   ],
   "note": "False for all three codecs: after a frame of 56 harmonics the next accepted frame reads log2Ml[57] unless it has 23 or 46 harmonics. C19_refuted and C19_ambe_refuted: the same frame of 56 harmonics twice, from initialisation."
  },
  {
   "property": "C20",
   "status": "proved",
   "theorems": [
    "C20_classification",
    "C20_public",
    "C20_tone",
    "C20_erasure",
    "C20_voice",
    "C20_silence"
   ],
   "note": "Full statement, with the effect of every class on the states."
  },
  {
   "property": "C21",
   "status": "proved",
   "theorems": [
    "C21_defined",
    "C21_size"
   ],
   "note": "Out-of-range and uninitialised reads are UB in the model; previous states with 0..55 harmonics, and 56 where it is harmless."
  },
  {
   "property": "C22",
   "status": "proved",
   "theorems": [
    "C22_classification",
    "C22_tone",
    "C22_dual",
    "C22_silence",
    "C22_voice",
    "C22_defined",
    "C22_size"
   ],
   "note": "For every exp2f within 1% of the true value at the pitch exponent (C22_close shows one exists)."
  },
  {
   "property": "C23",
   "status": "proved",
   "theorems": [
    "C23_step",
    "C23_muted",
    "C23_history",
    "C23_range",
    "C23_cycle"
   ],
   "note": "Full statement; M means comfort noise when the stored threshold is the IMBE one (C25 says when it is not)."
  },
  {
   "property": "C24",
   "status": "partial",
   "theorems": [
    "C24_step2450",
    "C24_step2400",
    "C24_counts",
    "C24_counts_kept",
    "C24_run",
    "C24_four",
    "C24_equal_refuted"
   ],
   "note": "All proved, for both rates, except that the stored counters are equal: that clause is false, a tone frame clears the counter of the current set and leaves the one of the previous set."
  },
  {
   "property": "C25",
   "status": "partial",
   "theorems": [
    "C25_refuted",
    "C25_partial",
    "C25_stream_partial"
   ],
   "note": "False: a concealed IMBE frame copies the previous state including the AMBE threshold. Holds after every decoded frame and over every stream that starts with the IMBE threshold."
  },
  {
   "property": "C26",
   "status": "partial",
   "theorems": [
    "C26_refuted",
    "C26_every",
    "C26_ambe_refuted",
    "C26_ambe_every"
   ],
   "note": "False: seven errors a frame (IMBE) add 3900 to the threshold every frame, which overflows after about 551000 frames (three hours); one error a frame (AMBE) adds at least 5700, about 377000 frames (two hours). C54_imbe_stream and C54_ambe_stream give the number of frames that are safe."
  },
  {
   "property": "C27",
   "status": "proved",
   "theorems": [
    "C27_clean_stream"
   ],
   "note": "Full statement for every smoothing call that returns; the sum is the single-precision sum in band order."
  },
  {
   "property": "C28",
   "status": "proved",
   "theorems": [
    "C28_energy_floor",
    "C28_energy_number",
    "C28_never_unvoices",
    "C28_other_fields"
   ],
   "note": "Full statement for every smoothing call that returns."
  },
  {
   "property": "C29",
   "status": "proved",
   "theorems": [
    "C29_imbe",
    "C29_ambe"
   ],
   "note": "Full statement."
  },
  {
   "property": "C30",
   "status": "proved",
   "theorems": [
    "C30_all_paths",
    "C30_range",
    "C30_monotone",
    "C30_odd",
    "C30_nan_undefined",
    "C30_nan_paths_differ",
    "C30_library",
    "C30_nan_library"
   ],
   "note": "Full statement; 7x is the single-precision product."
  },
  {
   "property": "C31",
   "status": "proved",
   "theorems": [
    "C31_speech",
    "C31_tone",
    "C31_dstar_tone"
   ],
   "note": "Full statement for speech, for every oracle; also tones, given a sine bounded by 1."
  },
  {
   "property": "C32",
   "status": "proved",
   "theorems": [
    "C32_bounded",
    "C32_short"
   ],
   "note": "Full statement for every thread state and every 160-sample buffer; includes that the calls are defined."
  },
  {
   "property": "C33",
   "status": "proved",
   "theorems": [
    "C33_java",
    "C33_default_seed",
    "C33_period",
    "C33_all_states"
   ],
   "note": "Full statement."
  },
  {
   "property": "C34",
   "status": "proved",
   "theorems": [
    "C34_period",
    "C34_all_values",
    "C34_generator",
    "C34_stream",
    "C34_overlap",
    "C34_exact"
   ],
   "note": "Full statement. The buffer of the cold start is all zeros; buffers after it are windows of one sequence."
  },
  {
   "property": "C35",
   "status": "proved",
   "theorems": [
    "C35_used_once",
    "C35_default",
    "C35_defined"
   ],
   "note": "Full statement over every sequence of noise requests, comfort-noise frames and handoffs on a thread."
  },
  {
   "property": "C36",
   "status": "proved",
   "theorems": [
    "C36_threads",
    "C36_defined",
    "C36_footprint",
    "C36_changes",
    "C36_copies"
   ],
   "note": "Full statement for the public calls that use parameter sets or thread-local state; a call is one step. That the library has no other mutable static data is read off the source (DESIGN.md)."
  },
  {
   "property": "C37",
   "status": "proved",
   "theorems": [
    "C37_accepted",
    "C37_dtmf"
   ],
   "note": "Full statement."
  },
  {
   "property": "C38",
   "status": "proved",
   "theorems": [
    "C38_frames",
    "C38_samples",
    "C38_dstar"
   ],
   "note": "Full statement, with the phase step equal to the exact rounded value of 2^32 f / 8000."
  },
  {
   "property": "C39",
   "status": "partial",
   "theorems": [
    "C39_refuted",
    "C39_every"
   ],
   "note": "False: every 2400 frame of the tone class ends in comfort noise and a reset, whatever tone synthesis wrote before."
  },
  {
   "property": "C40",
   "status": "proved",
   "theorems": [
    "C40_history",
    "C40_continues",
    "C40_voice"
   ],
   "note": "Exact result of a tone call with both history sets unchanged, and every later call gives the same result as without it (tone phases apart)."
  },
  {
   "property": "C41",
   "status": "partial",
   "theorems": [
    "C41_refuted",
    "C41_partial"
   ],
   "note": "False: an erasure frame (pitch 0) followed by a concealed frame leaves NaN amplitudes. The witness has a cosine with cos 0 = 1. C41_partial: in streams of moderate frames with no concealed frame directly after an erasure all amplitudes are numbers."
  },
  {
   "property": "C42",
   "status": "partial",
   "theorems": [
    "C42_symmetric_refuted",
    "C42_plateau_refuted",
    "C42_formula_partial"
   ],
   "note": "False of the code: the table holds 110 ones instead of 111, so w(55) = 0.98 while w(-55) = 1, and 0.3 is stored twice. Proved instead: the exact formula of the stored window for every integer."
  },
  {
   "property": "C43",
   "status": "proved",
   "theorems": [
    "C43_reference",
    "C43_fast",
    "C43_sse2",
    "C43_normaliser"
   ],
   "note": "Full statement for the reference, the scalar fast path and the vector path that the SSE2 and AArch64 builds share (C43_sse2). The 32-bit ARM path (reciprocal estimate) is not modelled."
  },
  {
   "property": "C44",
   "status": "proved",
   "theorems": [
    "C44_edges",
    "C44_tiling",
    "C44_defined"
   ],
   "note": "Full statement for 0 <= L <= 56 and every finite pitch from 0 to 1000 rad/sample."
  },
  {
   "property": "C45",
   "status": "proved",
   "theorems": [
    "C45_init_generic",
    "C45_init_ambe",
    "C45_copy"
   ],
   "note": "Full statement; wf_parms says only that the arrays have their declared lengths."
  },
  {
   "property": "C46",
   "status": "proved",
   "theorems": [
    "C46_imbe_data",
    "C46_ambe2450_data",
    "C46_ambe2400_data",
    "C46_speech",
    "C46_comfort_noise",
    "C46_imbe7200",
    "C46_imbe7100",
    "C46_ambe3600x2450",
    "C46_ambe3600x2400",
    "C46_knob_imbe",
    "C46_knob_ambe2450",
    "C46_knob_ambe2400"
   ],
   "note": "Full statement, including that the contents of the float buffer before the call never matter."
  },
  {
   "property": "C47",
   "status": "partial",
   "theorems": [
    "C47_begin",
    "C47_once",
    "C47_imbe",
    "C47_refuted"
   ],
   "note": "Proved for every state whose stored threshold is not the AMBE one, in particular initialised states and states in normal IMBE use. False after AMBE use followed only by concealed IMBE frames (C47_refuted)."
  },
  {
   "property": "C48",
   "status": "proved",
   "theorems": [
    "C48_effect",
    "C48_band"
   ],
   "note": "Full statement: C48_effect gives definedness, the weights and the correction; C48_band the consequences per harmonic."
  },
  {
   "property": "C49",
   "status": "proved",
   "theorems": [
    "C49_bounded"
   ],
   "note": "Bound 108 for all streams from initialisation; invariant: entries within a window of width 127. Cosine assumed in [-1,1], exp2f exact at integers 0..9."
  },
  {
   "property": "C50",
   "status": "proved",
   "theorems": [
    "C50_version_fits"
   ],
   "note": "Full statement."
  },
  {
   "property": "C51",
   "status": "proved",
   "theorems": [
    "C51_used_once",
    "C51_value",
    "C51_other_set",
    "C51_imbe",
    "C51_ambe"
   ],
   "note": "Full statement; for AMBE the thread has no pending energy before the stream, as at start."
  },
  {
   "property": "C52",
   "status": "proved",
   "theorems": [
    "C52_frame"
   ],
   "note": "Full statement for every 0/1 frame and every admissible state."
  },
  {
   "property": "C53",
   "status": "proved",
   "theorems": [
    "C53_wrapped",
    "C53_muted",
    "C53_finite"
   ],
   "note": "Full statement for every speech call that returns; also that the wrapped phase is congruent to the old one and that finiteness is preserved."
  },
  {
   "property": "C54",
   "status": "proved",
   "theorems": [
    "C54_imbe",
    "C54_imbe_stream",
    "C54_ambe",
    "C54_ambe_stream"
   ],
   "note": "Full statement for single calls; also whole streams from initialisation. For 2400 exp2f must be within 1% at the pitch exponents."
  },
  {
   "property": "C55",
   "status": "partial",
   "theorems": [
    "C55_imbe",
    "C55_2450",
    "C55_2400",
    "C55_silence",
    "C55_refuted"
   ],
   "note": "Proved for IMBE, 2450 voice and 2400 voice frames; false for the two AMBE 2450 silence codes, whose fundamental is pi/32 times 2 pi (C55_refuted, C55_silence)."
  },
  {
   "property": "C56",
   "status": "proved",
   "theorems": [
    "C56_frame",
    "C56_run"
   ],
   "note": "Full statement."
  },
  {
   "property": "C57",
   "status": "partial",
   "theorems": [
    "C57_refuted",
    "C57_partial"
   ],
   "note": "False: a concealed frame copies the state from before the synthesis of the last frame, so the generator goes back 160 draws and the same noise is used again. Proved for decoded frames; C57_partial also says what concealed frames do."
  },
  {
   "property": "C58",
   "status": "partial",
   "theorems": [
    "C58_refuted",
    "C58_stays",
    "C58_blind"
   ],
   "note": "False: an erasure, a concealed and an unknown-tone frame make it NaN, after which decoded voice frames never repair it and smoothing never changes the voicing again."
  },
  {
   "property": "C59",
   "status": "proved",
   "theorems": [
    "C59_imbe7200",
    "C59_imbe7100",
    "C59_ambe2450",
    "C59_ambe2400",
    "C59_any7200",
    "C59_any7100",
    "C59_any2450",
    "C59_any2400"
   ],
   "note": "Full statement for all four formats."
  },
  {
   "property": "C60",
   "status": "proved",
   "theorems": [
    "C60_imbe",
    "C60_ambe2450",
    "C60_ambe2400"
   ],
   "note": "Full statement, including undefined behaviour: the cached decoders are defined exactly when the direct ones are."
  },
  {
   "property": "C61",
   "status": "proved",
   "theorems": [
    "C61_imbe"
   ],
   "note": "Full statement in the library's float arithmetic, for every previous frame the decoder can use without reading out of range (C19)."
  },
  {
   "property": "C62",
   "status": "proved",
   "theorems": [
    "C62_2450",
    "C62_2400"
   ],
   "note": "Full statement in the library's float arithmetic, for every previous frame the decoder can use without reading out of range (C19). 2400 assumes exp2f within 1% at the pitch exponent."
  },
  {
   "property": "C63",
   "status": "proved",
   "theorems": [
    "C63_imbe",
    "C63_2400",
    "C63_fields"
   ],
   "note": "Full statement."
  },
  {
   "property": "C64",
   "status": "proved",
   "theorems": [
    "C64_speech",
    "C64_unvoiced"
   ],
   "note": "Full statement in the library's float arithmetic, for pitches of 0..1000 rad/sample, error counts up to a million and thresholds up to 2e9 (beyond that the sum overflows, C26)."
  },
  {
   "property": "C65",
   "status": "proved",
   "theorems": [
    "C65_smoothing"
   ],
   "note": "Full statement, same ranges as C64."
  },
  {
   "property": "C66",
   "status": "partial",
   "theorems": [
    "C66_refuted",
    "C66_count"
   ],
   "note": "False: the count includes entry 0 of the voicing array, which is always 0, so it is one too large (C66_count) and an all-voiced frame gets random phases (C66_refuted)."
  },
  {
   "property": "C67",
   "status": "proved",
   "theorems": [
    "C67_oscillator"
   ],
   "note": "Full statement."
  },
  {
   "property": "C68",
   "status": "proved",
   "theorems": [
    "C68_bounded"
   ],
   "note": "Full statement for every stream that returns; for 2400 exp2f is within 1% at the pitch exponents."
  },
  {
   "property": "C69",
   "status": "proved",
   "theorems": [
    "C69_formula",
    "C69_cosine"
   ],
   "note": "Full statement; C69_cosine assumes cosf and sinf accurate to 2^-23 at w0."
  },
  {
   "property": "C70",
   "status": "proved",
   "theorems": [
    "C70_energy"
   ],
   "note": "Full statement."
  },
  {
   "property": "C71",
   "status": "proved",
   "theorems": [
    "C71_forward",
    "C71_backward",
    "C71_roundtrip"
   ],
   "note": "Full statement, over the real numbers; the default scalar build."
  },
  {
   "property": "C72",
   "status": "proved",
   "theorems": [
    "C72_forward",
    "C72_backward"
   ],
   "note": "Full statement."
  },
  {
   "property": "C73",
   "status": "proved",
   "theorems": [
    "C73_forward",
    "C73_backward",
    "C73_roundtrip"
   ],
   "note": "Full statement; the tables of cosines are computed from cos and sin assumed accurate to 2^-23 on angles up to 3."
  },
  {
   "property": "C74",
   "status": "partial",
   "theorems": [
    "C74_refuted",
    "C74_every",
    "C74_short"
   ],
   "note": "False of the code: one valid frame repeated eight times gives NaN samples for every accurate library. What holds for amplitudes below the overflow is in C75."
  },
  {
   "property": "C75",
   "status": "proved",
   "theorems": [
    "C75_enhance",
    "C75_speech",
    "C75_stream",
    "C75_residuals",
    "C75_short",
    "C75_transforms"
   ],
   "note": "Accuracy of cosf, sinf and exp2f is a hypothesis; the bound on the transforms is proved for the modelled PFFFT (C75_transforms). The level of the decoded parameter sets is a hypothesis in C75_stream and follows from the bits in C75_residuals."
  },
  {
   "property": "C76",
   "status": "proved",
   "theorems": [
    "C76_frames",
    "C76_dstar",
    "C76_calls"
   ],
   "note": "Accuracy of cosf and sinf on angles up to 5 is a hypothesis."
  },
  {
   "property": "C77",
   "status": "proved",
   "theorems": [
    "C77_pitch2450",
    "C77_pitch2400",
    "C77_stream",
    "C77_residuals"
   ],
   "note": "Accuracy of the library functions and a bound on the transforms (C75_transforms) are hypotheses. The level of the decoded parameter sets is a hypothesis in C77_stream and follows from the bits in C77_residuals. The condition on concealed frames after erasures is needed (C41)."
  },
  {
   "property": "C78",
   "status": "partial",
   "theorems": [
    "C78_refuted",
    "C78_every",
    "C78_short"
   ],
   "note": "False of the code: one valid voice frame of 42 harmonics repeated thirteen times gives NaN samples for every accurate library. What holds for amplitudes below the overflow is in C77."
  },
  {
   "property": "C79",
   "status": "proved",
   "theorems": [
    "C79_forward",
    "C79_backward"
   ],
   "note": "Full statement, for the path with vectors of four floats (SIMD_SZ 4)."
  },
  {
   "property": "C80",
   "status": "proved",
   "theorems": [
    "C80_forward",
    "C80_backward",
    "C80_forward_error",
    "C80_backward_error",
    "C80_forward_scalar",
    "C80_backward_scalar",
    "C80_roundtrip",
    "C80_bounded"
   ],
   "note": "Full statement; accuracy of cos and sin on angles up to 3 is a hypothesis. Vector operations are taken to be the scalar IEEE operations on each lane."
  },
  {
   "property": "C81",
   "status": "proved",
   "theorems": [
    "C81_imbe",
    "C81_ambe"
   ],
   "note": "Stated for pairs of runs that both stay defined; C54 says when they do."
  },
  {
   "property": "C82",
   "status": "proved",
   "theorems": [
    "C82_energy",
    "C82_moments",
    "C82_power",
    "C82_gain",
    "C82_voiced",
    "C82_same",
    "C82_speech"
   ],
   "note": "The overlap-add part of the statement is C43_fast and C43_sse2, the conversion part C30_library. The builds are compared with the same transforms; C80_forward_scalar and C80_backward_scalar compare the transforms. No bound is claimed for the samples of a frame with unvoiced bands."
  },
  {
   "property": "C83",
   "status": "proved",
   "theorems": [
    "C83_tone",
    "C83_dstar",
    "C83_stream",
    "C83_2400",
    "C83_rest"
   ],
   "note": "The same voice decoder means equal up to the two tone phases, and for the current set also up to the error fields and repeat counters, which every frame writes before it reads them."
  },
  {
   "property": "C84",
   "status": "proved",
   "theorems": [
    "C84_data",
    "C84_ambe_data",
    "C84_7200",
    "C84_7100",
    "C84_3600",
    "C84_7200_bits",
    "C84_7100_bits",
    "C84_3600_bits",
    "C84_data_bits",
    "C84_ambe_data_bits"
   ],
   "note": "Full statement. The output is the list of strings handed to fprintf; write errors of stderr are not modelled."
  },
  {
   "property": "C85",
   "status": "partial",
   "theorems": [
    "C85_refuted",
    "C85_unhandled",
    "C85_handled",
    "C85_no_leak",
    "C85_free",
    "C85_usable",
    "C85_once"
   ],
   "note": "False as stated: pffft_new_setup uses the results of its two allocations without a test (finding 25), so the second or third failing call is undefined behaviour. Everything else in the statement is proved, for all allocators."
  },
  {
   "property": "C86",
   "status": "proved",
   "theorems": [
    "C86_only",
    "C86_any",
    "C86_hours",
    "C86_vector",
    "C86_floats"
   ],
   "note": "The grades of SpecSafe.v say what a set holds. C86_case shows programs that meet each of the two ways. The bound on the number of calls keeps the adaptive threshold inside int, which it leaves in longer runs (finding 6); C86_any has no bound and says that nothing else happens in a longer run."
  },
  {
   "property": "C87",
   "status": "proved",
   "theorems": [
    "C87_plans",
    "C87_threads",
    "C87_enough",
    "C87_safe",
    "C87_any"
   ],
   "note": "C87_any has no bound on the number of calls. Which calls get as far as mbe_get_fft_plan is part of the events of MProcess and arbitrary; C87_enough needs that a call marked as not asking goes the same way with and without a plan."
  },
  {
   "property": "C88",
   "status": "partial",
   "theorems": [
    "C88_refuted",
    "C88_memory",
    "C88_quiet"
   ],
   "note": "False as stated: a thread that ends leaves the seven blocks of its plan (finding 26; C88_refuted shows fourteen blocks and no plan). C88_memory accounts for every block: seven for each thread with a plan, seven for each thread that ended with one, and nothing else."
  },
  {
   "property": "C89",
   "status": "proved",
   "theorems": [
    "C89_quiet",
    "C89_tone",
    "C89_dstar",
    "C89_tone_frame",
    "C89_speech",
    "C89_short",
    "C89_rest",
    "C89_ordinary"
   ],
   "note": "Full statement for the functions of MNull.v. The frame decoders, mbe_decode* and mbe_process* test none of their arguments and are left out."
  },
  {
   "property": "C90",
   "status": "proved",
   "theorems": [
    "C90_close",
    "C90_outside",
    "C90_reciprocal",
    "C90_estimate",
    "C90_identical_refuted"
   ],
   "note": "Full statement for the overlap-add itself. The estimate is that of the ARM architecture manual. The theorems about whole frames are for the builds that divide."
  },
  {
   "property": "C91",
   "status": "proved",
   "theorems": [
    "C91_fma",
    "C91_energy",
    "C91_moments",
    "C91_power",
    "C91_unfused",
    "C91_identical_refuted"
   ],
   "note": "Full statement for the three sums. Other contractions of the program, and what they do to whole frames, are not modelled. Limits of bands are at most 128, as mbe_synthesizeUnvoicedFFTWithNoise has them."
  },
  {
   "property": "C92",
   "status": "proved",
   "theorems": [
    "C92_imbe7200",
    "C92_imbe7100",
    "C92_ambe",
    "C92_exact_imbe7200",
    "C92_exact_ambe",
    "C92_first_imbe7200",
    "C92_first_ambe",
    "C92_first_word_refuted"
   ],
   "note": "Full statement. The last sentence is the refutation of the statement without the premise on C0."
  },
  {
   "property": "C93",
   "status": "proved",
   "theorems": [
    "C93_rate_imbe",
    "C93_rate_ambe",
    "C93_energy",
    "C93_decisions",
    "C93_unfused",
    "C93_unfused_energy",
    "C93_identical_refuted"
   ],
   "note": "Full statement. The last sentence is the refutation of the statement without the premise on the rates. The parameter decoder inside the modelled frame is the one without fusing; the decisions do not depend on its floats."
  },
  {
   "property": "C94",
   "status": "proved",
   "theorems": [
    "C94_frames",
    "C94_dstar",
    "C94_phases",
    "C94_phases_dstar",
    "C94_close",
    "C94_identical_refuted"
   ],
   "note": "Full statement. The last sentence is the refutation of the statement that samples are identical, for every sine that returns tiny arguments unchanged."
  },
  {
   "property": "C95",
   "status": "proved",
   "theorems": [
    "C95_oscillator",
    "C95_close",
    "C95_unfused",
    "C95_identical_refuted"
   ],
   "note": "Full statement. C95_unfused ties the fused model to the oscillator of C67; the last sentence is the refutation of the statement that samples are identical."
  },
  {
   "property": "C96",
   "status": "proved",
   "theorems": [
    "C96_glide",
    "C96_ends",
    "C96_close",
    "C96_unfused"
   ],
   "note": "Full statement. C96_unfused ties the fused model to the interpolated harmonics of the decoder model."
  },
  {
   "property": "C97",
   "status": "proved",
   "theorems": [
    "C97_voiced",
    "C97_close",
    "C97_unfused"
   ],
   "note": "Full statement. C97_unfused ties each fused harmonic to the decoder model."
  }
 ]
}
