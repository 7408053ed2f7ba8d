# Formal model of mbelib-neo: design

`/repo` is read as text only. It is never built or run. `/verif/rocq/theories` holds a Coq 8.16 model of the C code,
independent specifications, and proofs.

## Modelling conventions

* **C semantics.** Functions are total, computable Gallina functions returning `res A`, either `Ok a` or `UB why`.
  Undefined behaviour (out-of-bounds index, read of an uninitialised local, signed overflow, float-to-int conversion
  out of range) is the distinct outcome `UB`. Unsigned arithmetic wraps explicitly.
* **Arrays** are lists. A read or write outside the list is `UB`. Uninitialised local arrays are lists of `option`.
* **Structs.** `mbe_parms` is a record with all 22 fields. Pointer arguments become values taken and returned.
  `cur_mp`, `prev_mp` and `prev_mp_enhanced` are distinct objects, as the API requires.
* **Floats** are `spec_float` values of the Coq standard library (`Coq.Floats.SpecFloat`) with `prec=24, emax=128`
  for `float` and `prec=53, emax=1024` for `double`. Rounding is to nearest even, which is C with FLT_EVAL_METHOD 0,
  no fast-math and no FMA contraction. NaN payloads are not modelled.
* **Library functions** (`cosf sinf exp2f log2f expf` and the two PFFFT transforms) are fields of an oracle record
  passed as an argument. `sqrtf floorf ceilf fabsf fmodf` are modelled exactly. A theorem that needs a fact about an
  oracle has it as an explicit hypothesis.
* **Thread-local state** is a record `tls`. A process is a map from threads to `tls`.
* **Build configuration**: fast-math and debug logs off, `NOTONES` off or on (field `o_tones` of the oracle). The default scalar build, the x86-64 (SSE2) build and the
  AArch64 (NEON) build with `MBELIB_ENABLE_SIMD` are modelled; the field `o_simd` of the oracle selects one (type `build`, file `Build.v`).
* **Tables** are generated from the C sources by `tools/gen_tables.py`; decimal literals are rounded to double and
  then to float as the compiler does.

## File layout

`Res F32` basics; `Tab*` generated tables; `M*` model (no proofs); `Spec*` independent specifications; `P*` proofs;
`Prop*` theorem statements only, closed with `exact`, each followed by `Print Assumptions` and a non-vacuity example.

## Plan per property

| Property | What is modelled | How it is proved |
|---|---|---|
| C01 C02 | ecc.c Golay functions on integers and bit lists | Linearity of the syndrome; table checked against all 2048 syndromes by computation; minimum distance 7 by computation over 4096 codewords. The specification is polynomial divisibility, not the tables |
| C03 | same, all long values | Expected false: witness by computation; restricted to 23-bit values it is a theorem |
| C04 C05 | ecc.c Hamming functions | Linearity of the syndrome, checks on the basis words by computation |
| C06 C07 | ambe_common.c C0 correction | From C02; C07 expected false, witness |
| C08 C10 C12 | demodulation loops | Symbolic execution on frames of fixed shape and arbitrary contents |
| C09 C11 C13 | frame entry points up to parameter decode | Compose C02, C04/C05, C08/C10/C12 with an independent encoder |
| C14 | convert7100to7200 including the float computation of K | Ten cases of K, symbolic contents |
| C15 | frame entry points | From C02, C04, C05, C06 |
| C16 | process functions | Unfolding with case analysis on the marker branches |
| C17 C18 | mbe_decodeImbe4400Parms | Finite check over 208 pitch codes, symbolic payload |
| C19 | decode functions | Expected false at 56 harmonics: witness; theorem for at most 55 |
| C20 C21 C22 | AMBE decode functions | Case analysis; finite float check for indices |
| C23 C24 C47 | process functions, run over lists of frames | Invariant by induction over frames |
| C25 C26 C41 | same | Expected false: witness, plus the restricted theorem |
| C27 C28 C51 | mbe_adaptive.c | Direct |
| C29 | errorRate update | Monotonicity of rounding (Flocq), induction |
| C30 C31 C32 | floattoshort, clip, comfort noise | Comparison lemmas on floats, Flocq monotonicity |
| C33 C34 C35 | generators | Arithmetic modulo; Hull-Dobell / exhaustive orbit check |
| C36 | thread map and schedules | Induction over schedules |
| C37 C38 C40 | tone synthesis | Finite check over identifiers; modular arithmetic induction |
| C39 | mbe_processAmbe2400Dataf | Expected false: the later branch overwrites the buffer |
| C42 C43 C44 | mbe_unvoiced_fft.c | Finite checks and float comparison lemmas |
| C45 C46 C50 | copying, short wrappers, version | Direct |
| C48 C53 | spectral enhancement, phase wrap | Loop invariants |
| C49 | IMBE log-amplitude recursion | Rounding error analysis; hard, last |
| C52 | 2450 frame path | From C06 and C15 |

## Trusted base

* Coq 8.16.1's kernel. `vm_compute` is used in proofs; `coqchk` rechecks the same proofs without the VM.
* The axioms in the section "Axioms". All come from the standard library.
* The reading of the C text into the files `M*.v` and `Tab*.v`. `tools/gen_tables.py` is part of this reading.
* The C semantics in "Modelling conventions", in particular IEEE binary32/binary64 arithmetic without contraction.

Flocq is used as a library of proved theorems. It adds no axiom beyond those listed.

### Axioms

`Print Assumptions` is run under every property theorem. `tools/axioms.py` groups the answers:

* no axioms (178): C01_golay_block_corrects_three, C02_golay_nearest_codeword, C03_golay_block_upper_bits_partial, C03_golay_block_upper_bits_refuted, C04_hamming_corrects_one, C05_hamming7100_corrects_one, C06_ambe_c0_correction, C07_ambe_c0_parity_partial, C07_ambe_c0_parity_refuted, C08_ambe_demodulation, C09_ambe_encoding_exists, C09_ambe_recovers, C10_imbe7200_demodulation, C11_imbe7200_encoding_exists, C11_imbe7200_recovers, C12_imbe7100_demodulation, C13_imbe7100_encoding_exists, C13_imbe7100_recovers, C14_conversion_injective, C14_conversion_is_rearrangement, C15_ambe_counters, C15_imbe7100_counters, C15_imbe7200_counters, C15_status_2400, C15_status_2450, C15_status_7100, C15_status_7200, C16_status_ambe2400, C16_status_ambe2450, C16_status_imbe, C17_accepted, C17_rejected, C17_size, C18_fields, C18_permutation, C18_sizes, C20_classification, C20_erasure, C20_public, C20_silence, C20_tone, C20_voice, C21_size, C22_dual, C22_silence, C22_tone, C24_equal_refuted, C28_energy_floor, C28_never_unvoices, C28_other_fields, C30_nan_paths_differ, C30_nan_undefined, C33_all_states, C33_default_seed, C33_java, C33_period, C35_default, C35_used_once, C36_changes, C36_copies, C36_defined, C36_footprint, C36_threads, C37_accepted, C37_dtmf, C38_dstar, C38_frames, C38_samples, C39_every, C39_refuted, C40_history, C41_refuted, C42_formula_partial, C42_plateau_refuted, C42_symmetric_refuted, C43_fast, C43_normaliser, C43_reference, C43_sse2, C45_copy, C45_init_ambe, C45_init_generic, C46_ambe2400_data, C46_ambe2450_data, C46_ambe3600x2400, C46_ambe3600x2450, C46_comfort_noise, C46_imbe7100, C46_imbe7200, C46_imbe_data, C46_knob_ambe2400, C46_knob_ambe2450, C46_knob_imbe, C46_speech, C47_begin, C47_imbe, C48_band, C48_effect, C50_version_fits, C51_other_set, C51_used_once, C51_value, C53_muted, C58_blind, C58_refuted, C59_ambe2400, C59_ambe2450, C59_any2400, C59_any2450, C59_any7100, C59_any7200, C59_imbe7100, C59_imbe7200, C60_ambe2400, C60_ambe2450, C60_imbe, C63_2400, C63_fields, C63_imbe, C65_smoothing, C66_count, C66_refuted, C69_formula, C81_alike, C82_same, C83_dstar, C83_rest, C83_tone, C84_3600, C84_3600_bits, C84_7100, C84_7100_bits, C84_7200, C84_7200_bits, C84_ambe_data, C84_ambe_data_bits, C84_data, C84_data_bits, C85_free, C85_handled, C85_no_leak, C85_once, C85_refuted, C85_unhandled, C85_usable, C87_enough, C87_plans, C87_threads, C88_memory, C88_quiet, C88_refuted, C89_dstar, C89_ordinary, C89_quiet, C89_rest, C89_short, C89_speech, C89_tone, C89_tone_frame, C90_identical_refuted, C90_outside, C91_identical_refuted, C91_unfused, C92_ambe, C92_exact_ambe, C92_exact_imbe7200, C92_first_ambe, C92_first_imbe7200, C92_first_word_refuted, C92_imbe7100, C92_imbe7200, C93_unfused, C93_unfused_energy, C94_phases, C94_phases_dstar, C95_unfused, C96_unfused, C97_unfused
* `ClassicalDedekindReals.sig_forall_dec`, `ClassicalDedekindReals.sig_not_dec`, `FunctionalExtensionality.functional_extensionality_dep` (6): C71_backward, C71_forward, C71_roundtrip, C79_backward, C79_forward, C96_ends
* `ClassicalDedekindReals.sig_forall_dec`, `ClassicalDedekindReals.sig_not_dec`, `Classical_Prop.classic`, `FunctionalExtensionality.functional_extensionality_dep` (160): C17_fundamental, C18_defined, C19_ambe_every, C19_ambe_refuted, C19_every, C19_out_of_range, C19_out_of_range_2400, C19_out_of_range_2450, C19_refuted, C21_defined, C22_classification, C22_defined, C22_size, C22_voice, C23_cycle, C23_history, C23_muted, C23_range, C23_step, C24_counts, C24_counts_kept, C24_four, C24_run, C24_step2400, C24_step2450, C25_partial, C25_refuted, C25_stream_partial, C26_ambe_every, C26_ambe_refuted, C26_every, C26_refuted, C27_clean_stream, C28_energy_number, C29_ambe, C29_imbe, C30_all_paths, C30_library, C30_monotone, C30_nan_library, C30_odd, C30_range, C31_dstar_tone, C31_speech, C31_tone, C32_bounded, C32_short, C34_all_values, C34_exact, C34_generator, C34_overlap, C34_period, C34_stream, C35_defined, C40_continues, C40_voice, C41_partial, C44_defined, C44_edges, C44_tiling, C47_once, C47_refuted, C49_bounded, C51_ambe, C51_imbe, C52_frame, C53_finite, C53_wrapped, C54_ambe, C54_ambe_stream, C54_imbe, C54_imbe_stream, C55_2400, C55_2450, C55_imbe, C55_refuted, C55_silence, C56_frame, C56_run, C57_partial, C57_refuted, C58_stays, C61_imbe, C62_2400, C62_2450, C64_speech, C64_unvoiced, C67_oscillator, C68_bounded, C69_cosine, C70_energy, C72_backward, C72_forward, C73_backward, C73_forward, C73_roundtrip, C74_every, C74_refuted, C74_short, C75_enhance, C75_residuals, C75_short, C75_speech, C75_stream, C75_transforms, C76_calls, C76_dstar, C76_frames, C77_pitch2400, C77_pitch2450, C77_residuals, C77_stream, C78_every, C78_refuted, C78_short, C80_backward, C80_backward_error, C80_backward_scalar, C80_bounded, C80_forward, C80_forward_error, C80_forward_scalar, C80_roundtrip, C81_ambe, C81_imbe, C82_energy, C82_gain, C82_moments, C82_power, C82_speech, C82_voiced, C83_2400, C83_stream, C86_any, C86_floats, C86_hours, C86_only, C86_vector, C87_any, C87_safe, C90_close, C91_energy, C91_fma, C91_moments, C91_power, C93_decisions, C93_energy, C93_identical_refuted, C93_rate_ambe, C93_rate_imbe, C94_close, C94_dstar, C94_frames, C95_close, C95_identical_refuted, C95_oscillator, C96_close, C96_glide, C97_close, C97_voiced
* `ClassicalDedekindReals.sig_forall_dec`, `FunctionalExtensionality.functional_extensionality_dep` (3): C90_estimate, C90_reciprocal, C94_identical_refuted

The four axioms are those of the standard library's classical real numbers, which Flocq builds on.
Library-wide listings by `coqchk` also name opaque constants of `Coq.Reals.Rdefinitions` and of `Coq.ssr.ssrunder`.
They are defined terms behind module signatures of the standard library, not assumptions of a theorem here.

## What is modelled

| Model file | C code |
|---|---|
| `MEcc` | `ecc.c`, all four functions, on `long` values and bit arrays |
| `MFrame` | Error correction, demodulation and 7100-to-7200 conversion of `ambe_common.c`, `imbe7200x4400.c`, `imbe7100x4400.c` |
| `MAlloc` | `pffft_aligned_malloc`, `pffft_aligned_free`, `pffft_new_setup`, `pffft_destroy_setup`, `mbe_fft_plan_alloc`, `mbe_fft_plan_free` and `mbe_get_fft_plan` as operations on a heap of blocks and stored pointers; malloc is an arbitrary function |
| `MProcess` | Processes: calls of `MApi` by threads that share parameter sets and the memory of `MAlloc`, each with its `mbe_fft_plan_instance`, and threads that end |
| `MArm32` | The overlap-add of 32-bit ARM: reciprocal estimate, two refinements, subnormals flushed |
| `MFma` | The fused multiply-add, and the sums of squares with products fused at any places |
| `MGlideFma` | The interpolated harmonics of voiced synthesis with products fused at any places |
| `MHarmFma` | The loop of voiced synthesis over all harmonics with products fused at any places |
| `MOscFma` | The oscillators of voiced synthesis with products fused at any places |
| `MToneFma` | Tone synthesis with products fused at any places |
| `MRate` | The error rate and local energy filters and the IMBE repeat and mute decisions, with products fused at any places |
| `MNull` | The functions outside the frame decoders, `mbe_decode*` and `mbe_process*` with NULL for any of their pointers |
| `MDump` | The nine `mbe_dump*` functions, as the list of strings printed |
| `MParms` | `struct mbe_parameters`, `mbe_initMbeParms`, `mbe_moveMbeParms`, `mbe_useLastMbeParms`, the AMBE defaults and erasure of `ambe_common.c`, `mbe_printVersion`, the oracle and the thread-local state |
| `MAdaptive` | `mbe_adaptive.c`; seeding, clipping and 16-bit conversion of `mbelib.c` (scalar, SSE2 and NEON lanes) |
| `Build` | The type of the three builds |
| `MSse` | The SSE2 and NEON intrinsics used by `mbelib.c` and `mbe_unvoiced_fft.c`, on four lanes |
| `MUnvoiced` | `mbe_unvoiced_fft.c`: noise generator, window, overlap-add, band power, normalisation and band scaling (scalar, SSE2 and NEON), synthesis |
| `MSynth` | `mbelib.c`: spectral enhancement and speech synthesis (scalar, SSE2 and NEON), tones (built in or not), silence |
| `MImbe` | `imbe7200x4400.c` and `imbe7100x4400.c`: parameter decode and process functions |
| `MAmbe` | `ambe3600x2450.c` and `ambe3600x2400.c`: parameter decode and process functions |
| `MCache` | The thread-local cosine caches of the three decoders |
| `MApi` | The public calls as operations on a memory of parameter sets, for schedules of threads |
| `MFft` | `pffft.c`, scalar path (the default build) for real transforms of size 256: setup, radix-4 passes, reordering |
| `MFftSimd` | `pffft.c`, the same transforms with vectors of four floats (`SIMD_SZ` 4, used by builds with `MBELIB_ENABLE_SIMD`): setup, passes on lanes, `pffft_real_finalize`, `pffft_real_preprocess`, reordering |
Thin public wrappers with no logic of their own (`mbe_eccAmbe3600x2400C0` and similar) are identified with the function
they call.

## What is not modelled, and simplifications

* The C library's `cosf sinf exp2f log2f expf cos sin` are oracles: any functions. Theorems that need more say so.
* The speech model takes the two transforms as parameters. `with_pffft` and `with_pffft_simd` put the modelled PFFFT code in their place.
* Of PFFFT, complex transforms and radices 2, 3 and 5 are left out: N = 256 uses radix 4 only.
* Of the `MBELIB_ENABLE_SIMD` code the x86-64 (SSE2) and the AArch64 (NEON) paths are modelled: the field `o_simd` of the
  oracle chooses between the scalar, the SSE2 and the NEON build, and theorems quantified over the oracle hold for all
  three. The two vector builds differ in the order of the horizontal sums and in the 16-bit conversion of NaN. The 32-bit
  ARM overlap-add with reciprocal estimates is `MArm32`, by itself: the theorems about frames are for the three builds that divide. 32-bit NEON
  flushes subnormals; `MArm32` does so after rounding, and other code of that build (sums in NEON registers) is not modelled.
* Every floating-point operation is rounded by itself. A compiler that contracts a product and a sum into a fused operation
  (GCC does so by default where the target has one, as AArch64 does; baseline x86-64 has none) makes another program.
  In particular `vmlaq_f32` is two roundings, except in `MFma`, which models the three sums of squares with any choice of fusing by themselves,
  in `MRate`, which does the same for the error rate, the local energy and the IMBE decisions, in `MToneFma`, which does it for tones,
  and in `MOscFma`, `MGlideFma` and `MHarmFma`, which do it for a voiced oscillator, an interpolated harmonic and the loop over all harmonics.
* The build option `NOTONES` (`DISABLE_AMBE_TONES`) is the field `o_tones` of the oracle: theorems quantified over the oracle
  hold with and without tones, and those about sounding tones assume it. Fast-math and debug logging are off.
* In the theorems about one decoder and about `run`, allocation of the FFT plan either succeeds at every call or fails at every call. `MAlloc`
  models the allocation itself, where each call of malloc may fail; its heap holds pointers only and checks the bounds of all other accesses.
  `MProcess` puts the two together: a plan for each thread, which a call has or has not. Which calls get as far as asking for the plan is
  arbitrary there, so that the theorems hold for more executions than there are.
* `err_str` is the list of bytes written. Its capacity is the caller's business; C16 and C50 bound what is written.
* Parameter sets passed to one call are distinct objects. NULL arguments are modelled in `MNull` only, for all functions but the frame decoders,
  `mbe_decode*` and `mbe_process*`; everywhere else pointers are valid.
* The ownership test of the energy handoff compares addresses. The model compares abstract addresses.
* Local strings and arrays start uninitialised at every call. Reading an unwritten element is `UB`.
* All mutable statics are thread-local, as the source declares them. The one-time setup of the conversion function
  pointer is modelled by its possible results.
* NaN payloads and signs are not modelled. There is one NaN.
* Floating-point exceptions and `errno` are not modelled.

## Findings

Where the English statement is false of the code there is a theorem with suffix `_refuted`, and one with what does hold.

1. `mbe_checkGolayBlock` lets bits 23 to 31 of its argument leak into bits 12 to 20 of the result (C03).
2. The AMBE C0 correction looks at corrected data bits only. One check-bit error makes it flip a correct extra bit (C07).
3. After a frame of 56 harmonics the next decoded frame reads `log2Ml[57]`, outside the array, unless it has 23 or 46
   harmonics (C19, all three decoders).
4. 2400-rate tone frames: the tone audio is always overwritten by comfort noise. The decoder never returns 2 (C39).
5. A concealed IMBE frame copies the previous state including an AMBE muting threshold (C25). AMBE tone frames leave the
   repeat counter of the previous set alone (C24).
6. The amplitude threshold Tm grows without limit and overflows `int`: after about 3 hours of 7 errors per IMBE frame,
   about 2.1 hours of one error per AMBE frame (C26).
7. An AMBE erasure followed by a repeat gives NaN amplitudes (C41). An unknown-tone frame after it makes the stored
   local energy NaN for good (C58).
8. The synthesis window has 110 ones instead of 111, so w(55) differs from w(-55), and 0.3 is stored twice (C42).
9. `c0_errors >= 4` cannot happen, so that test is dead code (C52).
10. The scalar 16-bit conversion is undefined on NaN; the SSE2 lanes give -31128 and the NEON lanes 0 (C30).
11. Repeats: IMBE counts 1, 2, 3, then a muted fourth, then reset. AMBE outputs noise at the fourth and resets.
12. A zero amplitude stays zero under enhancement only if the correction is finite (C48).
13. The 2450 silence frame has a fundamental of pi/32 times 2 pi, so its top harmonic lies above the sampling rate (C55).
14. A repeat rewinds the noise generator to the stored seed (C57).
15. The error rate filter is frozen during repeats and tone frames.
16. 2400 tone-class frames with more than 3 errors are marked `R` without `M`, output comfort noise, and reset.
17. AMBE start followed by a concealed IMBE frame keeps the AMBE muting threshold (C47).
18. AMBE 2400 ignores parameter bit 24 and uses only even rows of `AmbePlusHOCb8`. IMBE ignores bit 87.
19. When the previous frame has at least as many harmonics, the prediction at the last one can read a stale amplitude.
20. Counting of unvoiced bands starts at index 0, which is always unvoiced. So fully voiced frames still get random
    phases above L/4 (C66).
21. `radb4_ps` forms the pointer `cc - 1 + 4 * k` with `k = 0`, one before the array. It is not dereferenced there, but
    forming it is undefined in C.
22. The zero test in `mbe_seedComfortNoiseRng` is unreachable.
23. One valid error-free IMBE frame (25 harmonics), received eight times in a row, drives a log2 amplitude above 32. Then
    the square of the frame energy overflows in `mbe_spectralAmpEnhance`, the weights become inf / inf, and all 160 samples
    of this and every further such frame are NaN, without a marker. The 16-bit entry points convert NaN to an integer (C74).
    For moderate frames it cannot happen (C75).
24. The same happens with AMBE 3600x2450: one valid voice frame of 42 harmonics, received thirteen times in a row without
    errors, gives NaN samples from then on (C78). For moderate frames it cannot happen (C77).
25. `pffft_new_setup` writes through the results of its two allocations without testing them. If malloc fails at the second or third
    call of `mbe_fft_plan_alloc` the decoder writes through NULL, although the caller tests for a failed setup (C85).
26. Nothing frees the FFT plan of a thread: `mbe_fft_plan_free` is called only when allocation fails halfway. A thread that ends after
    synthesising speech leaves seven blocks allocated (C88).
27. Four errors in the first IMBE code word make a wrong scrambling key, so that they spoil every other code word and ten errors are reported (C92).
28. Whether an IMBE frame is muted can depend on the compiler: after 55 frames with 11 to 13 errors a build with fused multiply-add (AArch64 by default)
    mutes a frame that a build without it (x86-64) plays (C93). It takes an error rate within 2e-6 of the threshold.

## Tests of the theorems

`seeded/LOG.jsonl` has one line per edited program: what was changed, what claim it breaks, which theorems failed, and
which theorems were tightened because of it.
