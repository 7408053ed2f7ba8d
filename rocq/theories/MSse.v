(* The SSE2 and NEON intrinsics that the vector paths of /repo/src/core/mbelib.c and /repo/src/core/mbe_unvoiced_fft.c use, on
   four binary32 lanes.  Lane 0 is the lowest.  Each is the operation the x86 or Arm manual gives for the instruction; packed
   arithmetic rounds every lane as the scalar operation does.  The NEON code names the same lane operations differently
   (vdupq_n_f32, vaddq_f32, vmulq_f32, vabsq_f32, vld1q_f32, vst1q_f32); vmlaq_f32 (a, b, c) is a + b * c, rounded twice. *)
From Coq Require Import ZArith List Bool.
From Verif Require Import Res F32 Build.
Import ListNotations.
Local Open Scope Z_scope.

(* __m128 *)
Record m128 := m4 { lane0 : f32; lane1 : f32; lane2 : f32; lane3 : f32 }.
(* _mm_setzero_ps, _mm_set1_ps (mbelib.c:145, 303, 402, 472; mbe_unvoiced_fft.c:602, 756) *)
Definition mm_set1 (x : f32) : m128 := m4 x x x x.
Definition mm_setzero : m128 := mm_set1 fzero.
(* _mm_add_ps, _mm_mul_ps (mbelib.c:147, 309-311, 408, 476; mbe_unvoiced_fft.c:611-614, 759) *)
Definition mm_add (a b : m128) : m128 :=
  m4 (fadd (lane0 a) (lane0 b)) (fadd (lane1 a) (lane1 b)) (fadd (lane2 a) (lane2 b)) (fadd (lane3 a) (lane3 b)).
Definition mm_mul (a b : m128) : m128 :=
  m4 (fmul (lane0 a) (lane0 b)) (fmul (lane1 a) (lane1 b)) (fmul (lane2 a) (lane2 b)) (fmul (lane3 a) (lane3 b)).
(* _mm_andnot_ps (_mm_set1_ps (-0.0f), v): clear the signs (mbelib.c:403, 407) *)
Definition mm_abs (a : m128) : m128 := m4 (fabs (lane0 a)) (fabs (lane1 a)) (fabs (lane2 a)) (fabs (lane3 a)).
(* _mm_shuffle_ps (v, v, _MM_SHUFFLE (2, 3, 0, 1)) and (0, 1, 2, 3) (mbelib.c:314, 320, 411; mbe_unvoiced_fft.c:618, 620) *)
Definition mm_swap_pairs (a : m128) : m128 := m4 (lane1 a) (lane0 a) (lane3 a) (lane2 a).
Definition mm_reverse (a : m128) : m128 := m4 (lane3 a) (lane2 a) (lane1 a) (lane0 a).
(* _mm_movehl_ps: the upper half of b below the upper half of a (mbelib.c:316) *)
Definition mm_movehl (a b : m128) : m128 := m4 (lane2 b) (lane3 b) (lane2 a) (lane3 a).
(* _mm_add_ss: the sum of the lowest lanes, the other lanes of a (mbelib.c:317) *)
Definition mm_add_ss (a b : m128) : m128 := m4 (fadd (lane0 a) (lane0 b)) (lane1 a) (lane2 a) (lane3 a).

(* _mm_loadu_ps and _mm_storeu_ps at cells i .. i+3 *)
Definition mm_loadu (xs : list f32) (i : Z) : res m128 :=
  a <- rd xs i ;; b <- rd xs (i + 1) ;; c <- rd xs (i + 2) ;; d <- rd xs (i + 3) ;; Ok (m4 a b c d).
(* from a local array that need not be initialised *)
Definition mm_loadui (xs : list (option f32)) (i : Z) : res m128 :=
  a <- rdi xs i ;; b <- rdi xs (i + 1) ;; c <- rdi xs (i + 2) ;; d <- rdi xs (i + 3) ;; Ok (m4 a b c d).
Definition mm_storeu (xs : list f32) (i : Z) (v : m128) : res (list f32) :=
  xs <- wr xs i (lane0 v) ;; xs <- wr xs (i + 1) (lane1 v) ;; xs <- wr xs (i + 2) (lane2 v) ;; wr xs (i + 3) (lane3 v).

(* mbelib.c:314-318, 320-324, 411-415: horizontal sum, _mm_cvtss_f32 of the result *)
Definition hsum_sse2 (v : m128) : f32 :=
  let shuf := mm_swap_pairs v in
  let sums := mm_add v shuf in
  let shuf := mm_movehl shuf sums in
  lane0 (mm_add_ss sums shuf).
(* mbe_unvoiced_fft.c:618-622 *)
Definition hsum_reverse (v : m128) : f32 :=
  let sums := mm_add v (mm_swap_pairs v) in
  lane0 (mm_add sums (mm_reverse sums)).
(* mbelib.c:346-349, 435-436; mbe_unvoiced_fft.c:645-646: vadd_f32 of the two halves, then vpadd_f32 of the result with itself,
   whose lane 0 is the sum of the two lanes *)
Definition hsum_neon (v : m128) : f32 :=
  let low := fadd (lane0 v) (lane2 v) in
  let high := fadd (lane1 v) (lane3 v) in
  fadd low high.
(* the horizontal sum of mbelib.c and that of mbe_unvoiced_fft.c in a build (the scalar build has none) *)
Definition hsum (simd : build) (v : m128) : f32 := match simd with Neon => hsum_neon v | _ => hsum_sse2 v end.
Definition hsum_power (simd : build) (v : m128) : f32 := match simd with Neon => hsum_neon v | _ => hsum_reverse v end.
