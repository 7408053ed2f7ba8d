(* The overlap-add on 32-bit ARM, where NEON has no vector division (mbe_unvoiced_fft.c:408-473, the branch without __aarch64__). *)
From Coq Require Import ZArith List Bool.
From Verif Require Import Res F32 MParms MUnvoiced.
Import ListNotations.
Local Open Scope Z_scope.

(* 32-bit NEON arithmetic runs in "standard" mode whatever FPSCR says: round to nearest even, one NaN, and subnormal operands
   and results become zeros.  A subnormal is a finite float whose significand has fewer than 24 bits.
   Simplification: a result is flushed after rounding (the processor looks at it before rounding; they differ only for results
   that round up to 2^-126). *)
Definition neon_flush (x : f32) : f32 :=
  match x with
  | S754_finite s m e => if Z.pos m <? 8388608 then S754_zero s else x
  | _ => x
  end.
Definition vmul32 (a b : f32) : f32 := neon_flush (fmul (neon_flush a) (neon_flush b)).
Definition vadd32 (a b : f32) : f32 := neon_flush (fadd (neon_flush a) (neon_flush b)).
Definition vsub32 (a b : f32) : f32 := neon_flush (fsub (neon_flush a) (neon_flush b)).

(* vrecpeq_f32, one lane: the ARM architecture's FPRecipEstimate.  The nine leading bits a of the significand (256 <= a < 512) give an estimate r of
   2^18 / (a + 1/2), 256 <= r < 512; numbers of size 2^126 or more give zeros. *)
Definition recip_estimate (a : Z) : Z := (524288 / (2 * a + 1) + 1) / 2.
Definition vrecpe32 (x : f32) : f32 :=
  match neon_flush x with
  | S754_nan => S754_nan
  | S754_infinity s => S754_zero s
  | S754_zero s => S754_infinity s
  | S754_finite s m e =>
      if 103 <=? e then S754_zero s
      else S754_finite s (Z.to_pos (recip_estimate (Z.pos m / 32768) * 32768)) (- e - 47)
  end.
(* vrecpsq_f32, one lane: 2 - a b, the product rounded on its own (the 32-bit instruction is not fused); 2 for infinity times zero *)
Definition vrecps32 (a b : f32) : f32 :=
  match neon_flush a, neon_flush b with
  | S754_infinity _, S754_zero _ | S754_zero _, S754_infinity _ => f_of_Z 2
  | _, _ => vsub32 (f_of_Z 2) (vmul32 a b)
  end.
(* mbe_unvoiced_fft.c:445-447, one lane: the estimate and two Newton-Raphson steps *)
Definition vrecip32 (d : f32) : f32 :=
  let r := vrecpe32 d in
  let r := vmul32 r (vrecps32 d r) in
  vmul32 r (vrecps32 d r).
(* mbe_unvoiced_fft.c:424-458, one lane; the mask turns a rejected lane into +0 *)
Definition wola_lane32 (output prevUw currUw : list f32) (n : Z) : res f32 :=
  p <- rd prevUw (n + 128) ;; c <- rd currUw (n - 32) ;;
  wp <- wola_w_prev n ;; wc <- wola_w_curr n ;; d <- wola_denom n ;;
  x <- rd output n ;;
  let sum := vadd32 (vmul32 wp p) (vmul32 wc c) in
  let result := vmul32 sum (vrecip32 d) in
  Ok (vadd32 x (if fgt (neon_flush d) f_1em10 then result else fzero)).
Definition wola_vec4_32 (prevUw currUw : list f32) (n : Z) (output : list f32) : res (list f32) :=
  a <- wola_lane32 output prevUw currUw n ;;
  b <- wola_lane32 output prevUw currUw (n + 1) ;;
  c <- wola_lane32 output prevUw currUw (n + 2) ;;
  d <- wola_lane32 output prevUw currUw (n + 3) ;;
  output <- wr output n a ;; output <- wr output (n + 1) b ;;
  output <- wr output (n + 2) c ;; wr output (n + 3) d.
(* mbe_unvoiced_fft.c:408-470 on 32-bit ARM: the samples before 32 and from 128 on are added one at a time, with a division *)
Definition mbe_wola_combine_arm32 (output prevUw currUw : list f32) : res (list f32) :=
  output <- for_up 0 32 (wola_scalar_head prevUw) output ;;
  output <- loop 24 32 4 (wola_vec4_32 prevUw currUw) output ;;
  for_up 128 160 (wola_scalar_tail currUw) output.
