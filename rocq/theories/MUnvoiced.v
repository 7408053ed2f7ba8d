(* Model of /repo/src/core/mbe_unvoiced_fft.c: noise generator, synthesis window, overlap-add, unvoiced synthesis. *)
From Coq Require Import ZArith List Bool.
From Verif Require Import Res F32 TabWola MParms MAdaptive MSse.
Import ListNotations.
Local Open Scope Z_scope.

(* mbe_unvoiced_fft.c:203-209, mbe_synthesisWindow *)
Definition mbe_synthesisWindow (n : Z) : res f32 :=
  if (n <? -105) || (105 <? n) then Ok fzero else rd Ws_synthesis (n + 105).

(* (uint32_t)x on x86-64 and in C where the truncated value fits; otherwise undefined *)
Definition sf_to_u32 (x : f32) : res Z :=
  match sf_trunc x with
  | Some z => if (0 <=? z) && (z <=? 4294967295) then Ok z else UB BadConv
  | None => UB BadConv
  end.

(* state = (171u * state + 11213u) % 53125u, mbe_unvoiced_fft.c:224, 268 *)
Definition lcg_next (state : Z) : Z := (to_u32 (171 * state + 11213)) mod 53125.

(* mbe_unvoiced_fft.c:211-227, mbe_generate_noise_lcg *)
Definition mbe_generate_noise_lcg (buffer : list f32) (count : Z) (seed : f32) : res (list f32 * f32) :=
  s <- sf_to_u32 seed ;;
  '(buffer, st) <- for_up 0 count (fun i '(buffer, st) =>
      buffer <- wr buffer i (f_of_Z st) ;; Ok (buffer, lcg_next st)) (buffer, s mod 53125) ;;
  Ok (buffer, f_of_Z st).

(* MBE_LCG_DEFAULT_SEED 3147.0f *)
Definition LCG_DEFAULT_SEED : f32 := Eval vm_compute in f_of_Z 3147.

(* mbe_unvoiced_fft.c:238-275, mbe_generate_noise_with_overlap.  buffer is the caller's 256-float local: fresh here,
   because the function always fills it.  Result: buffer, seed, overlap, thread state. *)
Definition mbe_generate_noise_with_overlap (seed : f32) (overlap : list f32) (t : tls)
  : res (list f32 * f32 * list f32 * tls) :=
  if flt seed fzero then
    if t_uv_override t then
      Ok (repeat fzero 256, f_of_Z (t_uv_seed t), repeat fzero 96,
          mktls (t_rng t) (t_seed48 t) (t_seeded t) (t_rm0 t) (t_rm0_valid t) (t_rm0_owner t) (t_uv_seed t) false)
    else Ok (repeat fzero 256, LCG_DEFAULT_SEED, repeat fzero 96, t)
  else
    buffer <- for_up 0 96 (fun i b => x <- rd overlap i ;; wr b i (Some x)) (fresh 256) ;;
    s <- sf_to_u32 seed ;;
    '(buffer, st) <- for_up 96 256 (fun i '(b, st) =>
        b <- wr b i (Some (f_of_Z st)) ;; Ok (b, lcg_next st)) (buffer, s mod 53125) ;;
    buffer <- all_init buffer ;;
    overlap <- for_up 0 96 (fun i ov => x <- rd buffer (i + 160) ;; wr ov i x) overlap ;;
    Ok (buffer, f_of_Z st, overlap, t).

(* 1e-10f *)
Definition f_1em10 : f32 := Eval vm_compute in flit 1 10000000000.

(* the weighted overlap-add expression shared by both implementations: output[n] += (wp*p + wc*c) / d *)
Definition wola_term (wp p wc c d : f32) : f32 := fdiv (fadd (fmul wp p) (fmul wc c)) d.

(* mbe_unvoiced_fft.c:277-317, mbe_wola_combine (the reference, public inside the library) *)
Definition mbe_wola_combine (output prevUw currUw : list f32) (N : Z) : res (list f32) :=
  for_up 0 N (fun n output =>
    w_prev <- mbe_synthesisWindow n ;;
    w_curr <- mbe_synthesisWindow (n - N) ;;
    prev_sample <- (if n + 128 <? 256 then rd prevUw (n + 128) else Ok fzero) ;;
    curr_sample <- (if (0 <=? n + 128 - N) && (n + 128 - N <? 256) then rd currUw (n + 128 - N) else Ok fzero) ;;
    let denom := fadd (fmul w_prev w_prev) (fmul w_curr w_curr) in
    if fgt denom f_1em10 then
      x <- rd output n ;; wr output n (fadd x (wola_term w_prev prev_sample w_curr curr_sample denom))
    else Ok output) output.

(* the tables of the plan, mbe_unvoiced_fft.c:161-176 *)
Definition wola_w_prev (n : Z) : res f32 := mbe_synthesisWindow n.
Definition wola_w_curr (n : Z) : res f32 := mbe_synthesisWindow (n - 160).
Definition wola_denom (n : Z) : res f32 :=
  p <- wola_w_prev n ;; c <- wola_w_curr n ;; Ok (fadd (fmul p p) (fmul c c)).

(* mbe_unvoiced_fft.c:473-497, mbe_wola_combine_fast, scalar path *)
Definition mbe_wola_combine_fast (output prevUw currUw : list f32) : res (list f32) :=
  for_up 0 160 (fun n output =>
    wp <- wola_w_prev n ;; wc <- wola_w_curr n ;; d <- wola_denom n ;;
    let pidx := n + 128 in
    p <- (if (0 <=? pidx) && (pidx <? 256) then rd prevUw pidx else Ok fzero) ;;
    let cidx := n + 128 - 160 in
    c <- (if (0 <=? cidx) && (cidx <? 256) then rd currUw cidx else Ok fzero) ;;
    if fgt d f_1em10 then x <- rd output n ;; wr output n (fadd x (wola_term wp p wc c d))
    else Ok output) output.

(* mbe_unvoiced_fft.c:353-405 and 408-470 (with vdivq_f32), the SSE2 and NEON paths: scalar for n < 32 and n >= 128, four lanes at a time between.
   ANDPS (vandq_u32) with the comparison mask turns a rejected lane into +0. *)
Definition wola_scalar_head (prevUw : list f32) (n : Z) (output : list f32) : res (list f32) :=
  p <- rd prevUw (n + 128) ;;
  wp <- wola_w_prev n ;; wc <- wola_w_curr n ;; d <- wola_denom n ;;
  if fgt d f_1em10 then x <- rd output n ;; wr output n (fadd x (wola_term wp p wc fzero d)) else Ok output.
Definition wola_scalar_tail (currUw : list f32) (n : Z) (output : list f32) : res (list f32) :=
  c <- rd currUw (n - 32) ;;
  wp <- wola_w_prev n ;; wc <- wola_w_curr n ;; d <- wola_denom n ;;
  if fgt d f_1em10 then x <- rd output n ;; wr output n (fadd x (wola_term wp fzero wc c d)) else Ok output.
Definition wola_lane (output prevUw currUw : list f32) (n : Z) : res f32 :=
  p <- rd prevUw (n + 128) ;; c <- rd currUw (n - 32) ;;
  wp <- wola_w_prev n ;; wc <- wola_w_curr n ;; d <- wola_denom n ;;
  x <- rd output n ;;
  Ok (fadd x (if fgt d f_1em10 then wola_term wp p wc c d else fzero)).
Definition wola_vec4 (prevUw currUw : list f32) (n : Z) (output : list f32) : res (list f32) :=
  a <- wola_lane output prevUw currUw n ;;
  b <- wola_lane output prevUw currUw (n + 1) ;;
  c <- wola_lane output prevUw currUw (n + 2) ;;
  d <- wola_lane output prevUw currUw (n + 3) ;;
  output <- wr output n a ;; output <- wr output (n + 1) b ;;
  output <- wr output (n + 2) c ;; wr output (n + 3) d.
Definition mbe_wola_combine_vec (output prevUw currUw : list f32) : res (list f32) :=
  output <- for_up 0 32 (wola_scalar_head prevUw) output ;;
  output <- loop 24 32 4 (wola_vec4 prevUw currUw) output ;;
  for_up 128 160 (wola_scalar_tail currUw) output.

(* mbe_unvoiced_fft.c:544-555, pffft_bin_scale *)
Definition pffft_bin_scale (fft : list f32) (bin : Z) (scale : f32) : res (list f32) :=
  if bin =? 0 then x <- rd fft 0 ;; wr fft 0 (fmul x scale)
  else if bin =? 128 then x <- rd fft 1 ;; wr fft 1 (fmul x scale)
  else
    x <- rd fft (2 * bin) ;; fft <- wr fft (2 * bin) (fmul x scale) ;;
    y <- rd fft (2 * bin + 1) ;; wr fft (2 * bin + 1) (fmul y scale).

(* mbe_unvoiced_fft.c:600-626, 628-650: the interior bins in groups of four.  ptr is an index into fft; i + 4 <= count holds for
   count / 4 rounds.  Result: the sum, the pointer behind the last group, and the number of bins left *)
Definition interior_vec (simd : build) (fft : list f32) (ptr count : Z) (sum : f32) : res (f32 * Z * Z) :=
  if 4 <=? count then
    v <- loop (Z.to_nat (count / 4)) ptr 8 (fun ptr vsum =>
      v0 <- mm_loadu fft ptr ;; v1 <- mm_loadu fft (ptr + 4) ;;
      Ok (mm_add (mm_add vsum (mm_mul v0 v0)) (mm_mul v1 v1))) mm_setzero ;;
    Ok (fadd sum (hsum_power simd v), ptr + 8 * (count / 4), count - 4 * (count / 4))
  else Ok (sum, ptr, count).

(* mbe_unvoiced_fft.c:571-666, mbe_magnitude_squared_sum *)
Definition mbe_magnitude_squared_sum (simd : build) (fft : list f32) (start end_ : Z) : res f32 :=
  if end_ <=? start then Ok fzero
  else
    '(sum, start) <- (if start =? 0 then x <- rd fft 0 ;; Ok (fadd fzero (fmul x x), 1) else Ok (fzero, start)) ;;
    let include_nyquist := 128 <? end_ in
    let end_ := if include_nyquist then 128 else end_ in
    '(sum, ptr, count) <- (if lanes4 simd then interior_vec simd fft (2 * start) (end_ - start) sum else Ok (sum, 2 * start, end_ - start)) ;;
    sum <- for_up 0 count (fun i sum =>
      re <- rd fft (ptr + 2 * i) ;; im <- rd fft (ptr + 2 * i + 1) ;;
      Ok (fadd sum (fadd (fmul re re) (fmul im im)))) sum ;;
    if include_nyquist then x <- rd fft 1 ;; Ok (fadd sum (fmul x x)) else Ok sum.

(* MBE_256_OVER_2PI = 256.0f / (2.0f * 3.14159265358979323846f), MBE_UNVOICED_SCALE_COEFF 146.17696f.
   146.17696f: 14617696 and 100000 are exact binary32 integers, so the quotient is the correctly rounded literal.
   3.14159265358979323846f is the float nearest to pi, which is also (float)M_PI. *)
Definition PI_F : f32 := Eval vm_compute in d2f M_PI.
Definition f256_OVER_2PI : f32 := Eval vm_compute in fdiv (f_of_Z 256) (fmul (f_of_Z 2) PI_F).
Definition UNVOICED_SCALE : f32 := Eval vm_compute in flit 14617696 100000.

(* mbe_unvoiced_fft.c:703-707: windowed noise *)
Definition windowed_noise (noise : list f32) : res (list f32) :=
  l <- for_up 0 256 (fun i Uw =>
    let win_idx := i - 128 in
    w <- (if (-105 <=? win_idx) && (win_idx <=? 105) then rd Ws_synthesis (win_idx + 105) else Ok fzero) ;;
    x <- rd noise i ;; wr Uw i (Some (fmul x w))) (fresh 256) ;;
  all_init l.

(* mbe_unvoiced_fft.c:717-718: the bin at k * multiplier, k = l - 0.5f or l + 0.5f, before clamping *)
Definition band_bin (k multiplier : f32) : res Z := sf_to_int (fceil (fmul k multiplier)).

(* mbe_unvoiced_fft.c:716-726: band edges for l = 1 .. L in the plan's 57-entry scratch arrays *)
Definition band_edges (L : Z) (w0 : f32) : res (list (option Z) * list (option Z)) :=
  let multiplier := fmul f256_OVER_2PI w0 in
  for_up 1 (L + 1) (fun l '(a_min, b_max) =>
    a <- band_bin (fsub (f_of_Z l) fhalf) multiplier ;;
    a_min <- wr a_min l (Some a) ;;
    b <- band_bin (fadd (f_of_Z l) fhalf) multiplier ;;
    b_max <- wr b_max l (Some b) ;;
    a_min <- (if a <? 0 then wr a_min l (Some 0) else Ok a_min) ;;
    b_max <- (if 128 <? b then wr b_max l (Some 128) else Ok b_max) ;;
    Ok (a_min, b_max)) (fresh 57, fresh 57).

(* mbe_unvoiced_fft.c:730-748: scaling factors of the bins *)
Definition bin_scalors (simd : build) (L : Z) (Vl : list Z) (Ml Uw_fft : list f32) (a_min b_max : list (option Z)) : res (list f32) :=
  for_up 1 (L + 1) (fun l scal =>
    v <- rd Vl l ;;
    if v =? 0 then
      a <- rdi a_min l ;; b <- rdi b_max l ;;
      bin_count <- to_int (b - a) ;;
      numerator <- mbe_magnitude_squared_sum simd Uw_fft a b ;;
      if (0 <? bin_count) && fgt numerator f_1em10 then
        m <- rd Ml l ;;
        let scalor := fdiv (fmul UNVOICED_SCALE m) (fsqrt (fdiv numerator (f_of_Z bin_count))) in
        for_up a b (fun bin scal => wr scal bin scalor) scal
      else Ok scal
    else Ok scal) (repeat fzero 129).

(* mbe_unvoiced_fft.c:752-775: scaling of the inverse transform, 64 vectors or 256 samples *)
Definition normalize (simd : build) (scale : f32) (Uw_out : list f32) : res (list f32) :=
  if lanes4 simd then loop 64 0 4 (fun i u => v <- mm_loadu u i ;; mm_storeu u i (mm_mul v (mm_set1 scale))) Uw_out
  else for_up 0 256 (fun i u => x <- rd u i ;; wr u i (fmul x scale)) Uw_out.

(* mbe_unvoiced_fft.c:668-783, mbe_synthesizeUnvoicedFFTWithNoise.
   Result: output and the new cur_mp->previousUw. *)
Definition mbe_synthesizeUnvoicedFFTWithNoise (o : oracle) (output : list f32) (cur prev : parms) (noise : list f32)
  : res (list f32 * list f32) :=
  Uw <- windowed_noise noise ;;
  let Uw_fft := fft_fwd o Uw in
  '(a_min, b_max) <- band_edges (p_L cur) (p_w0 cur) ;;
  scal <- bin_scalors (o_simd o) (p_L cur) (p_Vl cur) (p_Ml cur) Uw_fft a_min b_max ;;
  Uw_fft <- for_up 0 129 (fun bin f => s <- rd scal bin ;; pffft_bin_scale f bin s) Uw_fft ;;
  let Uw_out := fft_bwd o Uw_fft in
  let scale := fdiv fone (f_of_Z 256) in
  Uw_out <- normalize (o_simd o) scale Uw_out ;;
  output <- (if lanes4 (o_simd o) then mbe_wola_combine_vec else mbe_wola_combine_fast) output (p_previousUw prev) Uw_out ;;
  Ok (output, Uw_out).

(* mbe_unvoiced_fft.c:785-798, mbe_synthesizeUnvoicedFFT *)
Definition mbe_synthesizeUnvoicedFFT (o : oracle) (output : list f32) (cur prev : parms) (t : tls)
  : res (list f32 * parms * tls) :=
  '(noise, seed, overlap, t) <- mbe_generate_noise_with_overlap (p_noiseSeed cur) (p_noiseOverlap cur) t ;;
  let cur := set_noiseOverlap overlap (set_noiseSeed seed cur) in
  '(output, uw) <- mbe_synthesizeUnvoicedFFTWithNoise o output cur prev noise ;;
  Ok (output, set_previousUw uw cur, t).
