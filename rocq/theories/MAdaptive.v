(* Model of /repo/src/core/mbe_adaptive.c (generators, comfort noise, error-driven smoothing) and of
   /repo/src/core/mbelib.c:76-103 (seeding, xorshift32) and 1093-1252 (float to 16-bit conversion). *)
From Coq Require Import ZArith List Bool.
From Verif Require Import Res F32 MParms.
Import ListNotations.
Local Open Scope Z_scope.

(* mbe_adaptive.c:20-23 *)
Definition JAVA_MULT : Z := 25214903917.            (* 0x5DEECE66D *)
Definition JAVA_ADD : Z := 11.
Definition JAVA_MASK : Z := 281474976710655.        (* 2^48 - 1 *)
Definition JAVA_INIT_SEED : Z := 305419896.         (* 0x12345678 *)
Definition DEFAULT_SEED : Z := 1831155067.          (* 0x6d25357b *)
Definition U64 : Z := 18446744073709551616.         (* 2^64 *)

(* mbe_adaptive.c:31-38 *)
Definition mbe_seedComfortNoiseRng (seed : Z) (t : tls) : tls :=
  let seed := if seed =? 0 then DEFAULT_SEED else seed in
  mktls (t_rng t) (Z.land (Z.lxor seed JAVA_MULT) JAVA_MASK) true
        (t_rm0 t) (t_rm0_valid t) (t_rm0_owner t) (t_uv_seed t) (t_uv_override t).

(* mbe_unvoiced_fft.c:229-236 *)
Definition mbe_seedUnvoicedNoiseLcg (seed : Z) (t : tls) : tls :=
  let seed := if seed =? 0 then DEFAULT_SEED else seed in
  mktls (t_rng t) (t_seed48 t) (t_seeded t) (t_rm0 t) (t_rm0_valid t) (t_rm0_owner t) (seed mod 53125) true.

(* mbelib.c:76-84; seed is a uint32_t *)
Definition mbe_setThreadRngSeed (seed : Z) (t : tls) : tls :=
  let seed := if seed =? 0 then DEFAULT_SEED else seed in
  let t := mktls seed (t_seed48 t) (t_seeded t) (t_rm0 t) (t_rm0_valid t) (t_rm0_owner t)
                 (t_uv_seed t) (t_uv_override t) in
  mbe_seedUnvoicedNoiseLcg seed (mbe_seedComfortNoiseRng seed t).

(* mbelib.c:95-103; unused by the library *)
Definition mbe_xorshift32 (t : tls) : tls * Z :=
  let x := t_rng t in
  let x := Z.lxor x (to_u32 (Z.shiftl x 13)) in
  let x := Z.lxor x (Z.shiftr x 17) in
  let x := Z.lxor x (to_u32 (Z.shiftl x 5)) in
  let x := if x =? 0 then DEFAULT_SEED else x in
  (mktls x (t_seed48 t) (t_seeded t) (t_rm0 t) (t_rm0_valid t) (t_rm0_owner t) (t_uv_seed t) (t_uv_override t), x).

Definition set_handoff (rm0 : f32) (valid : bool) (owner : option Z) (t : tls) : tls :=
  mktls (t_rng t) (t_seed48 t) (t_seeded t) rm0 valid owner (t_uv_seed t) (t_uv_override t).

(* mbe_adaptive.c:40-51; owner is the address of a parameter set, never NULL in the library's calls *)
Definition mbe_setPreEnhRm0 (owner : Z) (rm0 : f32) (t : tls) : tls :=
  if fge rm0 fzero then set_handoff rm0 true (Some owner) t
  else set_handoff fzero false None t.

(* mbe_adaptive.c:63-72; uint64_t product wraps modulo 2^64 before the mask *)
Definition mbe_java_random_next_bits (bits : Z) (t : tls) : tls * Z :=
  let s := if t_seeded t then t_seed48 t else Z.land (Z.lxor JAVA_INIT_SEED JAVA_MULT) JAVA_MASK in
  let s := Z.land ((s * JAVA_MULT + JAVA_ADD) mod U64) JAVA_MASK in
  (mktls (t_rng t) s true (t_rm0 t) (t_rm0_valid t) (t_rm0_owner t) (t_uv_seed t) (t_uv_override t),
   to_u32 (Z.shiftr s (48 - bits))).

(* src/internal/mbe_adaptive.h: thresholds and coefficients *)
Definition ENTRY : f32 := Eval vm_compute in flit 125 10000.
Definition LOW : f32 := Eval vm_compute in flit 5 1000.
Definition SMOOTH_ALPHA : f32 := Eval vm_compute in flit 95 100.
Definition SMOOTH_BETA : f32 := Eval vm_compute in flit 5 100.
Definition ADAPTIVE_GAIN : f32 := Eval vm_compute in flit 45255 1000.
Definition ADAPTIVE_EXPONENT : f32 := Eval vm_compute in flit 27726 100.
Definition ADAPTIVE_ALT : f32 := Eval vm_compute in flit 1414 1000.
Definition AMPLITUDE_PENALTY : Z := 300.
Definition AMPLITUDE_BASE : Z := 6000.

(* mbe_adaptive.c:82-87, 98-103, 112-117 on non-NULL arguments *)
Definition mbe_requiresAdaptiveSmoothing (m : parms) : bool :=
  fgt (p_errorRate m) ENTRY || (4 <? p_errorCountTotal m).
Definition mbe_requiresMuting (m : parms) : bool := fgt (p_errorRate m) (p_mutingThreshold m).
Definition mbe_isMaxFrameRepeat (m : parms) : bool := MAX_FRAME_REPEATS <=? p_repeatCount m.

(* mbe_adaptive.c:135: (0.003f * 32767.0f) / 7.0f *)
Definition comfort_gain : f32 := Eval vm_compute in fdiv (fmul (flit 3 1000) (f_of_Z 32767)) (f_of_Z 7).
(* mbe_adaptive.c:139-140: one sample *)
Definition comfort_sample (bits : Z) : f32 :=
  fmul (fsub (fmul (fdiv (f_of_Z bits) (f_of_Z 16777216)) (f_of_Z 2)) fone) comfort_gain.

(* mbe_adaptive.c:128-144: overwrites the whole 160-sample buffer *)
Definition mbe_synthesizeComfortNoisef (aout : list f32) (t : tls) : res (list f32 * tls) :=
  for_up 0 160 (fun i '(aout, t) =>
    let (t, b) := mbe_java_random_next_bits 24 t in
    aout <- wr aout i (comfort_sample b) ;; Ok (aout, t)) (aout, t).

(* mbelib.c:1229-1252, mbe_floattoshort without SIMD, and mbelib.c:1094-1116, mbe_floattoshort_scalar; again = 7.0f, max_amplitude = 32767.0f * 0.95f.
   (short)audio is undefined when the truncated value does not fit a short. *)
Definition again : f32 := Eval vm_compute in f_of_Z 7.
Definition max_amplitude : f32 := Eval vm_compute in fmul (f_of_Z 32767) (flit 95 100).
Definition sf_to_short (x : f32) : res Z :=
  match sf_trunc x with
  | Some z => if (-32768 <=? z) && (z <=? 32767) then Ok z else UB BadConv
  | None => UB BadConv
  end.
Definition short_of_sample (x : f32) : res Z :=
  let audio := fmul again x in
  let audio := if fgt audio max_amplitude then max_amplitude
               else if flt audio (fopp max_amplitude) then fopp max_amplitude else audio in
  sf_to_short audio.
Definition mbe_floattoshort_scalar (float_buf : list f32) (aout : list Z) : res (list Z) :=
  for_up 0 160 (fun i aout => x <- rd float_buf i ;; s <- short_of_sample x ;; wr aout i s) aout.

(* mbelib.c:1126-1143, the SSE2 code, lane by lane (x86 semantics: MULPS; MAXPS and MINPS return the second operand
   unless the comparison is true; CVTTPS2DQ gives 0x80000000 for NaN and out-of-range; PACKSSDW saturates).
   vminv = -32767.0f * 0.95f. *)
Definition max_ps (a b : f32) : f32 := if fgt a b then a else b.
Definition min_ps (a b : f32) : f32 := if flt a b then a else b.
Definition cvttps (x : f32) : Z :=
  match sf_trunc x with Some z => if in_int z then z else -2147483648 | None => -2147483648 end.
Definition packs (z : Z) : Z := Z.max (-32768) (Z.min 32767 z).
Definition min_amplitude_simd : f32 := Eval vm_compute in fmul (f_of_Z (-32767)) (flit 95 100).
Definition short_of_sample_sse2 (x : f32) : Z :=
  packs (cvttps (min_ps (max_ps (fmul x again) min_amplitude_simd) max_amplitude)).

(* mbelib.c:1151-1170, the NEON code, lane by lane (Arm semantics: FMAX/FMIN propagate NaN and order -0 below +0;
   FCVTZS saturates and maps NaN to 0; SQXTN saturates). *)
Definition neon_max (a b : f32) : f32 :=
  match SFcompare a b with
  | None => S754_nan
  | Some Gt => a | Some Lt => b
  | Some Eq => match a, b with S754_zero true, S754_zero sb => S754_zero sb | _, _ => a end
  end.
Definition neon_min (a b : f32) : f32 :=
  match SFcompare a b with
  | None => S754_nan
  | Some Gt => b | Some Lt => a
  | Some Eq => match a, b with S754_zero false, S754_zero sb => S754_zero sb | _, _ => a end
  end.
Definition fcvtzs (x : f32) : Z :=
  match x with
  | S754_nan => 0
  | S754_infinity s => if s then -2147483648 else 2147483647
  | _ => match sf_trunc x with
         | Some z => Z.max (-2147483648) (Z.min 2147483647 z)
         | None => 0
         end
  end.
Definition short_of_sample_neon (x : f32) : Z :=
  packs (fcvtzs (neon_min (neon_max (fmul x again) min_amplitude_simd) max_amplitude)).

(* for (i = 0; i < 160; i += 8) convert samples i..i+7 with one vector function *)
Definition mbe_floattoshort_vec (lane : f32 -> Z) (float_buf : list f32) (aout : list Z) : res (list Z) :=
  loop 20 0 8 (fun i aout =>
    xs <- for_up 0 8 (fun k xs => x <- rd float_buf (i + k) ;; Ok (xs ++ [x])) [] ;;
    for_up 0 8 (fun k aout => x <- rd xs k ;; wr aout (i + k) (lane x)) aout) aout.

(* mbelib.c:1220-1227 with the dispatch of 1180-1218, which always selects the SSE2 function on x86-64 and the NEON function
   on AArch64 (its thread-local pointer is left out: it is set to the same function at the first call), and mbelib.c:1229-1252 *)
Definition mbe_floattoshort (o : oracle) (float_buf : list f32) (aout : list Z) : res (list Z) :=
  match o_simd o with
  | Scalar => mbe_floattoshort_scalar float_buf aout
  | Sse2 => mbe_floattoshort_vec short_of_sample_sse2 float_buf aout
  | Neon => mbe_floattoshort_vec short_of_sample_neon float_buf aout
  end.

(* mbe_adaptive.c:151-162: float buffer on the stack, then conversion *)
Definition mbe_synthesizeComfortNoise (o : oracle) (aout : list Z) (t : tls) : res (list Z * tls) :=
  '(fb, t) <- mbe_synthesizeComfortNoisef (repeat fzero 160) t ;;
  aout <- mbe_floattoshort o fb aout ;; Ok (aout, t).

(* float sum of f over bands 1..L in order, starting from +0 *)
Definition sum_bands (l : list f32) (L : Z) (f : f32 -> f32) : res f32 :=
  for_up 1 (L + 1) (fun k s => x <- rd l k ;; Ok (fadd s (f x))) fzero.

(* mbe_adaptive.c:192-205: RM0 and the cleared handoff; a is the address of cur_mp *)
Definition smoothing_rm0 (a : Z) (cur : parms) (t : tls) : res (f32 * tls) :=
  if t_rm0_valid t && match t_rm0_owner t with Some b => b =? a | None => false end
  then Ok (t_rm0 t, set_handoff (t_rm0 t) false None t)
  else s <- sum_bands (p_Ml cur) (p_L cur) (fun x => fmul x x) ;; Ok (s, t).

(* mbe_adaptive.c:207-215 *)
Definition smoothing_energy (prevEnergy rm0 : f32) : f32 :=
  let pe := if flt prevEnergy MIN_LOCAL_ENERGY then DEFAULT_LOCAL_ENERGY else prevEnergy in
  let e := fadd (fmul SMOOTH_ALPHA pe) (fmul SMOOTH_BETA rm0) in
  if flt e MIN_LOCAL_ENERGY then MIN_LOCAL_ENERGY else e.

(* mbe_adaptive.c:217-233 *)
Definition smoothing_VM (o : oracle) (rate : f32) (total count4 : Z) (energy : f32) : f32 :=
  if fle rate LOW && (total <=? 4) then FLT_MAX
  else
    let x8 := fsqrt (fsqrt (fsqrt energy)) in
    let e := fmul (fmul x8 x8) x8 in
    if fle rate ENTRY && (count4 =? 0)
    then fdiv (fmul ADAPTIVE_GAIN e) (expf o (fmul ADAPTIVE_EXPONENT rate))
    else fmul ADAPTIVE_ALT e.

(* mbe_adaptive.c:249-260; the int expression is evaluated left to right *)
Definition smoothing_Tm (rate : f32) (total prevThreshold : Z) : res Z :=
  let pt := if prevThreshold <=? 0 then DEFAULT_AMPLITUDE_THRESHOLD else prevThreshold in
  if fle rate LOW && (total <=? 6) then Ok DEFAULT_AMPLITUDE_THRESHOLD
  else
    p <- to_int (AMPLITUDE_PENALTY * total) ;;
    d <- to_int (AMPLITUDE_BASE - p) ;;
    to_int (d + pt).

(* mbe_adaptive.c:177-266, mbe_applyAdaptiveSmoothing; a is the address of cur_mp *)
Definition mbe_applyAdaptiveSmoothing (o : oracle) (a : Z) (cur prev : parms) (t : tls) : res (parms * tls) :=
  let L := p_L cur in
  let rate := p_errorRate cur in
  let total := p_errorCountTotal cur in
  '(rm0, t) <- smoothing_rm0 a cur t ;;
  let cur := set_localEnergy (smoothing_energy (p_localEnergy prev) rm0) cur in
  let VM := smoothing_VM o rate total (p_errorCount4 cur) (p_localEnergy cur) in
  V <- for_up 1 (L + 1) (fun l V =>
         x <- rd (p_Ml cur) l ;; if fgt x VM then wr V l 1 else Ok V) (p_Vl cur) ;;
  let cur := set_Vl V cur in
  Am <- sum_bands (p_Ml cur) L (fun x => x) ;;
  Tm <- smoothing_Tm rate total (p_amplitudeThreshold prev) ;;
  let cur := set_amplitudeThreshold Tm cur in
  if fgt Am (f_of_Z Tm) && fgt Am fzero then
    let scale := fdiv (f_of_Z Tm) Am in
    M <- for_up 1 (L + 1) (fun l M => x <- rd M l ;; wr M l (fmul x scale)) (p_Ml cur) ;;
    Ok (set_Ml M cur, t)
  else Ok (cur, t).
