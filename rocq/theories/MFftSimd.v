(* Model of the FFT used for unvoiced speech when MBELIB_ENABLE_SIMD is on: src/external/pffft/pffft.c, the code for
   vectors of four floats (SIMD_SZ 4), real transforms.  The passes over vectors are those of MFft, run with the
   arithmetic of vectors.  Simplification: the scalar twiddle factors, which the C code spreads over a vector at every
   use (LD_PS1), are spread once. *)
From Coq Require Import ZArith List Bool.
From Verif Require Import Res F32 MParms MFft.
Import ListNotations.
Local Open Scope Z_scope.

(* pffft.c:166-232 v4sf and its operations; the SSE and NEON macros have the same lanes *)
Record v4 (A : Type) := mkv { v0 : A; v1 : A; v2 : A; v3 : A }.
Arguments mkv {A}. Arguments v0 {A}. Arguments v1 {A}. Arguments v2 {A}. Arguments v3 {A}.
Definition splat {A} (x : A) : v4 A := mkv x x x x. (* LD_PS1 *)
Definition lift1 {A} (f : A -> A) (x : v4 A) : v4 A := mkv (f (v0 x)) (f (v1 x)) (f (v2 x)) (f (v3 x)).
Definition lift2 {A} (f : A -> A -> A) (x y : v4 A) : v4 A := mkv (f (v0 x) (v0 y)) (f (v1 x) (v1 y)) (f (v2 x) (v2 y)) (f (v3 x) (v3 y)).
Definition interleave2 {A} (a b : v4 A) : v4 A * v4 A := (mkv (v0 a) (v0 b) (v1 a) (v1 b), mkv (v2 a) (v2 b) (v3 a) (v3 b)).
Definition uninterleave2 {A} (a b : v4 A) : v4 A * v4 A := (mkv (v0 a) (v2 a) (v0 b) (v2 b), mkv (v1 a) (v3 a) (v1 b) (v3 b)).
Definition swaphl {A} (a b : v4 A) : v4 A := mkv (v0 b) (v1 b) (v2 a) (v3 a).
Definition transpose4 {A} (a b c d : v4 A) : v4 A * v4 A * v4 A * v4 A :=
  (mkv (v0 a) (v0 b) (v0 c) (v0 d), mkv (v1 a) (v1 b) (v1 c) (v1 d), mkv (v2 a) (v2 b) (v2 c) (v2 d), mkv (v3 a) (v3 b) (v3 c) (v3 d)).
(* VADD VSUB VMUL and the constants of the passes; argh, cos and sin are not used on vectors *)
Definition varith {A} (ar : arith A) : arith (v4 A) :=
  mkarith (v4 A) (lift2 (a_add ar)) (lift2 (a_sub ar)) (lift2 (a_mul ar)) (fun z => splat (a_int ar z)) (splat (a_two ar)) (splat (a_mh ar)) (splat (a_ms ar))
    (fun n => splat (a_argh ar n)) (lift1 (a_cos ar)) (lift1 (a_sin ar)).

(* what the vector code needs besides: unary minus, (float)M_SQRT1_2 (pffft.c:1695), (float)M_SQRT2 (pffft.c:1793) and
   (float)(-2 * M_PI * j * k / N) (pffft.c:1395) *)
Record sarith (A : Type) := mksarith { s_ar : arith A; s_neg : A -> A; s_h : A; s_2 : A; s_arg : Z -> Z -> Z -> A }.
Arguments s_ar {A}. Arguments s_neg {A}. Arguments s_h {A}. Arguments s_2 {A}. Arguments s_arg {A}.
Definition M_SQRT1_2 : f64 := S754_finite false 6369051672525773 (-53).
Definition M_SQRT2 : f64 := S754_finite false 6369051672525773 (-52).
Definition f32_sarith (cosd sind : f32 -> f32) : sarith f32 :=
  mksarith f32 (f32_arith cosd sind) fopp (d2f M_SQRT1_2) (d2f M_SQRT2)
    (fun j k n => d2f (ddiv (dmul (dmul (dmul (d_of_Z (-2)) M_PI) (d_of_Z j)) (d_of_Z k)) (d_of_Z n))).

Section Simd.
Context {A : Type} (sa : sarith A).
Let ar := s_ar sa. Let va := varith ar.
Let add := a_add ar. Let sub := a_sub ar. Let mul := a_mul ar.
Let vadd := a_add va. Let vsub := a_sub va.

(* pffft.c:1349-1417 pffft_new_setup (N, PFFFT_REAL): e has 6 * Ncvec floats, twiddle the remaining 2 * Ncvec of data *)
Record vsetup := mkvsetup { vs_N : Z; vs_Ncvec : Z; vs_ifac : list (option Z); vs_twiddle : buf A; vs_e : buf A }.
Definition fill_e (N Ncvec : Z) (e : buf A) : res (buf A) :=
  for_up 0 Ncvec (fun k e =>
    let i := k / 4 in let j := k mod 4 in
    for_up 0 3 (fun m e =>
      let a := s_arg sa (m + 1) k N in
      e <- put e ((2 * (i * 3 + m) + 0) * 4 + j) (a_cos ar a) ;;
      put e ((2 * (i * 3 + m) + 1) * 4 + j) (a_sin ar a)) e) e.
Definition new_vsetup (N : Z) : res (option vsetup) :=
  let Ncvec := N / 2 / 4 in
  e <- fill_e N Ncvec (fresh (6 * Ncvec)) ;;
  '(wa, ifac) <- rffti1 ar (N / 4) (fresh (2 * Ncvec)) (fresh 25) ;;
  nf <- rdi ifac 1 ;;
  m <- for_up 0 nf (fun k m => x <- rdi ifac (2 + k) ;; Ok (m * x)) 1 ;;
  Ok (if m =? N / 4 then Some (mkvsetup N Ncvec ifac wa e) else None).
(* ((v4sf* )e)[i] *)
Definition ldv (e : buf A) (i : Z) : res (v4 A) := a <- rdi e (4 * i) ;; b <- rdi e (4 * i + 1) ;; c <- rdi e (4 * i + 2) ;; d <- rdi e (4 * i + 3) ;; Ok (mkv a b c d).
(* ((v4sf_union* )out)[i].f[0] = x *)
Definition put0 (out : buf (v4 A)) (i : Z) (x : A) : res (buf (v4 A)) := v <- rdi out i ;; put out i (mkv x (v1 v) (v2 v) (v3 v)).
Definition put8 (out : buf (v4 A)) (q : Z) (r0 i0 r1 i1 r2 i2 r3 i3 : v4 A) : res (buf (v4 A)) :=
  out <- put out q r0 ;; out <- put out (q + 1) i0 ;; out <- put out (q + 2) r1 ;; out <- put out (q + 3) i1 ;;
  out <- put out (q + 4) r2 ;; out <- put out (q + 5) i2 ;; out <- put out (q + 6) r3 ;; put out (q + 7) i3.

(* pffft.c:1429-1446 reversed_copy; inp is in's position in vin, out the position one past the end in vout *)
Definition reversed_copy (n : Z) (vin : buf (v4 A)) (inp stride : Z) (vout : buf (v4 A)) (out : Z) : res (buf (v4 A)) :=
  a <- rdi vin inp ;; b <- rdi vin (inp + 1) ;;
  let '(g0, g1) := interleave2 a b in
  vout <- put vout (out - 1) (swaphl g0 g1) ;;
  '(_, out, g1, vout) <- for_up 1 n (fun _ '(inp, out, g1, vout) =>
    a <- rdi vin inp ;; b <- rdi vin (inp + 1) ;;
    let '(h0, h1) := interleave2 a b in
    vout <- put vout (out - 1) (swaphl g1 h0) ;; vout <- put vout (out - 2) (swaphl h0 h1) ;;
    Ok (inp + stride, out - 2, h1, vout)) (inp + stride, out - 1, g1, vout) ;;
  put vout (out - 1) (swaphl g1 g0).
(* pffft.c:1448-1468 unreversed_copy *)
Definition unreversed_copy (n : Z) (vin : buf (v4 A)) (inp : Z) (vout : buf (v4 A)) (out stride : Z) : res (buf (v4 A)) :=
  g0 <- rdi vin inp ;;
  '(inp, out, g1, vout) <- for_up 1 n (fun _ '(inp, out, g1, vout) =>
    h0 <- rdi vin inp ;; h1 <- rdi vin (inp + 1) ;;
    let g1 := swaphl g1 h0 in let h0 := swaphl h0 h1 in
    let '(a, b) := uninterleave2 h0 g1 in
    vout <- put vout out a ;; vout <- put vout (out + 1) b ;;
    Ok (inp + 2, out + stride, h1, vout)) (inp + 1, out, g0, vout) ;;
  h0 <- rdi vin inp ;;
  let h1 := g0 in let g1 := swaphl g1 h0 in let h0 := swaphl h0 h1 in
  let '(a, b) := uninterleave2 h0 g1 in
  vout <- put vout out a ;; put vout (out + 1) b.
(* pffft.c:1470-1496 pffft_zreorder, real transforms *)
Definition vzreorder_fwd (N : Z) (vin vout : buf (v4 A)) : res (buf (v4 A)) :=
  let dk := N / 32 in
  vout <- for_up 0 dk (fun k vout =>
    a <- rdi vin (k * 8 + 0) ;; b <- rdi vin (k * 8 + 1) ;; let '(x, y) := interleave2 a b in
    vout <- put vout (2 * (0 * dk + k) + 0) x ;; vout <- put vout (2 * (0 * dk + k) + 1) y ;;
    a <- rdi vin (k * 8 + 4) ;; b <- rdi vin (k * 8 + 5) ;; let '(x, y) := interleave2 a b in
    vout <- put vout (2 * (2 * dk + k) + 0) x ;; put vout (2 * (2 * dk + k) + 1) y) vout ;;
  vout <- reversed_copy dk vin 2 8 vout (N / 2 / 4) ;;
  reversed_copy dk vin 6 8 vout (N / 4).
Definition vzreorder_bwd (N : Z) (vin vout : buf (v4 A)) : res (buf (v4 A)) :=
  let dk := N / 32 in
  vout <- for_up 0 dk (fun k vout =>
    a <- rdi vin (2 * (0 * dk + k) + 0) ;; b <- rdi vin (2 * (0 * dk + k) + 1) ;; let '(x, y) := uninterleave2 a b in
    vout <- put vout (k * 8 + 0) x ;; vout <- put vout (k * 8 + 1) y ;;
    a <- rdi vin (2 * (2 * dk + k) + 0) ;; b <- rdi vin (2 * (2 * dk + k) + 1) ;; let '(x, y) := uninterleave2 a b in
    vout <- put vout (k * 8 + 4) x ;; put vout (k * 8 + 5) y) vout ;;
  vout <- unreversed_copy dk vin (N / 4 / 4) vout ((N - 6 * 4) / 4) (-8) ;;
  unreversed_copy dk vin (3 * N / 4 / 4) vout ((N - 2 * 4) / 4) (-8).

(* pffft.c:1622-1686 pffft_real_finalize_4x4; inp, eo and q are the positions of in, e and out *)
Definition finalize_4x4 (in0 in1 : v4 A) (vin : buf (v4 A)) (inp : Z) (e : buf A) (eo : Z) (out : buf (v4 A)) (q : Z) : res (buf (v4 A)) :=
  r1 <- rdi vin inp ;; i1 <- rdi vin (inp + 1) ;; r2 <- rdi vin (inp + 2) ;; i2 <- rdi vin (inp + 3) ;; r3 <- rdi vin (inp + 4) ;; i3 <- rdi vin (inp + 5) ;;
  let '(r0, r1, r2, r3) := transpose4 in0 r1 r2 r3 in let '(i0, i1, i2, i3) := transpose4 in1 i1 i2 i3 in
  e0 <- ldv e eo ;; e1 <- ldv e (eo + 1) ;; let '(r1, i1) := cplxmul va r1 i1 e0 e1 in
  e2 <- ldv e (eo + 2) ;; e3 <- ldv e (eo + 3) ;; let '(r2, i2) := cplxmul va r2 i2 e2 e3 in
  e4 <- ldv e (eo + 4) ;; e5 <- ldv e (eo + 5) ;; let '(r3, i3) := cplxmul va r3 i3 e4 e5 in
  let sr0 := vadd r0 r2 in let dr0 := vsub r0 r2 in let sr1 := vadd r1 r3 in let dr1 := vsub r3 r1 in
  let si0 := vadd i0 i2 in let di0 := vsub i0 i2 in let si1 := vadd i1 i3 in let di1 := vsub i3 i1 in
  let r0 := vadd sr0 sr1 in let r3 := vsub sr0 sr1 in let i0 := vadd si0 si1 in let i3 := vsub si1 si0 in
  let r1 := vadd dr0 di1 in let r2 := vsub dr0 di1 in let i1 := vsub dr1 di0 in let i2 := vadd dr1 di0 in
  put8 out q r0 i0 r1 i1 r2 i2 r3 i3.
(* pffft.c:1688-1737 pffft_real_finalize *)
Definition real_finalize (Ncvec : Z) (vin out : buf (v4 A)) (e : buf A) : res (buf (v4 A)) :=
  let dk := Ncvec / 4 in
  save <- rdi vin 7 ;;
  let zero := splat (a_int ar 0) in
  cr <- rdi vin 0 ;; ci <- rdi vin (Ncvec * 2 - 1) ;;
  out <- finalize_4x4 zero zero vin 1 e 0 out 0 ;;
  let s := s_h sa in
  out <- put0 out 0 (add (add (v0 cr) (v2 cr)) (add (v1 cr) (v3 cr))) ;;
  out <- put0 out 1 (sub (add (v0 cr) (v2 cr)) (add (v1 cr) (v3 cr))) ;;
  out <- put0 out 4 (sub (v0 cr) (v2 cr)) ;;
  out <- put0 out 5 (sub (v3 cr) (v1 cr)) ;;
  out <- put0 out 2 (add (v0 ci) (mul s (sub (v1 ci) (v3 ci)))) ;;
  out <- put0 out 3 (sub (s_neg sa (v2 ci)) (mul s (add (v1 ci) (v3 ci)))) ;;
  out <- put0 out 6 (sub (v0 ci) (mul s (sub (v1 ci) (v3 ci)))) ;;
  out <- put0 out 7 (sub (v2 ci) (mul s (add (v1 ci) (v3 ci)))) ;;
  '(_, out) <- for_up 1 dk (fun k '(save, out) =>
    next <- rdi vin (8 * k + 7) ;; in1 <- rdi vin (8 * k + 0) ;;
    out <- finalize_4x4 save in1 vin (8 * k + 1) e (k * 6) out (k * 8) ;;
    Ok (next, out)) (save, out) ;;
  Ok out.

(* pffft.c:1739-1785 pffft_real_preprocess_4x4 *)
Definition preprocess_4x4 (vin : buf (v4 A)) (inp : Z) (e : buf A) (eo : Z) (out : buf (v4 A)) (q : Z) (first : bool) : res (buf (v4 A)) :=
  r0 <- rdi vin inp ;; i0 <- rdi vin (inp + 1) ;; r1 <- rdi vin (inp + 2) ;; i1 <- rdi vin (inp + 3) ;;
  r2 <- rdi vin (inp + 4) ;; i2 <- rdi vin (inp + 5) ;; r3 <- rdi vin (inp + 6) ;; i3 <- rdi vin (inp + 7) ;;
  let sr0 := vadd r0 r3 in let dr0 := vsub r0 r3 in let sr1 := vadd r1 r2 in let dr1 := vsub r1 r2 in
  let si0 := vadd i0 i3 in let di0 := vsub i0 i3 in let si1 := vadd i1 i2 in let di1 := vsub i1 i2 in
  let r0 := vadd sr0 sr1 in let r2 := vsub sr0 sr1 in let r1 := vsub dr0 si1 in let r3 := vadd dr0 si1 in
  let i0 := vsub di0 di1 in let i2 := vadd di0 di1 in let i1 := vsub si0 dr1 in let i3 := vadd si0 dr1 in
  e0 <- ldv e eo ;; e1 <- ldv e (eo + 1) ;; let '(r1, i1) := cplxmulconj va r1 i1 e0 e1 in
  e2 <- ldv e (eo + 2) ;; e3 <- ldv e (eo + 3) ;; let '(r2, i2) := cplxmulconj va r2 i2 e2 e3 in
  e4 <- ldv e (eo + 4) ;; e5 <- ldv e (eo + 5) ;; let '(r3, i3) := cplxmulconj va r3 i3 e4 e5 in
  let '(r0, r1, r2, r3) := transpose4 r0 r1 r2 r3 in let '(i0, i1, i2, i3) := transpose4 i0 i1 i2 i3 in
  if first then
    out <- put out q r1 ;; out <- put out (q + 1) i1 ;; out <- put out (q + 2) r2 ;; out <- put out (q + 3) i2 ;; out <- put out (q + 4) r3 ;; put out (q + 5) i3
  else put8 out q r0 i0 r1 i1 r2 i2 r3 i3.
(* pffft.c:1787-1834 pffft_real_preprocess.  Simplification: the four lanes of out[0], and those of out[2 * Ncvec - 1],
   are written together. *)
Definition real_preprocess (Ncvec : Z) (vin out : buf (v4 A)) (e : buf A) : res (buf (v4 A)) :=
  let dk := Ncvec / 4 in
  a0 <- rdi vin 0 ;; b0 <- rdi vin 1 ;; a1 <- rdi vin 2 ;; b1 <- rdi vin 3 ;; a2 <- rdi vin 4 ;; b2 <- rdi vin 5 ;; a3 <- rdi vin 6 ;; b3 <- rdi vin 7 ;;
  let Xr := mkv (v0 a0) (v0 a1) (v0 a2) (v0 a3) in let Xi := mkv (v0 b0) (v0 b1) (v0 b2) (v0 b3) in
  out <- preprocess_4x4 vin 0 e 0 out 1 true ;;
  out <- for_up 1 dk (fun k out => preprocess_4x4 vin (8 * k) e (k * 6) out (- 1 + k * 8) false) out ;;
  let two := a_int ar 2 in let s := s_2 sa in
  out <- put out 0 (mkv (add (add (v0 Xr) (v0 Xi)) (mul two (v2 Xr))) (sub (sub (v0 Xr) (v0 Xi)) (mul two (v2 Xi)))
                        (sub (add (v0 Xr) (v0 Xi)) (mul two (v2 Xr))) (add (sub (v0 Xr) (v0 Xi)) (mul two (v2 Xi)))) ;;
  put out (2 * Ncvec - 1) (mkv (mul two (add (v1 Xr) (v3 Xr))) (sub (mul s (sub (v1 Xr) (v3 Xr))) (mul s (add (v1 Xi) (v3 Xi))))
                               (mul two (sub (v3 Xi) (v1 Xi))) (sub (mul (s_neg sa s) (sub (v1 Xr) (v3 Xr))) (mul s (add (v1 Xi) (v3 Xi))))).

(* pffft.c:1837-1910 pffft_transform_internal with ordered = 1, a scratch buffer and a real transform; buff[0] is the
   output and buff[1] the scratch buffer, input and output are different arrays *)
Definition vtwiddle (s : vsetup) : buf (v4 A) := map (option_map splat) (vs_twiddle s).
Definition vtransform_fwd (s : vsetup) (m : mem (A := v4 A)) : res (mem (A := v4 A)) :=
  nf <- rdi (vs_ifac s) 1 ;;
  let ib := negb (xorb (Z.odd nf) true) in
  '(p, m) <- rfftf1 va (vs_Ncvec s * 2) Inp (buff ib) (buff (negb ib)) (vtwiddle s) (vs_ifac s) m ;;
  let ib := negb (same p (buff false)) in
  b <- real_finalize (vs_Ncvec s) (get m (buff ib)) (get m (buff (negb ib))) (vs_e s) ;;
  let m := set m (buff (negb ib)) b in
  b <- vzreorder_fwd (vs_N s) (get m (buff (negb ib))) (get m (buff ib)) ;;
  let m := set m (buff ib) b in
  if same (buff ib) Out then Ok m else UB OOB.
Definition vtransform_bwd (s : vsetup) (m : mem (A := v4 A)) : res (mem (A := v4 A)) :=
  nf <- rdi (vs_ifac s) 1 ;;
  let ib := xorb (Z.odd nf) true in
  b <- vzreorder_bwd (vs_N s) (get m Inp) (get m (buff ib)) ;;
  let m := set m (buff ib) b in
  b <- real_preprocess (vs_Ncvec s) (get m (buff ib)) (get m (buff (negb ib))) (vs_e s) ;;
  let m := set m (buff (negb ib)) b in
  '(p, m) <- rfftb1 va (vs_Ncvec s * 2) (buff (negb ib)) (buff false) (buff true) (vtwiddle s) (vs_ifac s) m ;;
  if same p Out then Ok m else UB OOB.

(* an array of floats as vectors, and back *)
Fixpoint vecs (x : list A) : list (v4 A) := match x with a :: b :: c :: d :: t => mkv a b c d :: vecs t | _ => [] end.
Definition floats (x : list (v4 A)) : list A := flat_map (fun v => [v0 v; v1 v; v2 v; v3 v]) x.
(* pffft.c:2139-2143 pffft_transform_ordered with a plan for 256 points, from any earlier contents of output and scratch *)
Definition vfft256 (x : list A) (out scr : buf (v4 A)) : res (list A) :=
  s <- new_vsetup 256 ;;
  match s with None => UB OOB | Some s => m <- vtransform_fwd s (mkmem (map Some (vecs x)) out scr) ;; y <- all_init (m_out m) ;; Ok (floats y) end.
Definition vifft256 (x : list A) (out scr : buf (v4 A)) : res (list A) :=
  s <- new_vsetup 256 ;;
  match s with None => UB OOB | Some s => m <- vtransform_bwd s (mkmem (map Some (vecs x)) out scr) ;; y <- all_init (m_out m) ;; Ok (floats y) end.
End Simd.

(* the vector transforms as library functions of the speech model *)
Definition with_pffft_simd (cosd sind : f32 -> f32) (o : oracle) : oracle :=
  let run (t : list f32 -> buf (v4 f32) -> buf (v4 f32) -> res (list f32)) x k := match t x (fresh 64) (fresh 64) with Ok y => nth (Z.to_nat k) y fzero | UB _ => fzero end in
  mkoracle (o_cosf o) (o_sinf o) (o_exp2f o) (o_log2f o) (o_expf o) (run (vfft256 (f32_sarith cosd sind))) (run (vifft256 (f32_sarith cosd sind))) (o_plan o) (o_simd o) (o_tones o).
