(* The sums of squares when products and additions may be fused.  AArch64 compilers turn vmlaq_f32 and, by default, sum += x * y into
   one instruction with one rounding.  Whether they do is a choice at every place: k site index, with site numbers of our own. *)
From Coq Require Import ZArith List Bool.
From Verif Require Import Res F32 Build MParms MSse MSynth MUnvoiced.
Import ListNotations.
Local Open Scope Z_scope.

(* a b + c rounded once (FMADD).  With a factor that is zero, infinite or NaN the product is exact or not a number, and the two roundings
   are one.  With finite factors and an infinite c the product must not overflow by itself, and with c zero the product alone is rounded. *)
Definition ffma (a b c : f32) : f32 :=
  match a, b, c with
  | S754_finite sa ma ea, S754_finite sb mb eb, S754_finite sc mc ec =>
      let e := Z.min (ea + eb) ec in
      let p := (if xorb sa sb then Z.neg (ma * mb) else Z.pos (ma * mb)) * 2 ^ (ea + eb - e) in
      let z := p + (if sc then Z.neg mc else Z.pos mc) * 2 ^ (ec - e) in
      binary_normalize 24 128 z e false
  | S754_finite _ _ _, S754_finite _ _ _, S754_infinity s => c
  | S754_finite _ _ _, S754_finite _ _ _, S754_zero _ => fmul a b
  | _, _, _ => fadd c (fmul a b)
  end.
(* c + a * b, fused or not *)
Definition macc (fused : bool) (c a b : f32) : f32 := if fused then ffma a b c else fadd c (fmul a b).
(* vmlaq_f32 (c, a, b) *)
Definition vmla (fused : bool) (c a b : m128) : m128 :=
  m4 (macc fused (lane0 c) (lane0 a) (lane0 b)) (macc fused (lane1 c) (lane1 a) (lane1 b))
     (macc fused (lane2 c) (lane2 a) (lane2 b)) (macc fused (lane3 c) (lane3 a) (lane3 b)).
Definition contraction : Type := Z -> Z -> bool.

(* mbelib.c:398-459, the sum of squares after enhancement; vec: the NEON path (427-447) *)
Definition enh_sum_from_c (k : contraction) (l L : Z) (Ml : list f32) (s : f32) : res f32 :=
  for_up l (L + 1) (fun l sum =>
    m <- rd Ml l ;;
    let m := if flt m fzero then fopp m else m in
    Ok (macc (k 1 l) sum m m)) s.
Definition enh_sum_c (k : contraction) (vec : bool) (L : Z) (Ml : list f32) : res f32 :=
  if vec && (4 <=? L) then
    vsum <- loop (Z.to_nat (L / 4)) 1 4 (fun l4 vsum =>
      vMl <- mm_loadu Ml l4 ;;
      let vMl := mm_abs vMl in
      Ok (vmla (k 2 l4) vsum vMl vMl)) mm_setzero ;;
    enh_sum_from_c k (1 + 4 * (L / 4)) L Ml (hsum_neon vsum)
  else enh_sum_from_c k 1 L Ml fzero.

(* mbelib.c:298-367, the two moments before enhancement; vec: the NEON path (334-361).  Ml2 is also computed by itself, for the second moment *)
Definition enh_energies_from_c (k : contraction) (l L : Z) (Ml : list f32) (cos_tab : list (option f32)) (s : f32 * f32) : res (f32 * f32) :=
  for_up l (L + 1) (fun l '(rm0, rm1) =>
    m <- rd Ml l ;; c <- rdi cos_tab l ;;
    let m2 := fmul m m in
    Ok (macc (k 3 l) rm0 m m, macc (k 4 l) rm1 m2 c)) s.
Definition enh_energies_c (k : contraction) (vec : bool) (L : Z) (Ml : list f32) (cos_tab : list (option f32)) : res (f32 * f32) :=
  if vec && (4 <=? L) then
    '(vRm0, vRm1) <- loop (Z.to_nat (L / 4)) 1 4 (fun l4 '(vRm0, vRm1) =>
      vMl <- mm_loadu Ml l4 ;; vCos <- mm_loadui cos_tab l4 ;;
      let vMl2 := mm_mul vMl vMl in
      Ok (vmla (k 5 l4) vRm0 vMl vMl, vmla (k 6 l4) vRm1 vMl2 vCos)) (mm_setzero, mm_setzero) ;;
    enh_energies_from_c k (1 + 4 * (L / 4)) L Ml cos_tab (hsum_neon vRm0, hsum_neon vRm1)
  else enh_energies_from_c k 1 L Ml cos_tab (fzero, fzero).

(* mbe_unvoiced_fft.c:571-666, the power of a band; vec: the NEON path (628-650).  Of re * re + im * im either product may be fused with the addition *)
Definition pair_c (k : contraction) (i : Z) (re im : f32) : f32 :=
  if k 10 i then macc true (fmul im im) re re else macc (k 11 i) (fmul re re) im im.
Definition interior_vec_c (k : contraction) (fft : list f32) (ptr count : Z) (sum : f32) : res (f32 * Z * Z) :=
  if 4 <=? count then
    v <- loop (Z.to_nat (count / 4)) ptr 8 (fun ptr vsum =>
      v0 <- mm_loadu fft ptr ;; v1 <- mm_loadu fft (ptr + 4) ;;
      Ok (vmla (k 8 ptr) (vmla (k 7 ptr) vsum v0 v0) v1 v1)) mm_setzero ;;
    Ok (fadd sum (hsum_neon v), ptr + 8 * (count / 4), count - 4 * (count / 4))
  else Ok (sum, ptr, count).
Definition mbe_magnitude_squared_sum_c (k : contraction) (vec : bool) (fft : list f32) (start end_ : Z) : res f32 :=
  if end_ <=? start then Ok fzero
  else
    '(sum, start) <- (if start =? 0 then x <- rd fft 0 ;; Ok (macc (k 9 0) fzero x x, 1) else Ok (fzero, start)) ;;
    let include_nyquist := 128 <? end_ in
    let end_ := if include_nyquist then 128 else end_ in
    '(sum, ptr, count) <- (if vec then interior_vec_c k fft (2 * start) (end_ - start) sum else Ok (sum, 2 * start, end_ - start)) ;;
    sum <- for_up 0 count (fun i sum =>
      re <- rd fft (ptr + 2 * i) ;; im <- rd fft (ptr + 2 * i + 1) ;;
      Ok (fadd sum (pair_c k i re im))) sum ;;
    if include_nyquist then x <- rd fft 1 ;; Ok (macc (k 12 0) sum x x) else Ok sum.
