(* Specification of the decoded spectral amplitudes as formulas over the quantised fields, independent of the decoder's
   loops and arrays.  Sums and products are those of the library's floats. *)
From Coq Require Import ZArith List Bool.
From Verif Require Import Res F32 TabImbe TabAmbe2450 TabAmbe2400 MParms SpecEcc SpecFrame SpecImbe SpecAmbe.
Import ListNotations.
Local Open Scope Z_scope.

(* 1 .. n *)
Definition upto (n : Z) : list Z := map Z.of_nat (seq 1 (Z.to_nat n)).
(* f 1 + f 2 + ... + f n, from the left *)
Definition fsum (n : Z) (f : Z -> f32) : f32 := fold_left (fun s k => fadd s (f k)) (upto n) (S754_zero false).
(* the inverse cosine transform of c 1 .. c n at j: the sum of w_k c_k cos (pi (k - 1) (j - 1/2) / n), w_1 = 1, other w_k = 2 *)
Definition dct_cosine (o : oracle) (n k j : Z) : f32 :=
  cosf o (d2f (ddiv (dmul (dmul M_PI (f2d (f_of_Z (k - 1)))) (f2d (fsub (f_of_Z j) (flit 1 2)))) (f2d (f_of_Z n)))).
Definition idct (o : oracle) (n : Z) (c : Z -> f32) (j : Z) : f32 :=
  fsum n (fun k => fmul (fmul (f_of_Z (if k =? 1 then 1 else 2)) (c k)) (dct_cosine o n k j)).
(* a uniform quantiser of n bits: step (b - 2^(n-1) + 1/2) *)
Definition dequantised (o : oracle) (step : f32) (b : Z) (n : f32) : f32 :=
  fmul step (fadd (fsub (f_of_Z b) (exp2f o (fsub n (flit 1 1)))) (flit 1 2)).
(* the residuals of the blocks c, of j 1, j 2, ... values, one after the other *)
Definition residuals (o : oracle) (blocks : Z) (j : Z -> Z) (c : Z -> Z -> f32) : list f32 :=
  flat_map (fun i => map (idct o (j i) (c i)) (upto (j i))) (upto blocks).

(* the previous log amplitude of harmonic l: a frame of fewer than L harmonics is continued by its last one.  Harmonic p_L + 1 of a
   frame of at least L harmonics is what the array holds from earlier frames; only l = L can ask for it, with a weight of rounding size. *)
Definition past (prev : parms) (L l : Z) : f32 :=
  nth (Z.to_nat (if (p_L prev <? l) && (l <=? L) then p_L prev else l)) (p_log2Ml prev) (S754_zero false).
(* the previous frame's harmonic number that corresponds to harmonic l of L, its whole part and its fraction *)
Definition position (pL L l : Z) : f32 := fmul (fdiv (f_of_Z pL) (f_of_Z L)) (f_of_Z l).
Definition whole_part (x : f32) : Z := match sf_trunc x with Some z => z | None => 0 end.
Definition fraction (x : f32) : f32 := fsub x (f_of_Z (whole_part x)).

(* a residual r plus the interpolated past amplitude minus the mean of the interpolated past amplitudes, the latter two scaled by rho *)
Definition predicted (rho : f32) (pL L : Z) (a : Z -> f32) (r : Z -> f32) (l : Z) : f32 :=
  let pos := position pL L in
  let lower := fun l => a (whole_part (pos l)) in
  let upper := fun l => a (whole_part (pos l) + 1) in
  let mean := fmul (fdiv rho (f_of_Z L))
    (fsum L (fun l => fadd (fmul (fsub (flit 1 1) (fraction (pos l))) (lower l)) (fmul (fraction (pos l)) (upper l)))) in
  fsub (fadd (fadd (r l) (fmul (fmul rho (fsub (flit 1 1) (fraction (pos l)))) (lower l))) (fmul (fmul rho (fraction (pos l))) (upper l))) mean.

(* ---- IMBE ---- *)
Definition table {A} (t : list (list A)) (L : Z) : list A := nth (Z.to_nat (L - 9)) t [].
Definition entry {A} (d : A) (t : list A) (i : Z) : A := nth (Z.to_nat i) t d.
(* the gain vector *)
Definition imbe_gain (o : oracle) (L : Z) (d : list Z) (m : Z) : f32 :=
  if m =? 1 then entry (S754_zero false) B2 (quantiser_number L d 2 6)
  else let r := entry [] (table ba L) (m - 2) in
       dequantised o (nth 1 r (S754_zero false)) (quantiser_number L d (m + 1) (entry 0 (gain_bits L) (m - 2))) (nth 0 r (S754_zero false)).
Definition block_size (L i : Z) : Z := entry 0 (table ImbeJi L) (i - 1).
(* the number of the quantiser of coefficient k >= 2 of block i *)
Definition higher_quantiser (L i k : Z) : Z :=
  8 + fold_right Z.add 0 (map (fun j => block_size L j - 1) (upto (i - 1))) + (k - 2).
Definition imbe_coefficient (o : oracle) (L : Z) (d : list Z) (i k : Z) : f32 :=
  if k =? 1 then idct o 6 (imbe_gain o L d) i
  else let q := higher_quantiser L i k in
       let n := entry 0 (higher_bits L) (q - 8) in
       if n =? 0 then S754_zero false
       else dequantised o (fmul (entry (S754_zero false) quantstep (n - 1)) (entry (S754_zero false) standdev (k - 2))) (quantiser_number L d q n) (f_of_Z n).
Definition imbe_residual (o : oracle) (L : Z) (d : list Z) (l : Z) : f32 :=
  nth (Z.to_nat (l - 1)) (residuals o 6 (block_size L) (imbe_coefficient o L d)) (S754_zero false).
(* the prediction coefficient *)
Definition prediction (L : Z) : f32 :=
  if L <=? 15 then d2f (dlit 4 10) else if L <=? 24 then d2f (dsub (dmul (dlit 3 100) (d_of_Z L)) (dlit 5 100)) else d2f (dlit 7 10).
Definition imbe_log_amplitude (o : oracle) (L : Z) (d : list Z) (prev : parms) (l : Z) : f32 :=
  predicted (prediction L) (p_L prev) L (past prev L) (imbe_residual o L d) l.

(* ---- AMBE ---- *)
(* 1 / (2 sqrt 2) *)
Definition half_root_half : f32 := d2f (ddiv (d_of_Z 1) (dmul (d_of_Z 2) (S754_finite false 6369051672525773 (-52)))).
(* coefficient k of block i of four: two from a pair of values of the transformed gain vector v, four from the codebook row h i, the rest zero *)
Definition ambe_coefficient (o : oracle) (v : Z -> f32) (h : Z -> list f32) (i k : Z) : f32 :=
  let r := idct o 8 v in
  if k =? 1 then fmul (flit 1 2) (fadd (r (2 * i - 1)) (r (2 * i)))
  else if k =? 2 then fmul half_root_half (fsub (r (2 * i - 1)) (r (2 * i)))
  else if k <=? 6 then entry (S754_zero false) (h i) (k - 3) else S754_zero false.
Definition ambe_residual (o : oracle) (j : Z -> Z) (v : Z -> f32) (h : Z -> list f32) (l : Z) : f32 :=
  nth (Z.to_nat (l - 1)) (residuals o 4 j (ambe_coefficient o v h)) (S754_zero false).
(* the value in front of the first harmonic is that of the first harmonic; rho = 0.65; the gain gamma replaces the mean of the residuals *)
Definition ambe_log_amplitude (o : oracle) (L : Z) (j : Z -> Z) (v : Z -> f32) (h : Z -> list f32) (gamma : f32) (prev : parms) (l : Z) : f32 :=
  let r := ambe_residual o j v h in
  fadd (predicted (d2f (dlit 65 100)) (p_L prev) L (fun l => past prev L (Z.max 1 l)) r l)
       (fsub (fsub gamma (fmul (flit 1 2) (log2f o (f_of_Z L)))) (fdiv (fsum L r) (f_of_Z L))).
(* unvoiced harmonics are scaled by 0.2046 / sqrt w0 *)
Definition ambe_amplitude (o : oracle) (w0 : f32) (v : Z) (g : f32) : f32 :=
  if v =? 1 then exp2f o g else fmul (fdiv (d2f (dlit 2046 10000)) (fsqrt w0)) (exp2f o g).
(* the gain vector of codebook rows p and q *)
Definition ambe_gain (p q : list f32) (m : Z) : f32 :=
  if m =? 1 then S754_zero false else if m <=? 4 then entry (S754_zero false) p (m - 2) else entry (S754_zero false) q (m - 5).
Definition row {A} (t : list (list A)) (i : Z) : list A := nth (Z.to_nat i) t [].

(* 3600x2450 *)
Definition gain_vector2450 (d : list Z) : Z -> f32 :=
  ambe_gain (row AmbePRBA24 (bits_at d [12; 13; 14; 15; 16; 17; 18; 19; 40])) (row AmbePRBA58 (bits_at d [20; 21; 22; 23; 41; 42; 43])).
Definition higher2450 (d : list Z) (i : Z) : list f32 :=
  if i =? 1 then row AmbeHOCb5 (bits_at d [24; 25; 26; 27; 44]) else if i =? 2 then row AmbeHOCb6 (bits_at d [28; 29; 30; 45])
  else if i =? 3 then row AmbeHOCb7 (bits_at d [31; 32; 33; 46]) else row AmbeHOCb8 (bits_at d [34; 47; 48]).
Definition block2450 (L i : Z) : Z := entry 0 (row AmbeLmprbl L) (i - 1).
Definition log_amplitude2450 (o : oracle) (d : list Z) (prev : parms) : Z -> f32 :=
  ambe_log_amplitude o (harmonics2450 (pitch2450 d)) (block2450 (harmonics2450 (pitch2450 d))) (gain_vector2450 d) (higher2450 d)
    (fadd (gain2450 d) (fmul (flit 1 2) (p_gamma prev))) prev.
(* 3600x2400: parameter bit 24 is not read, and only even rows of the last codebook *)
Definition gain_vector2400 (d : list Z) : Z -> f32 :=
  ambe_gain (row AmbePlusPRBA24 (bits_at d [10; 11; 12; 13; 14; 15; 16; 44; 45])) (row AmbePlusPRBA58 (bits_at d [17; 18; 19; 20; 21; 46; 47])).
Definition higher2400 (d : list Z) (i : Z) : list f32 :=
  if i =? 1 then row AmbePlusHOCb5 (bits_at d [22; 23; 25; 26]) else if i =? 2 then row AmbePlusHOCb6 (bits_at d [27; 28; 29; 30])
  else if i =? 3 then row AmbePlusHOCb7 (bits_at d [31; 32; 33; 34]) else row AmbePlusHOCb8 (2 * bits_at d [35; 36; 37]).
Definition block2400 (L i : Z) : Z := entry 0 (row AmbePlusLmprbl L) (i - 1).
Definition log_amplitude2400 (o : oracle) (d : list Z) (prev : parms) : Z -> f32 :=
  ambe_log_amplitude o (harmonics2400 (pitch2400 d)) (block2400 (harmonics2400 (pitch2400 d))) (gain_vector2400 d) (higher2400 d)
    (fadd (gain2400 d) (fmul (flit 1 2) (p_gamma prev))) prev.

(* parameter vectors that differ at most in bit i *)
Definition same_but (i : Z) (d d' : list Z) : Prop := forall k, k <> i -> rd d k = rd d' k.
(* the positions of the nine fields of an AMBE voice frame: pitch, voicing, gain, two gain shape and four higher order codebooks *)
Definition fields2450 : list (list Z) :=
  [[0; 1; 2; 3; 37; 38; 39]; [4; 5; 6; 7; 35]; [8; 9; 10; 11; 36]; [12; 13; 14; 15; 16; 17; 18; 19; 40]; [20; 21; 22; 23; 41; 42; 43];
   [24; 25; 26; 27; 44]; [28; 29; 30; 45]; [31; 32; 33; 46]; [34; 47; 48]].
Definition fields2400 : list (list Z) :=
  [[0; 1; 2; 3; 4; 5; 48]; [38; 39; 40; 41]; [6; 7; 8; 9; 42; 43]; [10; 11; 12; 13; 14; 15; 16; 44; 45]; [17; 18; 19; 20; 21; 46; 47];
   [22; 23; 25; 26]; [27; 28; 29; 30]; [31; 32; 33; 34]; [35; 36; 37]].
