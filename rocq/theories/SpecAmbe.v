(* Specification of AMBE 3600x2450 and 3600x2400 parameter frames, independent of the decoder model: which vectors are
   tones, erasures, silence and voice, and what a voice frame sets. *)
From Coq Require Import ZArith List Bool Reals.
From Verif Require Import Res F32 TabAmbe2450 TabAmbe2400 MParms SpecEcc SpecFrame SpecImbe PFloat.
Import ListNotations.
Local Open Scope Z_scope.

(* the number formed by the bits at the given positions, most significant first *)
Definition bits_at (d : list Z) (ps : list Z) : Z := val (rev (map (fun p => nth (Z.to_nat p) d 0) ps)).
(* a table of whole numbers stored as floats *)
Definition whole (x : f32) : Z := match sf_trunc x with Some z => z | None => 0 end.
(* the voicing band of harmonic l for the fundamental f0 in cycles per sample: 16 l f0, rounded to single precision, toward zero *)
Definition band_of (f0 : f32) (l : Z) : Z := whole (fmul (f_of_Z (16 * l)) f0).
(* cycles per sample to radians per sample, as the library rounds it *)
Definition radians (f0 : f32) : f32 := d2f (dmul (f2d (fmul f0 (f_of_Z 2))) M_PI).
(* band values extended to m bands; the element in front of the first band repeats the first band *)
Definition extended0 (n m : Z) (a a' : list f32) : Prop :=
  length a' = length a /\ rd a' 0 = rd a' 1 /\ (forall l, 1 <= l -> l <= n \/ m < l -> rd a' l = rd a l)
  /\ (forall l, 1 <= n -> n < l <= m -> rd a' l = rd a n).

(* what decoding a voice frame of L harmonics, fundamental w0, gain step dg and voicing v does to cur and prev *)
Definition ambe_accepted (L : Z) (w0 dg : f32) (v : Z -> Z) (cur prev cur' prev' : parms) : Prop :=
  p_L cur' = L /\ p_w0 cur' = w0 /\ p_repeat cur' = p_repeat prev /\ p_gamma cur' = fadd dg (fmul fhalf (p_gamma prev))
  /\ (forall l, 1 <= l <= L -> rd (p_Vl cur') l = Ok (v l))
  /\ same_outside L (p_Vl cur) (p_Vl cur') /\ same_outside L (p_Ml cur) (p_Ml cur') /\ same_outside L (p_log2Ml cur) (p_log2Ml cur')
  /\ cur' = set_log2Ml (p_log2Ml cur') (set_Ml (p_Ml cur') (set_gamma (p_gamma cur') (set_Vl (p_Vl cur') (set_L (p_L cur')
              (set_w0 (p_w0 cur') (set_repeat (p_repeat cur') cur))))))
  /\ extended0 (p_L prev) L (p_Ml prev) (p_Ml prev') /\ extended0 (p_L prev) L (p_log2Ml prev) (p_log2Ml prev')
  /\ prev' = set_log2Ml (p_log2Ml prev') (set_Ml (p_Ml prev') prev).

(* ---- 3600x2450 ---- *)
Definition pitch2450 (d : list Z) : Z := bits_at d [0; 1; 2; 3; 37; 38; 39].
(* tone signature: six leading ones, and the last four bits zero or the four bits 12..15 repeated at 20..23 *)
Definition tone2450 (d : list Z) : Prop :=
  firstn 6 d = [1; 1; 1; 1; 1; 1] /\ (slice 45 4 d = [0; 0; 0; 0] \/ slice 12 4 d = slice 20 4 d).
Definition erasure2450 (b0 : Z) : Prop := 120 <= b0 <= 123 \/ 126 <= b0 <= 127.
Definition silence2450 (b0 : Z) : bool := (b0 =? 124) || (b0 =? 125).
Definition harmonics2450 (b0 : Z) : Z :=
  if b0 =? 124 then 15 else if b0 =? 125 then 14 else whole (nth (Z.to_nat b0) AmbeLtable fzero).
(* pi/32 cycles per sample, times 2 pi, for silence *)
Definition w0_2450 (b0 : Z) : f32 :=
  if silence2450 b0 then fmul (fdiv (d2f M_PI) (f_of_Z 32)) (d2f (dmul (d_of_Z 2) M_PI)) else radians (nth (Z.to_nat b0) AmbeW0table fzero).
Definition voicing2450 (d : list Z) (l : Z) : Z :=
  if silence2450 (pitch2450 d) then 0
  else nth (Z.to_nat (band_of (nth (Z.to_nat (pitch2450 d)) AmbeW0table fzero) l)) (nth (Z.to_nat (bits_at d [4; 5; 6; 7; 35])) AmbeVuv []) 0.
Definition gain2450 (d : list Z) : f32 := nth (Z.to_nat (bits_at d [8; 9; 10; 11; 36])) AmbeDg fzero.

(* ---- 3600x2400 ---- *)
Definition pitch2400 (d : list Z) : Z := bits_at d [0; 1; 2; 3; 4; 5; 48].
(* the eight-bit tone index: three bits choose its upper three bits *)
Definition tone_high (x : Z) : Z := nth (Z.to_nat x) [4; 0; 1; 2; 3; 7; 6; 5] 0.
Definition tone2400 (d : list Z) : Z := 32 * tone_high (bits_at d [6; 7; 8]) + bits_at d [9; 42; 43; 10; 11].
Definition harmonics2400 (b0 : Z) : Z := whole (nth (Z.to_nat b0) AmbePlusLtable fzero).
(* the exponent of the fundamental of pitch code b0 *)
Definition exponent2400 (b0 : Z) : f32 :=
  fsub (fopp (flit 17661 4096)) (fmul (flit 21336 1000000) (fadd (f_of_Z b0) fhalf)).
(* the C library's exp2f at x is a finite float within 1% of 2^x *)
Definition exp2_close (o : oracle) (x : f32) : Prop :=
  ff (exp2f o x) /\ (Rabs (R_of (exp2f o x) - Rpower 2 (R_of x)) <= Rpower 2 (R_of x) / 100)%R.
Definition voicing2400 (o : oracle) (d : list Z) (l : Z) : Z :=
  nth (Z.to_nat (band_of (exp2f o (exponent2400 (pitch2400 d))) l)) (nth (Z.to_nat (bits_at d [38; 39; 40; 41])) AmbePlusVuv []) 0.
Definition gain2400 (d : list Z) : f32 := nth (Z.to_nat (bits_at d [6; 7; 8; 9; 42; 43])) AmbePlusDg fzero.
