(* Specification of the agreement of the scalar, SSE2 and NEON builds: the exact values all approximate.
   Independent of the model. *)
From Coq Require Import ZArith Reals List Bool.
From Verif Require Import Res F32 MParms SpecAmp SpecSynth PFloat.
Import ListNotations.
Local Open Scope R_scope.

Definition ints (lo hi : Z) : list Z := map (fun k => lo + Z.of_nat k)%Z (seq 0 (Z.to_nat (hi - lo))).
Definition rsum (f : Z -> R) (ks : list Z) : R := fold_right (fun k s => f k + s) 0 ks.
(* the energy of the amplitudes 1 .. L, and the energy weighted with c *)
Definition exact_energy (L : Z) (Ml : list f32) : R := rsum (fun l => R_of (cell zero Ml l) * R_of (cell zero Ml l)) (upto L).
Definition exact_weighted (L : Z) (Ml : list f32) (c : Z -> R) : R := rsum (fun l => R_of (cell zero Ml l) * R_of (cell zero Ml l) * c l) (upto L).
(* the power of the bins lo .. hi - 1 of an ordered real transform *)
Definition exact_bin (x : list f32) (k : Z) : R :=
  if (k =? 0)%Z then R_of (cell zero x 0) * R_of (cell zero x 0)
  else R_of (cell zero x (2 * k)) * R_of (cell zero x (2 * k)) + R_of (cell zero x (2 * k + 1)) * R_of (cell zero x (2 * k + 1)).
Definition exact_band (x : list f32) (lo hi : Z) : R := rsum (exact_bin x) (ints lo hi).
(* a number that differs from r by at most a fifty thousandth of m; 1e-36 covers underflow *)
Definition agrees (x : f32) (r m : R) : Prop := ff x /\ Rabs (R_of x - r) <= m / 50000 + 1e-36.
(* the same library functions in the other build *)
Definition in_build (simd : build) (o : oracle) : oracle :=
  mkoracle (o_cosf o) (o_sinf o) (o_exp2f o) (o_log2f o) (o_expf o) (o_fft o) (o_ifft o) (o_plan o) simd (o_tones o).
(* the exact contribution of harmonic l to sample n, given the oscillators, and the exact voiced sample *)
Definition exact_faded (o : oracle) (w amp start step : f32) (n : nat) : R := 2 * R_of w * R_of amp * R_of (oscillator o start step n).
Definition exact_harmonic (o : oracle) (cur prev : parms) (l : Z) (n : nat) : R :=
  let vc := (cell 0 (p_Vl cur) l =? 1)%Z in let vp := (cell 0 (p_Vl prev) l =? 1)%Z in
  let pc := cell zero (p_PHIl cur) l in let pp := cell zero (p_PHIl prev) l in
  let mc := cell zero (p_Ml cur) l in let mp := cell zero (p_Ml prev) l in
  let wc := fmul (p_w0 cur) (f_of_Z l) in let wp := fmul (p_w0 prev) (f_of_Z l) in
  if ((l <? 8)%Z && vc && vp && steady (p_w0 cur) (p_w0 prev))%bool then R_of (glide o l (p_w0 cur) (p_w0 prev) pc pp mc mp (Z.of_nat n))
  else (if vp then exact_faded o (fade (Z.of_nat n + 160)) mp pp wp n else 0) +
       (if vc then exact_faded o (fade (Z.of_nat n)) mc (fsub pc (fmul wc (f_of_Z 160))) wc n else 0).
Definition exact_voiced (o : oracle) (cur prev : parms) (n : nat) : R := rsum (fun l => exact_harmonic o cur prev l n) (upto (Z.max (p_L cur) (p_L prev))).
(* the exact gain of an unvoiced band of power p over n bins *)
Definition exact_gain (amp : f32) (p : R) (n : Z) : R := 146.17696 * R_of amp / sqrt (p / IZR n).
(* no band of the set is unvoiced *)
Definition all_voiced (m : parms) : Prop := forall l, (1 <= l <= p_L m)%Z -> cell 0%Z (p_Vl m) l <> 0%Z.
(* the amplitudes 1 .. L are numbers of size at most b *)
Definition amplitudes_under (b : R) (L : Z) (Ml : list f32) : Prop := forall l, (1 <= l <= L)%Z -> ff (cell zero Ml l) /\ Rabs (R_of (cell zero Ml l)) <= b.
