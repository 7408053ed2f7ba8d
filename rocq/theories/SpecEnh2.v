(* Specification of the enhanced amplitudes as formulas in single precision, independent of the model. *)
From Coq Require Import ZArith Reals List Bool.
From Verif Require Import Res F32 MParms SpecSum SpecAmp SpecSynth PFloat.
Import ListNotations.
Local Open Scope Z_scope.

(* the cosine of l times the fundamental, by l rotations from (1, 0) *)
Definition harmonic_cos (o : oracle) (w0 : f32) (l : Z) : f32 :=
  fst (Nat.iter (Z.to_nat l) (rotate (cosf o w0) (sinf o w0)) (f_of_Z 1, zero)).
(* R0 and R1: the energy, and the energy weighted with the cosines *)
Definition moment0 (o : oracle) (m : parms) : f32 := add_all (o_simd o) (map (fun l => let x := cell zero (p_Ml m) l in fmul x x) (upto (p_L m))).
Definition moment1 (o : oracle) (m : parms) : f32 :=
  add_all (o_simd o) (map (fun l => let x := cell zero (p_Ml m) l in fmul (fmul x x) (harmonic_cos o (p_w0 m) l)) (upto (p_L m))).
(* W_l = sqrt M_l * (0.96 pi (R0^2 + R1^2 - 2 R0 R1 cos (l w0)) / (w0 R0 (R0^2 - R1^2)))^(1/4) *)
Definition weight (o : oracle) (m : parms) (l : Z) : f32 :=
  let r0 := moment0 o m in let r1 := moment1 o m in
  let top := fmul (fmul (flit 96 100) (d2f M_PI)) (fsub (fadd (fmul r0 r0) (fmul r1 r1)) (fmul (fmul (fmul (f_of_Z 2) r0) r1) (harmonic_cos o (p_w0 m) l))) in
  let bottom := fmul (fmul (p_w0 m) r0) (fsub (fmul r0 r0) (fmul r1 r1)) in
  fmul (fsqrt (cell zero (p_Ml m) l)) (fsqrt (fsqrt (fdiv top bottom))).
(* the lowest eighth of the harmonics and zero amplitudes are kept; other weights are limited to 0.5 and 1.2 *)
Definition reweighted (o : oracle) (m : parms) (l : Z) : f32 :=
  let x := cell zero (p_Ml m) l in let w := weight o m l in
  if SFeqb x zero then x else if 8 * l <=? p_L m then x
  else if flt (flit 12 10) w then fmul (flit 12 10) x else if flt w (flit 1 2) then fmul (flit 1 2) x else fmul w x.
(* the factor that restores the energy *)
Definition restore (o : oracle) (m : parms) : f32 :=
  let e := add_all (o_simd o) (map (fun l => fmul (reweighted o m l) (reweighted o m l)) (upto (p_L m))) in
  if SFeqb e zero then f_of_Z 1 else fsqrt (fdiv (moment0 o m) e).
Definition enhanced_amplitudes (o : oracle) (m : parms) : list f32 :=
  replaced zero 1 (p_L m) (fun l => fmul (restore o m) (reweighted o m l)) (p_Ml m).

(* ---- energy in exact arithmetic ---- *)
Definition energy (m : parms) : R :=
  fold_right (fun l s => (R_of (cell zero (p_Ml m) l) * R_of (cell zero (p_Ml m) l) + s)%R) 0%R (upto (p_L m)).
