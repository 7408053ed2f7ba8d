(* Specification of spectral amplitude enhancement, independent of the model. *)
From Coq Require Import ZArith List Bool.
From Verif Require Import Res F32 MParms SpecImbe SpecAdaptive SpecSum.
Import ListNotations.
Local Open Scope Z_scope.

Definition zero (x : f32) : Prop := exists s, x = S754_zero s.
(* neither negative nor positive, as comparisons see it *)
Definition not_negative (x : f32) : Prop := flt x (S754_zero false) = false.
Definition not_positive (x : f32) : Prop := flt (S754_zero false) x = false.

(* x is what the spectral weighting makes of the amplitude m of harmonic l of L *)
Definition weighted (L l : Z) (m x : f32) : Prop :=
  (zero m -> x = m) /\ (8 * l <= L -> x = m) /\
  (x = m \/ exists w, x = fmul w m /\ (is_nan w \/ fle (flit 1 2) w = true /\ fle w (flit 12 10) = true)).
(* the common factor that restores the energy e0 when the weighted amplitudes have energy e1 *)
Definition correction (e0 e1 : f32) : f32 := if SFeqb e1 (S754_zero false) then f_of_Z 1 else fsqrt (fdiv e0 e1).

(* cur' is cur with weighted amplitudes xs scaled by g; simd says in which order the energies are added *)
Definition enhanced (simd : build) (cur cur' : parms) (xs : list f32) (g : f32) : Prop :=
  let L := p_L cur in
  cur' = set_Ml (p_Ml cur') cur /\ same_outside L (p_Ml cur) (p_Ml cur') /\ length xs = Z.to_nat L /\
  g = correction (energy_total simd (bands (p_Ml cur) L)) (energy_total simd xs) /\
  forall l, 1 <= l <= L -> exists m x, rd (p_Ml cur) l = Ok m /\ nth_error xs (Z.to_nat (l - 1)) = Some x /\ weighted L l m x /\ rd (p_Ml cur') l = Ok (fmul g x).
