(* C48: spectral amplitude enhancement. *)
From Coq Require Import ZArith List Bool.
From Verif Require Import Res F32 MParms MAdaptive MUnvoiced MSynth SpecState SpecImbe SpecAdaptive SpecSum SpecEnh PEnh.
Import ListNotations.
Local Open Scope Z_scope.

(* C48: enhancement is defined for every state with at most 56 harmonics; it changes only Ml[1..L], by band weights in
   [0.5, 1.2] above L/8 and one common energy correction, and hands the old energy to the smoothing stage *)
Theorem C48_effect : forall o a cur t, length (p_Ml cur) = 57%nat -> 0 <= p_L cur <= 56 ->
  exists cur' xs, mbe_spectralAmpEnhance o a cur t = Ok (cur', mbe_setPreEnhRm0 a (energy_total (o_simd o) (bands (p_Ml cur) (p_L cur))) t) /\
  enhanced (o_simd o) cur cur' xs (correction (energy_total (o_simd o) (bands (p_Ml cur) (p_L cur))) (energy_total (o_simd o) xs)).
Proof. exact enhance_ok. Qed.
Print Assumptions C48_effect.
(* C48: the low harmonics are only rescaled, zeros stay zero under a finite correction, no sign changes *)
Theorem C48_band : forall o a cur t cur' t', length (p_Ml cur) = 57%nat -> 0 <= p_L cur <= 56 -> mbe_spectralAmpEnhance o a cur t = Ok (cur', t') ->
  exists g, forall l m m', 1 <= l <= p_L cur -> rd (p_Ml cur) l = Ok m -> rd (p_Ml cur') l = Ok m' ->
  (8 * l <= p_L cur -> m' = fmul g m) /\ (finite g -> zero m -> zero m') /\ (not_negative m -> not_negative m') /\ (not_positive m -> not_positive m').
Proof. exact enhance_band. Qed.
Print Assumptions C48_band.
(* the amplitudes 0, 1, 2, ... of a frame of 9 harmonics *)
Definition ramp : parms := set_L 9 (set_w0 (flit 1 4) (set_Ml (map (fun k => f_of_Z (Z.of_nat k - 1)) (seq 0 57)) imbe_initial)).
Definition milli (r : res (parms * tls)) : list (option Z) :=
  match r with Ok (m, _) => map (fun k => sf_trunc (fmul (f_of_Z 1000) (nth k (p_Ml m) fzero))) (seq 0 12) | UB _ => [] end.
Example C48_case : milli (mbe_spectralAmpEnhance zero_oracle 1 ramp (mktls 0 0 false fzero false None 0 false)) =
  [Some (-1000); Some 0; Some 435; Some 1214; Some 2230; Some 3433; Some 4798; Some 6266; Some 7311; Some 8355; Some 9000; Some 10000].
Proof. vm_compute. reflexivity. Qed.
