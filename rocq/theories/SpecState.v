(* Specifications for the decoder state, the status string and the 16-bit entry points, independent of the model. *)
From Coq Require Import ZArith List Bool.
From Verif Require Import Res F32 MParms.
Import ListNotations.
Local Open Scope Z_scope.

(* The state every decoder starts from: one float constant per scalar field, constant arrays. *)
Definition initial_parms (w0 : f32) (L K : Z) (muting : f32) : parms := {|
  p_w0 := w0; p_L := L; p_K := K;
  p_Vl := repeat 0 57; p_Ml := repeat (flit 1 1) 57; p_log2Ml := repeat (S754_zero false) 57;
  p_PHIl := repeat (S754_zero false) 57; p_PSIl := repeat (S754_zero false) 57;
  p_gamma := S754_zero false; p_un := 0; p_repeat := 0; p_swn := 0;
  p_localEnergy := flit 75000 1; p_amplitudeThreshold := 20480; p_errorRate := S754_zero false;
  p_errorCountTotal := 0; p_errorCount4 := 0; p_repeatCount := 0; p_mutingThreshold := muting;
  p_previousUw := repeat (S754_zero false) 256; p_noiseSeed := flit (-1) 1;
  p_noiseOverlap := repeat (S754_zero false) 96 |}.

(* generic initialisation: w0 = 4 pi / 173.5 (the float 0.0724286...), 39 harmonics, 12 bands, threshold 0.0875 *)
Definition imbe_initial : parms := initial_parms (S754_finite false 9721209 (-27)) 39 12 (flit 875 10000).
(* AMBE initialisation: w0 = pi/32 * 2 pi, 15 harmonics, threshold 0.096 *)
Definition ambe_initial : parms := initial_parms (S754_finite false 10349030 (-24)) 15 0 (flit 96 1000).

(* A status string: n equal signs, a marker word from the given list, NUL. *)
Definition status_string (markers : list (list Z)) (n : Z) (s : list Z) : Prop :=
  exists m, In m markers /\ s = repeat 61 (Z.to_nat n) ++ m ++ [0].
(* R = 82 repeated frame, M = 77 muted, E = 69 erasure, T = 84 tone *)
Definition imbe_markers : list (list Z) := [[]; [82]; [77]; [82; 77]].
Definition ambe_markers : list (list Z) := [[]; [69]; [84]; [82]; [82; 77]].

(* an oracle for concrete cases: every library function returns +0 *)
Definition zero_oracle : oracle := mkoracle (fun _ => S754_zero false) (fun _ => S754_zero false) (fun _ => S754_zero false)
  (fun _ => S754_zero false) (fun _ => S754_zero false) (fun _ _ => S754_zero false) (fun _ _ => S754_zero false) true Scalar true.
(* the 2450 erasure vector of pitch code 120 *)
Definition erasure_bits : list Z := repeat 1 4 ++ repeat 0 45.
(* samples of a result *)
Definition status_of {A B C} (r : res (A * list Z * B * C)) : res (list Z) :=
  match r with Ok (_, s, _, _) => Ok s | UB w => UB w end.
