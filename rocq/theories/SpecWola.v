(* Specifications for the overlap-add window, the overlap-add and the noise bands, independent of the model. *)
From Coq Require Import ZArith List Bool.
From Verif Require Import Res F32 MParms SpecAdaptive.
Import ListNotations.
Local Open Scope Z_scope.

(* the window that is stored, in millionths: ramps of slope 0.02, the plateau -55..54, 0.3 twice (at 89 and 90) *)
Definition window_micro (n : Z) : Z :=
  if n <? -105 then 0
  else if n <? -55 then 20000 * (n + 105)
  else if n <=? 54 then 1000000
  else if n <=? 89 then 1000000 - 20000 * (n - 54)
  else if n <=? 105 then 20000 * (105 - n)
  else 0.
Definition window (n : Z) : f32 := flit (window_micro n) 1000000.

(* weighted overlap-add of two 256-sample spectra, centred at sample 128, 160 samples apart *)
Definition sample_at (u : list f32) (i : Z) : f32 :=
  if (0 <=? i) && (i <? 256) then nth (Z.to_nat i) u (S754_zero false) else S754_zero false.
Definition normaliser (n : Z) : f32 := fadd (fmul (window n) (window n)) (fmul (window (n - 160)) (window (n - 160))).
Definition overlap_term (prev curr : list f32) (n : Z) : f32 :=
  fdiv (fadd (fmul (window n) (sample_at prev (n + 128))) (fmul (window (n - 160)) (sample_at curr (n - 32)))) (normaliser n).
Definition overlap_add (out prev curr : list f32) : list f32 :=
  map (fun n => fadd (nth n out (S754_zero false)) (overlap_term prev curr (Z.of_nat n))) (seq 0 160).

(* the ceiling of a float as an integer *)
Definition ceil_Z (x : f32) : Z :=
  match x with
  | S754_finite s m e =>
      let z := if s then Z.neg m else Z.pos m in
      if 0 <=? e then z * 2 ^ e else - ((- z) / 2 ^ (- e))
  | _ => 0
  end.
(* the upper edge of band l, as a bin of the 256-point transform: ceil ((l + 1/2) * (256 / 2 pi) * w0), in single precision *)
Definition bins_per_radian : f32 := fdiv (f_of_Z 256) (fmul (f_of_Z 2) (d2f M_PI)).
Definition band_edge (w0 : f32) (l : Z) : Z := ceil_Z (fmul (fadd (f_of_Z l) (flit 1 2)) (fmul bins_per_radian w0)).
(* band l occupies the bins from lo to hi - 1 *)
Definition in_band (lo hi : list (option Z)) (l bin : Z) : Prop :=
  exists a b, nth_error lo (Z.to_nat l) = Some (Some a) /\ nth_error hi (Z.to_nat l) = Some (Some b) /\ a <= bin < b.

(* pi * 2 as a float: 6.2831855 *)
Definition two_pi : f32 := fmul (f_of_Z 2) (d2f M_PI).
Definition wrapped (x : f32) : Prop := finite x /\ fle (S754_zero false) x = true /\ fle x two_pi = true.
(* a state whose speech is replaced by comfort noise: fourth repeat, or error rate above a threshold other than 0.096 *)
Definition muted (m : parms) : bool :=
  (4 <=? p_repeatCount m) ||
  (fgt (fabs (fsub (p_mutingThreshold m) (flit 96 1000))) (flit 1 1000000) && fgt (p_errorRate m) (p_mutingThreshold m)).
(* the phase of harmonic l one frame (160 samples) later, for pitches pw0 and cw0 *)
Definition advance (cw0 pw0 : f32) (l : Z) (x : f32) : f32 := fadd x (fmul (fadd pw0 cw0) (fdiv (f_of_Z (l * 160)) (f_of_Z 2))).
(* a pitch between 0 and 1000 radians per sample *)
Definition pitch_in_range (w0 : f32) : Prop := binary32 w0 /\ finite w0 /\ fle (S754_zero false) w0 = true /\ fle w0 (f_of_Z 1000) = true.
