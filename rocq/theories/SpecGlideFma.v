(* Specification for interpolated harmonics: phase and amplitude over a frame, with real numbers. *)
From Coq Require Import ZArith Reals.
From Verif Require Import Res F32 PFloat.
Local Open Scope R_scope.

(* from the previous phase pp the frequency moves evenly from pw0 l to cw0 l, plus a constant so that the phase at n = 160 is the current one, pc, less j turns *)
Definition excess (l : Z) (j : Z) (cw0 pw0 pc pp : R) : R := pc - pp - 80 * IZR l * (pw0 + cw0) - 2 * PI * IZR j.
Definition glide_phase (l j : Z) (cw0 pw0 pc pp : R) (n : R) : R :=
  pp + (pw0 * IZR l + excess l j cw0 pw0 pc pp / 160) * n + (cw0 - pw0) * IZR l * (n * n) / 320.
Definition glide_amp (mc mp : R) (n : R) : R := mp + n / 160 * (mc - mp).
(* a pitch, a phase and an amplitude in the ranges of decoders *)
Definition range (b : R) (x : f32) : Prop := ff x /\ Rabs (R_of x) <= b.
Definition pitch_range (x : f32) : Prop := ff x /\ 0 <= R_of x <= 0.4.
