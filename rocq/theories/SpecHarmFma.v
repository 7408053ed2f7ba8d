(* Specification for voiced synthesis with real numbers: the sum of the harmonics. *)
From Coq Require Import ZArith Reals List Bool.
From Verif Require Import Res F32 MParms SpecState SpecAmp SpecSynth SpecGlideFma PFloat.
Local Open Scope R_scope.

(* what harmonic l adds to sample n: a glide of j turns when the pitch is steady and both frames are voiced, and otherwise
   the previous harmonic, from its phase on, fading out, and the current one, towards its phase, fading in *)
Definition real_harmonic (j : Z) (cur prev : parms) (l n : Z) : R :=
  let vc := (cell 0 (p_Vl cur) l =? 1)%Z in
  let vp := (cell 0 (p_Vl prev) l =? 1)%Z in
  let pc := R_of (cell zero (p_PHIl cur) l) in
  let pp := R_of (cell zero (p_PHIl prev) l) in
  let mc := R_of (cell zero (p_Ml cur) l) in
  let mp := R_of (cell zero (p_Ml prev) l) in
  let cw0 := R_of (p_w0 cur) in
  let pw0 := R_of (p_w0 prev) in
  if (l <? 8)%Z && vc && vp && steady (p_w0 cur) (p_w0 prev) then 2 * glide_amp mc mp (IZR n) * cos (glide_phase l j cw0 pw0 pc pp (IZR n))
  else (if vp then 2 * R_of (fade (n + 160)) * mp * cos (pp + IZR n * (pw0 * IZR l)) else 0) +
       (if vc then 2 * R_of (fade n) * mc * cos (pc + (IZR n - 160) * (cw0 * IZR l)) else 0).
Fixpoint real_voiced (j : Z -> Z) (cur prev : parms) (m : nat) (n : Z) : R :=
  match m with O => 0 | S m => real_voiced j cur prev m n + real_harmonic (j (Z.of_nat (S m))) cur prev (Z.of_nat (S m)) n end.
(* pitch, phases and amplitudes in the ranges of decoders *)
Definition voiced_ranges (M : R) (p : parms) : Prop := wf_parms p /\ pitch_range (p_w0 p) /\ Forall (range 16) (p_PHIl p) /\ Forall (range M) (p_Ml p).
