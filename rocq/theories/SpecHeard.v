(* Specification of what reception depends on, independent of the model: the part of a decoder's state that decides how
   later frames are decoded and reported, apart from the part that only shapes the sound. *)
From Coq Require Import ZArith List Bool.
From Verif Require Import Res F32 MParms MImbe SpecMachine SpecAmbeMachine.
Import ListNotations.
Local Open Scope Z_scope.

(* the same cosf, exp2f and log2f; sinf, expf, the transforms, the plan and the build (scalar, SSE2 or NEON, with or without tones) may differ *)
Definition decode_alike (o o' : oracle) : Prop := o_cosf o = o_cosf o' /\ o_exp2f o = o_exp2f o' /\ o_log2f o = o_log2f o'.
(* pitch, bands, gain, prediction history and counters; not amplitudes, voicing, phases, energies, noise, tone phases *)
Definition heard (m m' : parms) : Prop :=
  p_w0 m = p_w0 m' /\ p_L m = p_L m' /\ p_K m = p_K m' /\ p_log2Ml m = p_log2Ml m' /\ p_gamma m = p_gamma m' /\
  p_repeat m = p_repeat m' /\ p_repeatCount m = p_repeatCount m' /\ p_errorRate m = p_errorRate m' /\ p_errorCountTotal m = p_errorCountTotal m' /\
  p_errorCount4 m = p_errorCount4 m' /\ p_mutingThreshold m = p_mutingThreshold m'.
(* and the same voicing and amplitudes of all harmonics *)
Definition same_speech (m m' : parms) : Prop := heard m m' /\ 1 <= p_L m <= 56 /\
  forall l, 1 <= l <= p_L m -> rd (p_Vl m) l = rd (p_Vl m') l /\ rd (p_Ml m) l = rd (p_Ml m') l.
(* the current sets have heard the same; the sets of the frame before hold the same speech; the third set does not matter *)
Definition same_history (st st' : dstate) : Prop := heard (cur_of st) (cur_of st') /\ same_speech (prev_of st) (prev_of st').
(* the same frame; the unvoiced quality and the old contents of the output buffer may differ *)
Definition same_call (c c' : imbe_call) : Prop := ic_bits c = ic_bits c' /\ ic_errors c = ic_errors c' /\ ic_c0 c = ic_c0 c' /\ ic_c0_known c = ic_c0_known c'.
Definition same_frame (c c' : ambe_call) : Prop := ac_bits c = ac_bits c' /\ ac_errors c = ac_errors c' /\ ac_c0 c = ac_c0 c' /\ ac_known c = ac_known c'.
