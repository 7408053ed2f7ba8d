(* Specifications for error-driven smoothing, independent of the model. *)
From Coq Require Import ZArith List Bool.
From Verif Require Import Res F32 MParms.
Import ListNotations.
Local Open Scope Z_scope.

(* the cells 1 .. L of a per-band array *)
Definition bands {A} (l : list A) (L : Z) : list A := firstn (Z.to_nat L) (tl l).
(* single-precision sum in band order *)
Definition float_sum (xs : list f32) : f32 := fold_left fadd xs (S754_zero false).
Definition energy_sum (xs : list f32) : f32 := fold_left (fun s x => fadd s (fmul x x)) xs (S754_zero false).

(* a binary32 datum *)
Definition binary32 (x : spec_float) : Prop := valid_binary 24 128 x = true.
Definition is_nan (x : spec_float) : Prop := x = S754_nan.
Definition finite (x : spec_float) : Prop := match x with S754_zero _ | S754_finite _ _ _ => True | _ => False end.

(* all fields but Vl, Ml, localEnergy and amplitudeThreshold *)
Definition same_outside_smoothing (m m' : parms) : Prop :=
  p_w0 m' = p_w0 m /\ p_L m' = p_L m /\ p_K m' = p_K m /\ p_log2Ml m' = p_log2Ml m /\ p_PHIl m' = p_PHIl m /\
  p_PSIl m' = p_PSIl m /\ p_gamma m' = p_gamma m /\ p_un m' = p_un m /\ p_repeat m' = p_repeat m /\
  p_swn m' = p_swn m /\ p_errorRate m' = p_errorRate m /\ p_errorCountTotal m' = p_errorCountTotal m /\
  p_errorCount4 m' = p_errorCount4 m /\ p_repeatCount m' = p_repeatCount m /\
  p_mutingThreshold m' = p_mutingThreshold m /\ p_previousUw m' = p_previousUw m /\
  p_noiseSeed m' = p_noiseSeed m /\ p_noiseOverlap m' = p_noiseOverlap m.

(* a pending pre-enhancement energy for the parameter set at address a *)
Definition pending (t : tls) (a : Z) : bool :=
  t_rm0_valid t && match t_rm0_owner t with Some b => b =? a | None => false end.
Definition clear_pending (t : tls) : tls :=
  mktls (t_rng t) (t_seed48 t) (t_seeded t) (t_rm0 t) false None (t_uv_seed t) (t_uv_override t).
(* a thread state that differs only in the handoff *)
Definition same_but_handoff (t u : tls) : Prop :=
  t_rng t = t_rng u /\ t_seed48 t = t_seed48 u /\ t_seeded t = t_seeded u /\ t_uv_seed t = t_uv_seed u /\
  t_uv_override t = t_uv_override u.
