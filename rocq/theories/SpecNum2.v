(* Specification of AMBE frames of moderate level. *)
From Coq Require Import ZArith Reals List.
From Verif Require Import Res F32 MParms SpecAmbe SpecAmp SpecAmbeMachine PFloat.
Local Open Scope R_scope.

(* log2f of the numbers of harmonics lies between 3 and 6 *)
Definition log2_three_six (o : oracle) : Prop := forall L, (9 <= L <= 56)%Z -> ff (log2f o (f_of_Z L)) /\ 3 <= R_of (log2f o (f_of_Z L)) <= 6.
(* the gain step and the spectral residual coded by the bits of a voice frame *)
Definition gain_step (r : codec) (d : list Z) : f32 := match r with R2450 => gain2450 d | R2400 => gain2400 d end.
Definition residual (o : oracle) (r : codec) (d : list Z) : Z -> f32 :=
  match r with
  | R2450 => ambe_residual o (block2450 (harmonics2450 (pitch2450 d))) (gain_vector2450 d) (higher2450 d)
  | R2400 => ambe_residual o (block2400 (harmonics2400 (pitch2400 d))) (gain_vector2400 d) (higher2400 d)
  end.
(* the gain step of a voice frame is at most g, its residual lies between lo and hi *)
Definition ambe_within (o : oracle) (r : codec) (lo hi g : R) (c : ambe_call) : Prop := is_voice r c ->
  R_of (gain_step r (ac_bits c)) <= g /\ forall l, (1 <= l <= harmonics r (ac_bits c))%Z -> lo <= R_of (residual o r (ac_bits c) l) <= hi.
(* bounds under which the log amplitudes stay below 28 *)
Definition ambe_tame (lo hi g : R) : Prop := lo <= hi /\ 0 <= g /\ 2 * g + 2.8573 * (hi - lo) <= 29.2.
