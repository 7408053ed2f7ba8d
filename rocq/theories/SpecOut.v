(* Specifications for the output stage: 16-bit conversion, clipping, tone level. *)
From Coq Require Import ZArith List Bool.
From Verif Require Import Res F32 MParms MAdaptive.
Import ListNotations.
Local Open Scope Z_scope.

Definition saturate (z : Z) : Z := Z.max (-31128) (Z.min 31128 z).
(* the 16-bit sample for the float x: 7x (single precision), toward zero, saturated at +-31128 *)
Definition short_spec (x : f32) : Z :=
  match fmul (f_of_Z 7) x with
  | S754_infinity s => if s then -31128 else 31128
  | y => match sf_trunc y with Some z => saturate z | None => 0 end
  end.
(* 32767 * 0.95 / 7 in single precision: 4446.95 *)
Definition sample_limit : f32 := fdiv (fmul (f_of_Z 32767) (flit 95 100)) (f_of_Z 7).
Definition bounded_sample (x : f32) : Prop := x = S754_nan \/ fle (fabs x) sample_limit = true.

(* the assumption on the sine function: its results are at most 1 in magnitude, or NaN *)
Definition sine_bounded (o : oracle) : Prop := forall x, sinf o x = S754_nan \/ fle (fabs (sinf o x)) (f_of_Z 1) = true.

(* the three conversions of a buffer of 160 numbers *)
Definition converters : list (list f32 -> list Z -> res (list Z)) := [mbe_floattoshort_scalar; mbe_floattoshort_vec short_of_sample_sse2; mbe_floattoshort_vec short_of_sample_neon].
Definition numbers (fb : list f32) : Prop := length fb = 160%nat /\ Forall (fun x => SpecFloat.valid_binary 24 128 x = true /\ x <> S754_nan) fb.
