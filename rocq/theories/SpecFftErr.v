(* Specification of accuracy for the single precision transforms. *)
From Coq Require Import ZArith List Reals.
From Verif Require Import Res F32 PFloat.
Local Open Scope R_scope.

(* on angles up to 3, cos and sin (rounded to float) return finite numbers within 2^-23 of the cosine and the sine *)
Definition accurate (cosd sind : f32 -> f32) : Prop := forall x, ff x -> Rabs (R_of x) <= 3 ->
  ff (f_canon (cosd x)) /\ ff (f_canon (sind x)) /\ Rabs (R_of (f_canon (cosd x)) - cos (R_of x)) <= / 8388608 /\ Rabs (R_of (f_canon (sind x)) - sin (R_of x)) <= / 8388608.
(* x is a finite number of size at most b *)
Definition sized (b : R) (x : f32) : Prop := ff x /\ Rabs (R_of x) <= b.
