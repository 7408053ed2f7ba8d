(* Specification of how close the oscillators of voiced synthesis stay to the cosine. *)
From Coq Require Import ZArith Reals List.
From Verif Require Import Res F32 MParms SpecSynth PFloat.
Local Open Scope R_scope.

(* cosf and sinf return finite numbers within 2^-23 of the cosine and the sine *)
Definition trig_close (o : oracle) (x : f32) : Prop :=
  ff (cosf o x) /\ ff (sinf o x) /\ Rabs (R_of (cosf o x) - cos (R_of x)) <= / 8388608 /\ Rabs (R_of (sinf o x) - sin (R_of x)) <= / 8388608.
(* x is a finite number within e of the real r *)
Definition near (x : f32) (r e : R) : Prop := ff x /\ Rabs (R_of x - r) <= e.
