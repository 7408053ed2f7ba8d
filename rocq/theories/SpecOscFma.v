(* Specification for fused oscillators: a sample to which a windowed cosine is added. *)
From Coq Require Import ZArith Reals List.
From Verif Require Import Res F32 PFloat.
Local Open Scope R_scope.

(* y is x + 2 w amp cos (angle) up to a ten millionth of x and 0.00026 of the amplitude; 1e-36 covers underflow *)
Definition adds_cosine (x y : f32) (w amp angle : R) : Prop :=
  ff y /\ Rabs (R_of y - (R_of x + 2 * w * amp * cos angle)) <= Rabs (R_of x) * 1e-7 + Rabs amp * 2.6e-4 + 1e-36.
