(* Specification of sums whose products may be fused with the additions.  Independent of the model. *)
From Coq Require Import ZArith Reals.
From Verif Require Import F32 PFloat.
Local Open Scope R_scope.

(* a finite number, and no finite number is nearer to r *)
Definition nearest (x : f32) (r : R) : Prop := ff x /\ forall y, ff y -> Rabs (R_of x - r) <= Rabs (R_of y - r).
(* a number that differs from r by at most a ten thousandth of m; 1e-36 covers underflow *)
Definition sums_to (x : f32) (r m : R) : Prop := ff x /\ Rabs (R_of x - r) <= m / 10000 + 1e-36.
(* a compiler that fuses nothing, and one that fuses wherever it may *)
Definition no_fusing (site index : Z) : bool := false.
Definition all_fusing (site index : Z) : bool := true.
