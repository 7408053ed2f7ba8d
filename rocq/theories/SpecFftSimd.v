(* Exact arithmetic for the vector code of the Fourier transforms, independent of the model's floats. *)
From Coq Require Import ZArith Reals.
From Verif Require Import MFft MFftSimd SpecFft.
Local Open Scope R_scope.

Definition exact_simd : sarith R := mksarith R exact Ropp (/ sqrt 2) (sqrt 2) (fun j k n => - 2 * PI * IZR j * IZR k / IZR n).
