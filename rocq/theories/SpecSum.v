(* Specification of the orders in which the code adds: one after the other, and in four lanes.  Independent of the model. *)
From Coq Require Import ZArith List Bool.
From Verif Require Import Res F32 Build.
Import ListNotations.

(* terms 1, 5, 9, ... are added to a, terms 2, 6, 10, ... to b and so on; then the four lanes are joined (a + b and c + d are added,
   or a + c and b + d), and the terms that do not fill four lanes come last *)
Definition lane_join (simd : build) (a b c d : f32) : f32 :=
  match simd with Neon => fadd (fadd a c) (fadd b d) | _ => fadd (fadd a b) (fadd c d) end.
Fixpoint lane_sum (simd : build) (a b c d : f32) (xs : list f32) : f32 :=
  match xs with
  | x1 :: x2 :: x3 :: x4 :: rest => lane_sum simd (fadd a x1) (fadd b x2) (fadd c x3) (fadd d x4) rest
  | _ => fold_left fadd xs (lane_join simd a b c d)
  end.
Definition add_all (simd : build) (xs : list f32) : f32 :=
  let z := S754_zero false in if lanes4 simd then lane_sum simd z z z z xs else fold_left fadd xs z.
(* the sum of the squares *)
Definition energy_total (simd : build) (xs : list f32) : f32 := add_all simd (map (fun x => fmul x x) xs).
