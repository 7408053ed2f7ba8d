(* Specification for fused tones: how far two sample streams are apart. *)
From Coq Require Import ZArith Reals List.
From Verif Require Import Res F32 MParms PFloat.
Local Open Scope R_scope.

(* sample by sample, finite and at most e apart *)
Definition apart_by (e : R) (a b : list f32) : Prop := Forall2 (fun x y => ff x /\ ff y /\ Rabs (R_of x - R_of y) <= e) a b.
(* sinf returns tiny arguments unchanged, as every correctly rounded sine does *)
Definition tiny_sines (o : oracle) : Prop := forall x, ff x -> Rabs (R_of x) <= 1e-8 -> sinf o x = x.
