(* Specification: repeated draws of the comfort-noise generator. *)
From Coq Require Import ZArith.
From Verif Require Import Res F32 MParms MAdaptive.
Definition draws (n : nat) (t : tls) : tls := Nat.iter n (fun t => fst (mbe_java_random_next_bits 24 t)) t.
