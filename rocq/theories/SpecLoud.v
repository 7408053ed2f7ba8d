(* Specification for C74: an error-free frame, and a C library that is accurate. *)
From Coq Require Import ZArith Reals List.
From Verif Require Import Res F32 MParms SpecMachine SpecBound PFloat.
Import ListNotations.

(* cosf and exp2f are accurate: cosf in [-1, 1] and within 2^-20 for angles up to 16; exp2f exact at 0 .. 9 and within one percent up to 108 *)
Definition accurate_library (o : oracle) : Prop :=
  cosine_in_unit o /\ exact_powers o /\
  (forall x, ff x -> (Rabs (R_of x) <= 16)%R -> (Rabs (R_of (cosf o x) - cos (R_of x)) <= / 1048576)%R) /\
  (forall x, ff x -> (Rabs (R_of x) <= 108)%R -> ff (exp2f o x) /\ (Rabs (R_of (exp2f o x) - Rpower 2 (R_of x)) <= Rpower 2 (R_of x) / 100)%R).
(* the 88 parameter bits of a frame of pitch code 72, 25 harmonics, all of them voiced *)
Definition loud_bits : list Z :=
  [0; 1; 0; 0; 1; 0; 1; 1; 1; 1; 1; 1; 1; 1; 0; 0; 1; 1; 1; 1; 1; 0; 1; 0; 0; 1; 1; 0; 1; 0; 1; 1; 1; 1; 1; 0; 1; 0; 0; 1; 1; 0; 1; 1;
   0; 1; 0; 1; 1; 1; 1; 1; 1; 1; 1; 1; 1; 1; 1; 1; 1; 1; 1; 1; 1; 0; 1; 0; 0; 1; 1; 0; 1; 1; 0; 1; 1; 0; 1; 1; 0; 1; 1; 1; 1; 0; 0; 0]%Z.
(* a call of an IMBE process function with those bits and no errors; the errors of the first code word, the quality and the buffer are free *)
Definition loud_call (c : imbe_call) : Prop := ic_bits c = loud_bits /\ ic_errors c = 0%Z /\ length (ic_buf c) = 160%nat.
