(* Specification for C78: an error-free AMBE 3600x2450 frame, and a C library that is accurate. *)
From Coq Require Import ZArith Reals List.
From Verif Require Import Res F32 MParms SpecAmbeMachine SpecLoud PFloat.
Import ListNotations.

(* accurate as for C74, and cosf within 2^-20 for angles up to 32, log2f within 2^-10 for the numbers of harmonics *)
Definition accurate_library2 (o : oracle) : Prop :=
  accurate_library o /\
  (forall x, ff x -> (Rabs (R_of x) <= 32)%R -> (Rabs (R_of (cosf o x) - cos (R_of x)) <= / 1048576)%R) /\
  (forall L, (9 <= L <= 56)%Z -> ff (log2f o (f_of_Z L)) /\ (Rabs (R_of (log2f o (f_of_Z L)) - ln (IZR L) / ln 2) <= / 1024)%R).
(* the 49 parameter bits of a frame of pitch code 99, 42 harmonics, all of them voiced, gain code 31 *)
Definition loud_bits2450 : list Z :=
  [1; 1; 0; 0; 0; 0; 0; 0; 1; 1; 1; 1; 1; 1; 1; 0; 0; 0; 0; 1; 1; 0; 1; 0; 0; 0; 0; 0; 1; 1; 1; 1; 1; 0; 0; 0; 1; 0; 1; 1; 0; 1; 1; 0; 1; 0; 1; 0; 1]%Z.
(* a call of a process function with those bits and no errors; the quality and the buffer are free, and whether the errors of the first code word are given *)
Definition loud_call2450 (c : ambe_call) : Prop := ac_bits c = loud_bits2450 /\ ac_errors c = 0%Z /\ ac_c0 c = 0%Z /\ length (ac_buf c) = 160%nat.
