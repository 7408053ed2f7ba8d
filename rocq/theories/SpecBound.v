(* Specification of the range of log amplitudes over a stream. *)
From Coq Require Import ZArith Reals List.
From Verif Require Import Res F32 MParms SpecAmbeMachine PFloat.
Local Open Scope R_scope.

(* cosf stays in [-1, 1]; exp2f is exact at the integers 0 .. 9 *)
Definition cosine_in_unit (o : oracle) : Prop := forall x, ff x -> ff (cosf o x) /\ Rabs (R_of (cosf o x)) <= 1.
Definition exact_powers (o : oracle) : Prop := forall k, (0 <= k <= 9)%Z -> exp2f o (f_of_Z k) = f_of_Z (2 ^ k).
(* every log amplitude of the set is a finite number of size at most b *)
Definition logs_within (b : R) (m : parms) : Prop := forall l, (0 <= l <= 56)%Z -> exists x, rd (p_log2Ml m) l = Ok x /\ ff x /\ Rabs (R_of x) <= b.
(* log2f of the numbers of harmonics is at most 6 *)
Definition log2_in_six (o : oracle) : Prop := forall L, (9 <= L <= 56)%Z -> ff (log2f o (f_of_Z L)) /\ Rabs (R_of (log2f o (f_of_Z L))) <= 6.
(* the sizes of the log amplitudes and of the gain of an AMBE decoder *)
Definition log_size (r : codec) : R := match r with R2450 => 81 | R2400 => 90 end.
Definition gain_range (r : codec) : R := match r with R2450 => 14 | R2400 => 11 end.
Definition gain_within (b : R) (m : parms) : Prop := ff (p_gamma m) /\ Rabs (R_of (p_gamma m)) <= b.
