(* C90: the overlap-add on 32-bit ARM. *)
From Coq Require Import ZArith Reals Lra Lia List Bool.
From Verif Require Import Res F32 MParms MUnvoiced MArm32 SpecWola SpecFftErr SpecArm32 PFloat PArm32.
Import ListNotations.
Local Open Scope R_scope.

(* C90: for arrays of the right lengths whose floats have size at most b, 1 <= b <= 1e30, the overlap-add of 32-bit ARM neither reads nor writes
   outside them, and each sample is a finite float within b / 200000 of the one the other builds compute *)
Theorem C90_close : forall b out prev curr, 1 <= b <= 1e30 -> length out = 160%nat -> length prev = 256%nat -> length curr = 256%nat ->
  Forall (sized b) out -> Forall (sized b) prev -> Forall (sized b) curr ->
  exists l r, mbe_wola_combine_arm32 out prev curr = Ok l /\ mbe_wola_combine_fast out prev curr = Ok r /\ length l = 160%nat /\ arrays_within (b / 200000) l r.
Proof. exact arm32_close. Qed.
Print Assumptions C90_close.
(* C90: whatever the floats, the first and the last 32 samples are those of the other builds, bit for bit *)
Theorem C90_outside : forall out prev curr, length out = 160%nat -> length prev = 256%nat -> length curr = 256%nat ->
  exists l r, mbe_wola_combine_arm32 out prev curr = Ok l /\ mbe_wola_combine_fast out prev curr = Ok r /\ length l = 160%nat /\
  same_at (fun i => 0 <= i < 32 \/ 128 <= i < 160)%Z l r.
Proof. exact arm32_outside. Qed.
Print Assumptions C90_outside.
(* C90: the refined reciprocal of each normaliser is within 2^-22 of the reciprocal *)
Theorem C90_reciprocal : forall n, (0 <= n < 160)%Z -> ff (vrecip32 (normaliser n)) /\ Rabs (R_of (vrecip32 (normaliser n)) * R_of (normaliser n) - 1) <= / 4194304.
Proof. exact recip_normaliser. Qed.
Print Assumptions C90_reciprocal.
(* C90: the estimate it starts from is within 2^-8, for every positive normal float below 2^126 *)
Theorem C90_estimate : forall m e, (8388608 <= Z.pos m < 16777216)%Z -> (-149 <= e < 103)%Z ->
  let d := S754_finite false m e in Rabs (R_of (vrecpe32 d) * R_of d - 1) <= / 256.
Proof. exact estimate_good. Qed.
Print Assumptions C90_estimate.
(* C90: the samples between are not always those of the other builds *)
Theorem C90_identical_refuted : exists out prev curr, length out = 160%nat /\ length prev = 256%nat /\ length curr = 256%nat /\
  mbe_wola_combine_arm32 out prev curr <> mbe_wola_combine_fast out prev curr.
Proof. exists silence160, rising256, falling256. repeat (split; [reflexivity|]). exact ramps_differ. Qed.
Print Assumptions C90_identical_refuted.

(* not vacuous: the ramps of C90_identical_refuted satisfy the premises of C90_close, with samples that differ by at most 0.041 *)
Example C90_case_ramps : exists l r, mbe_wola_combine_arm32 silence160 rising256 falling256 = Ok l /\ mbe_wola_combine_fast silence160 rising256 falling256 = Ok r /\ length l = 160%nat /\ arrays_within (8192 / 200000) l r.
Proof. destruct ramps_sized as (A & B & C). apply C90_close; auto; lra. Qed.
(* samples 0, 80 and 159 of the ramps; at 80 the last bit differs *)
Example C90_case_samples : match mbe_wola_combine_arm32 silence160 rising256 falling256, mbe_wola_combine_fast silence160 rising256 falling256 with
  | Ok l, Ok r => map (fun i => (nth i l fzero, nth i r fzero)) [0; 80; 159]%nat =
     [(S754_finite false 12058624 (-14), S754_finite false 12058624 (-14)); (S754_finite false 10990649 (-11), S754_finite false 10990650 (-11));
      (S754_finite true 11190272 (-14), S754_finite true 11190272 (-14))]%Z
  | _, _ => False end.
Proof. vm_compute. reflexivity. Qed.
(* the estimate of 1/3 and its refinement; a subnormal is zero to 32-bit NEON *)
Example C90_case_third : vrecpe32 (f_of_Z 3) = S754_finite false 11173888 (-25) /\ vrecip32 (f_of_Z 3) = S754_finite false 11184811 (-25) /\
  vadd32 (S754_finite false 5 (-149)) (S754_zero false) = S754_zero false.
Proof. vm_compute. repeat split. Qed.
