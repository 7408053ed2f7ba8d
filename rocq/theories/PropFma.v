(* C91: fusing products with additions, as compilers may, changes the sums of squares by rounding only. *)
From Coq Require Import ZArith Reals Lra Lia List Bool.
From Verif Require Import Res F32 MParms MSse MUnvoiced MSynth MFma SpecOut SpecState SpecAmp SpecSynth SpecFftErr SpecNum SpecBuild SpecFma PFloat PBase PBuild PFma.
Import ListNotations.
Local Open Scope R_scope.

(* C91: the fused operation rounds a b + c once, to a nearest number *)
Theorem C91_fma : forall a b c, ff a -> ff b -> ff c -> Rabs (R_of c + R_of a * R_of b) <= 1e38 -> nearest (ffma a b c) (R_of a * R_of b + R_of c).
Proof. exact ffma_nearest. Qed.
Print Assumptions C91_fma.
(* C91: wherever products are fused, and with or without NEON, the sums of enhancement are the exact energies to a ten thousandth *)
Theorem C91_energy : forall k vec L Ml, (0 <= L <= 56)%Z -> length Ml = 57%nat -> amplitudes_under 1e16 L Ml ->
  exists e, enh_sum_c k vec L Ml = Ok e /\ sums_to e (exact_energy L Ml) (exact_energy L Ml).
Proof. exact energy_fused. Qed.
Print Assumptions C91_energy.
Theorem C91_moments : forall k vec L Ml tab (c : Z -> f32), (0 <= L <= 56)%Z -> length Ml = 57%nat -> amplitudes_under 1e16 L Ml ->
  (forall l, (1 <= l <= L)%Z -> rdi tab l = Ok (c l) /\ ff (c l) /\ Rabs (R_of (c l)) <= 1.2) ->
  exists r0 r1, enh_energies_c k vec L Ml tab = Ok (r0, r1) /\ sums_to r0 (exact_energy L Ml) (exact_energy L Ml) /\
    sums_to r1 (exact_weighted L Ml (fun l => R_of (c l))) (1.2 * exact_energy L Ml).
Proof. exact moments_fused. Qed.
Print Assumptions C91_moments.
(* C91: so is the power of a band of the noise *)
Theorem C91_power : forall k vec x a b, length x = 256%nat -> Forall (sized 1e15) x -> (0 <= a)%Z -> (b <= 128)%Z ->
  exists p, mbe_magnitude_squared_sum_c k vec x a b = Ok p /\ sums_to p (exact_band x a b) (exact_band x a b).
Proof. exact power_fused. Qed.
Print Assumptions C91_power.
(* C91: where nothing is fused these are the sums of the scalar and NEON builds *)
Theorem C91_unfused : forall L Ml tab x a b,
  enh_sum_c no_fusing false L Ml = enh_sum Scalar L Ml /\ enh_sum_c no_fusing true L Ml = enh_sum Neon L Ml /\
  enh_energies_c no_fusing false L Ml tab = enh_energies Scalar L Ml tab /\ enh_energies_c no_fusing true L Ml tab = enh_energies Neon L Ml tab /\
  mbe_magnitude_squared_sum_c no_fusing false x a b = mbe_magnitude_squared_sum Scalar x a b /\ mbe_magnitude_squared_sum_c no_fusing true x a b = mbe_magnitude_squared_sum Neon x a b.
Proof. exact not_fused. Qed.
Print Assumptions C91_unfused.
(* C91: the sums are not the same bit for bit *)
Theorem C91_identical_refuted : exists L Ml x a b, (0 <= L <= 56)%Z /\ length Ml = 57%nat /\ length x = 256%nat /\ (0 <= a < b)%Z /\ (b <= 128)%Z /\
  enh_sum_c all_fusing false L Ml <> enh_sum Scalar L Ml /\ mbe_magnitude_squared_sum_c all_fusing true x a b <> mbe_magnitude_squared_sum Neon x a b.
Proof. exact fused_differ. Qed.
Print Assumptions C91_identical_refuted.

(* 4097 * 4097 - 16785408 is 1; rounding the product first loses it *)
Example C91_case_fma : ffma (f_of_Z 4097) (f_of_Z 4097) (f_of_Z (-16785408)) = f_of_Z 1 /\ fadd (f_of_Z (-16785408)) (fmul (f_of_Z 4097) (f_of_Z 4097)) = fzero.
Proof. vm_compute. split; reflexivity. Qed.
(* nine thirds squared are one *)
Example C91_case_energy : forall k vec, exists e, enh_sum_c k vec 9 (repeat (fdiv (f_of_Z 1) (f_of_Z 3)) 57) = Ok e /\ Rabs (R_of e - 1) <= 1 / 5000.
Proof.
  intros k vec. replace (fdiv (f_of_Z 1) (f_of_Z 3)) with (SpecFloat.S754_finite false 11184811 (-25)) by reflexivity. set (t := SpecFloat.S754_finite false 11184811 (-25)).
  assert (T : R_of t = 11184811 / 33554432) by (unfold t; rewrite R_fin; cbn; lra).
  assert (K : forall l, (1 <= l <= 9)%Z -> cell zero (repeat t 57) l = t). { intros l Hl. unfold cell. apply (repeat_spec 57). apply nth_In. rewrite repeat_length. lia. }
  destruct (C91_energy k vec 9 (repeat t 57)) as (e & E & _ & D); [lia|reflexivity| |].
  - intros l Hl. rewrite K by lia. split; [split; reflexivity|]. rewrite T, Rabs_pos_eq by lra. lra.
  - exists e. split; [exact E|]. assert (X : exact_energy 9 (repeat t 57) = 9 * (11184811 / 33554432 * (11184811 / 33554432))).
    { unfold exact_energy. change (upto 9) with [1; 2; 3; 4; 5; 6; 7; 8; 9]%Z. unfold rsum. cbn [fold_right]. rewrite !K by lia. rewrite T. lra. }
    rewrite X in D. revert D. unfold Rabs. destruct (Rcase_abs _), (Rcase_abs _); lra.
Qed.
