(* C95: the oscillators of voiced synthesis in a build that fuses products and additions. *)
From Coq Require Import ZArith Reals Lra List Bool.
From Verif Require Import Res F32 Build MParms MUnvoiced MSynth MFma MOscFma SpecAmp SpecSynth SpecTrig SpecOscFma PFloat PSynth2 POscFma.
Import ListNotations.
Local Open Scope R_scope.

(* C95: whatever is fused, and with any accurate cosine and sine, an oscillator adds to every sample the cosine of its phase, times the window and twice the amplitude *)
Theorem C95_oscillator : forall k simd o start step amp aout off, length aout = 160%nat -> off = 0%Z \/ off = 160%Z -> trig_close o start -> trig_close o step ->
  ff amp -> Rabs (R_of amp) <= 1e30 -> Forall (fun x => ff x /\ Rabs (R_of x) <= 1e30) aout ->
  exists r, add_oscillator_c k simd aout off amp (cosf o start) (sinf o start) (sinf o step) (cosf o step) = Ok r /\ length r = 160%nat /\
  forall n x, (0 <= n < 160)%Z -> rd aout n = Ok x -> exists y, rd r n = Ok y /\ adds_cosine x y (R_of (fade (n + off))) (R_of amp) (R_of start + IZR n * R_of step).
Proof. exact oscillator_c_adds. Qed.
Print Assumptions C95_oscillator.
(* C95: so two builds, fused in different ways and vectorised or not, agree up to a five millionth of the sample and 0.00052 of the amplitude *)
Theorem C95_close : forall k k' simd simd' o start step amp aout off, length aout = 160%nat -> off = 0%Z \/ off = 160%Z -> trig_close o start -> trig_close o step ->
  ff amp -> Rabs (R_of amp) <= 1e30 -> Forall (fun x => ff x /\ Rabs (R_of x) <= 1e30) aout ->
  exists r r', add_oscillator_c k simd aout off amp (cosf o start) (sinf o start) (sinf o step) (cosf o step) = Ok r /\
    add_oscillator_c k' simd' aout off amp (cosf o start) (sinf o start) (sinf o step) (cosf o step) = Ok r' /\
  forall n x, (0 <= n < 160)%Z -> rd aout n = Ok x -> exists y y', rd r n = Ok y /\ rd r' n = Ok y' /\ ff y /\ ff y' /\
    Rabs (R_of y - R_of y') <= Rabs (R_of x) * 2e-7 + Rabs (R_of amp) * 5.2e-4 + 2e-36.
Proof. exact oscillator_c_close. Qed.
Print Assumptions C95_close.
(* C95: when nothing is fused it is the oscillator of C67, for all inputs *)
Theorem C95_unfused : forall simd aout off amp c s sd cd, length aout = 160%nat -> off = 0%Z \/ off = 160%Z ->
  add_oscillator_c (fun _ _ => false) simd aout off amp c s sd cd = add_oscillator simd aout off amp c s sd cd.
Proof. exact add_oscillator_unfused. Qed.
Print Assumptions C95_unfused.
(* C95: the samples are not identical in general *)
Theorem C95_identical_refuted : exists k start step amp aout, length aout = 160%nat /\ trig_close simple_oracle start /\ trig_close simple_oracle step /\
  ff amp /\ Rabs (R_of amp) <= 1e30 /\ Forall (fun x => ff x /\ Rabs (R_of x) <= 1e30) aout /\
  forall simd, add_oscillator_c k simd aout 160 amp (cosf simple_oracle start) (sinf simple_oracle start) (sinf simple_oracle step) (cosf simple_oracle step) <>
    add_oscillator simd aout 160 amp (cosf simple_oracle start) (sinf simple_oracle start) (sinf simple_oracle step) (cosf simple_oracle step).
Proof. exact osc_identical_refuted. Qed.
Print Assumptions C95_identical_refuted.
(* an oscillator of amplitude 5 and step 2^-12 fades out over samples of -10, everything fused: sample 40 is 10 cos (40 / 4096) - 10 = -0.00047..., sample 60 is 9 cos (60 / 4096) - 10 = -1.0009..., and sample 4 is not what it is without fusing *)
Example C95_case :
  match add_oscillator_c (fun _ _ => true) Scalar (repeat (f_of_Z (-10)) 160) 160 (f_of_Z 5) (cosf simple_oracle zero) (sinf simple_oracle zero) (sinf simple_oracle small_step) (cosf simple_oracle small_step) with
  | Ok r => map (fun k => sf_trunc (fmul (f_of_Z 100000) (nth k r zero))) [4; 40; 60; 159]%nat | UB _ => [] end = [Some 0; Some (-46); Some (-100094); Some (-1000000)]%Z.
Proof. vm_compute. reflexivity. Qed.
