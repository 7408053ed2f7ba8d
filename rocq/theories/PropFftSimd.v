(* C79, C80: the vector code of the Fourier transforms. *)
From Coq Require Import ZArith List Bool Reals Lia Lra.
From Verif Require Import Res F32 MParms MFft MFftSimd SpecFft SpecFftErr SpecFftSimd SpecTrig SpecNum PFloat PropFft PFftReal PFftErr PFftSimdReal PFftSimdErr PFftSimdNum.
Import ListNotations.
Local Open Scope R_scope.

(* C79: in exact arithmetic the forward transform on four lanes computes the 129 bins of the discrete Fourier transform,
   packed, and the backward transform the samples, whatever the work buffers contain *)
Theorem C79_forward : forall x out scr, length x = 256%nat -> length out = 64%nat -> length scr = 64%nat ->
  vfft256 exact_simd x out scr = Ok (packed (bin_re x) (bin_im x)).
Proof. exact vfft_exact. Qed.
Print Assumptions C79_forward.
Theorem C79_backward : forall y out scr, length y = 256%nat -> length out = 64%nat -> length scr = 64%nat ->
  vifft256 exact_simd y out scr = Ok (map (synthesis y) (seq 0 256)).
Proof. exact vifft_exact. Qed.
Print Assumptions C79_backward.
(* a single sample at position 64: bin 1 is -i, bin 2 is -1 *)
Example C79_case : exists y, vfft256 exact_simd (impulse_at 64) (fresh 64) (fresh 64) = Ok y /\ nth 3 y 0 = -1 /\ nth 4 y 0 = -1.
Proof.
  destruct impulse_bins as (_ & y & E & A & B). exists y. rewrite fft_exact in E by reflexivity. rewrite C79_forward by reflexivity. split; [exact E|]. split; assumption.
Qed.

(* C80: in single precision, whatever cos and sin return, the transforms on four lanes are defined for every input, do not
   depend on the old contents of the buffers, and are the transforms of the speech model with this code in place of its FFT
   parameters *)
Theorem C80_forward : forall cosd sind x, length x = 256%nat -> exists y, length y = 256%nat /\ (Forall vf x -> Forall vf y) /\
  (forall out scr, length out = 64%nat -> length scr = 64%nat -> vfft256 (f32_sarith cosd sind) x out scr = Ok y) /\
  (forall o, Forall vf x -> fft_fwd (with_pffft_simd cosd sind o) x = y).
Proof. exact vfft_defined. Qed.
Print Assumptions C80_forward.
Theorem C80_backward : forall cosd sind x, length x = 256%nat -> exists y, length y = 256%nat /\ (Forall vf x -> Forall vf y) /\
  (forall out scr, length out = 64%nat -> length scr = 64%nat -> vifft256 (f32_sarith cosd sind) x out scr = Ok y) /\
  (forall o, Forall vf x -> fft_bwd (with_pffft_simd cosd sind o) x = y).
Proof. exact vifft_defined. Qed.
Print Assumptions C80_backward.
(* C80: for samples of size at most B every result is finite and within B / 256 of the bin, B / 128 of the sample *)
Theorem C80_forward_error : forall cosd sind x B out scr, accurate cosd sind -> 1e-15 <= B <= 1e18 -> Forall (sized B) x -> length x = 256%nat -> length out = 64%nat -> length scr = 64%nat ->
  exists y, vfft256 (f32_sarith cosd sind) x out scr = Ok y /\ Forall2 (fun v r => near v r (B / 256)) y (packed (bin_re (map R_of x)) (bin_im (map R_of x))).
Proof. exact vfft_error. Qed.
Print Assumptions C80_forward_error.
Theorem C80_backward_error : forall cosd sind x B out scr, accurate cosd sind -> 1e-15 <= B <= 1e18 -> Forall (sized B) x -> length x = 256%nat -> length out = 64%nat -> length scr = 64%nat ->
  exists y, vifft256 (f32_sarith cosd sind) x out scr = Ok y /\ Forall2 (fun v r => near v r (B / 128)) y (map (synthesis (map R_of x)) (seq 0 256)).
Proof. exact vifft_error. Qed.
Print Assumptions C80_backward_error.
(* C80: so the scalar and the vector code agree up to B / 128 and B / 64 *)
Theorem C80_forward_scalar : forall cosd sind x B out scr out' scr', accurate cosd sind -> 1e-15 <= B <= 1e18 -> Forall (sized B) x -> length x = 256%nat ->
  length out = 64%nat -> length scr = 64%nat -> length out' = 256%nat -> length scr' = 256%nat ->
  exists y z, vfft256 (f32_sarith cosd sind) x out scr = Ok y /\ fft256 (f32_arith cosd sind) x out' scr' = Ok z /\ Forall2 (fun v w => near v (R_of w) (B / 128)) y z.
Proof. exact vfft_scalar. Qed.
Print Assumptions C80_forward_scalar.
Theorem C80_backward_scalar : forall cosd sind x B out scr out' scr', accurate cosd sind -> 1e-15 <= B <= 1e18 -> Forall (sized B) x -> length x = 256%nat ->
  length out = 64%nat -> length scr = 64%nat -> length out' = 256%nat -> length scr' = 256%nat ->
  exists y z, vifft256 (f32_sarith cosd sind) x out scr = Ok y /\ ifft256 (f32_arith cosd sind) x out' scr' = Ok z /\ Forall2 (fun v w => near v (R_of w) (B / 64)) y z.
Proof. exact vifft_scalar. Qed.
Print Assumptions C80_backward_scalar.
(* C80: one after the other they return 256 times the samples, to 5 B *)
Theorem C80_roundtrip : forall cosd sind x B y out scr out' scr', accurate cosd sind -> 1e-15 <= B <= 1e15 -> Forall (sized B) x -> length x = 256%nat -> length out = 64%nat -> length scr = 64%nat ->
  length out' = 64%nat -> length scr' = 64%nat -> vfft256 (f32_sarith cosd sind) x out scr = Ok y ->
  exists z, vifft256 (f32_sarith cosd sind) y out' scr' = Ok z /\ Forall2 (fun v a => near v (256 * R_of a) (5 * B)) z x.
Proof. exact vroundtrip_error. Qed.
Print Assumptions C80_roundtrip.
(* C80: the vector code meets what C75 and C77 ask of the transforms *)
Theorem C80_bounded : forall cosd sind o, accurate cosd sind -> bounded_transforms (with_pffft_simd cosd sind o).
Proof. exact vpffft_bounded. Qed.
Print Assumptions C80_bounded.
(* there are such functions cos and sin; samples 3, -3, 3, -3, ... whatever cos and sin are *)
Example C80_case : accurate (grid cos) (grid sin) /\ match vfft256 (f32_sarith rough rough) alternating (fresh 64) (fresh 64) return Prop with
  | Ok y => map sf_trunc y = Some 0%Z :: Some 768%Z :: repeat (Some 0%Z) 254 | UB _ => False end.
Proof. split; [exact grid_accurate|vm_compute; reflexivity]. Qed.
