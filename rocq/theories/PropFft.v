(* C71, C72: the Fourier transforms of the unvoiced synthesis. *)
From Coq Require Import ZArith List Bool Reals Lia Lra.
From Verif Require Import Res F32 MParms MFft SpecFft PFloat PFftReal PFftF32.
Import ListNotations.
Local Open Scope R_scope.

(* C71: in exact arithmetic the forward transform computes the 129 bins of the discrete Fourier transform, packed,
   whatever its two work buffers contain *)
Theorem C71_forward : forall x out scr, length x = 256%nat -> length out = 256%nat -> length scr = 256%nat ->
  fft256 exact x out scr = Ok (packed (bin_re x) (bin_im x)).
Proof. exact fft_exact. Qed.
Print Assumptions C71_forward.
(* C71: the backward transform computes the samples that belong to packed bins *)
Theorem C71_backward : forall y out scr, length y = 256%nat -> length out = 256%nat -> length scr = 256%nat ->
  ifft256 exact y out scr = Ok (map (synthesis y) (seq 0 256)).
Proof. exact ifft_exact. Qed.
Print Assumptions C71_backward.
(* C71: one after the other they multiply every sample by 256 *)
Theorem C71_roundtrip : forall x y out scr out' scr', length x = 256%nat -> length out = 256%nat -> length scr = 256%nat -> length out' = 256%nat -> length scr' = 256%nat ->
  fft256 exact x out scr = Ok y -> ifft256 exact y out' scr' = Ok (map (Rmult 256) x).
Proof. exact roundtrip_exact. Qed.
Print Assumptions C71_roundtrip.
(* an impulse at sample 64: bin 1 is - i, bin 2 is - 1 *)

Example C71_case : bin_re (impulse_at 64) 1 = 0 /\ bin_im (impulse_at 64) 1 = -1 /\ bin_re (impulse_at 64) 2 = -1 /\ bin_im (impulse_at 64) 2 = 0 /\
  exists y, fft256 exact (impulse_at 64) (fresh 256) (fresh 256) = Ok y /\ nth 3 y 0 = -1 /\ nth 4 y 0 = -1.
Proof. destruct impulse_bins as ((A & B & C & D) & E). exact (conj A (conj B (conj C (conj D E)))). Qed.

(* C72: in single precision, whatever cos and sin return, the transforms are defined for every input, their results do
   not depend on the old contents of the buffers, and they are the transforms of the speech model with the code in place
   of its FFT parameters *)
Theorem C72_forward : forall cosd sind x, length x = 256%nat -> exists y, length y = 256%nat /\ (Forall vf x -> Forall vf y) /\
  (forall out scr, length out = 256%nat -> length scr = 256%nat -> fft256 (f32_arith cosd sind) x out scr = Ok y) /\
  (forall o, Forall vf x -> fft_fwd (with_pffft cosd sind o) x = y).
Proof. exact fft_defined. Qed.
Print Assumptions C72_forward.
Theorem C72_backward : forall cosd sind x, length x = 256%nat -> exists y, length y = 256%nat /\ (Forall vf x -> Forall vf y) /\
  (forall out scr, length out = 256%nat -> length scr = 256%nat -> ifft256 (f32_arith cosd sind) x out scr = Ok y) /\
  (forall o, Forall vf x -> fft_bwd (with_pffft cosd sind o) x = y).
Proof. exact ifft_defined. Qed.
Print Assumptions C72_backward.
(* samples 3, -3, 3, -3, ...: everything is in bin 128 *)
Definition alternating : list f32 := map (fun m => f_of_Z (if Nat.even m then 3 else -3)) (seq 0 256).
Definition rough (x : f32) : f32 := flit 3 4.
Example C72_case : Forall vf alternating /\ match fft256 (f32_arith rough rough) alternating (fresh 256) (fresh 256) return Prop with
  | Ok y => map sf_trunc y = Some 0%Z :: Some 768%Z :: repeat (Some 0%Z) 254 | UB _ => False end.
Proof. split; [apply Forall_forall; intros v K; apply in_map_iff in K; destruct K as (k & <- & _); apply vf_of_Z|vm_compute; reflexivity]. Qed.
