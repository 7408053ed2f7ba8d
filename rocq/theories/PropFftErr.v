(* C73: the rounding errors of the single precision transforms. *)
From Coq Require Import ZArith List Bool Reals Lia Lra.
From Verif Require Import Res F32 MParms MFft SpecFft SpecTrig SpecFftErr PFloat PropFft PFftErr.
Import ListNotations.
Local Open Scope R_scope.

(* C73: for samples of size at most B every result of the forward transform is finite and within B / 256 of the bin *)
Theorem C73_forward : forall cosd sind x B out scr, accurate cosd sind -> 1e-15 <= B <= 1e18 -> Forall (sized B) x -> length x = 256%nat -> length out = 256%nat -> length scr = 256%nat ->
  exists y, fft256 (f32_arith cosd sind) x out scr = Ok y /\ Forall2 (fun v r => near v r (B / 256)) y (packed (bin_re (map R_of x)) (bin_im (map R_of x))).
Proof. exact fft_error. Qed.
Print Assumptions C73_forward.
Theorem C73_backward : forall cosd sind x B out scr, accurate cosd sind -> 1e-15 <= B <= 1e18 -> Forall (sized B) x -> length x = 256%nat -> length out = 256%nat -> length scr = 256%nat ->
  exists y, ifft256 (f32_arith cosd sind) x out scr = Ok y /\ Forall2 (fun v r => near v r (B / 128)) y (map (synthesis (map R_of x)) (seq 0 256)).
Proof. exact ifft_error. Qed.
Print Assumptions C73_backward.
(* C73: one after the other they return 256 times the samples, to 5 B *)
Theorem C73_roundtrip : forall cosd sind x B y out scr out' scr', accurate cosd sind -> 1e-15 <= B <= 1e15 -> Forall (sized B) x -> length x = 256%nat -> length out = 256%nat -> length scr = 256%nat ->
  length out' = 256%nat -> length scr' = 256%nat -> fft256 (f32_arith cosd sind) x out scr = Ok y ->
  exists z, ifft256 (f32_arith cosd sind) y out' scr' = Ok z /\ Forall2 (fun v a => near v (256 * R_of a) (5 * B)) z x.
Proof. exact roundtrip_error. Qed.
Print Assumptions C73_roundtrip.
(* there are such functions cos and sin, and the samples 3, -3, 3, -3, ... are of size at most 3 *)
Example C73_case : accurate (grid cos) (grid sin) /\ Forall (sized 3) alternating /\ length alternating = 256%nat.
Proof.
  split; [exact grid_accurate|]. split; [|reflexivity]. apply Forall_forall. intros v K. apply in_map_iff in K. destruct K as (k & <- & _).
  destruct (Nat.even k); [destruct (of_Z_R 3) as [A B]; [lia|]|destruct (of_Z_R (-3)) as [A B]; [lia|]]; (split; [exact A|]); rewrite B; apply Rabs_le; lra.
Qed.
