(* Specification of the Fourier transforms of 256 real samples, independent of the model. *)
From Coq Require Import ZArith List Bool Reals.
From Verif Require Import Res F32 MFft.
Import ListNotations.
Local Open Scope R_scope.

(* exact arithmetic *)
Definition exact : arith R :=
  mkarith R Rplus Rminus Rmult IZR 2 (- / sqrt 2) (- sqrt 2) (fun n => 2 * PI / IZR n) cos sin.

(* f 0 + f 1 + ... + f (n - 1) *)
Fixpoint total (n : nat) (f : nat -> R) : R := match n with O => 0 | S n => total n f + f n end.
Definition sample (x : list R) (m : nat) : R := nth m x 0.
Definition turn (k m : nat) : R := 2 * PI * (INR k * INR m) / 256.
(* real and imaginary part of bin k: sum of x m exp (- 2 pi i k m / 256) *)
Definition bin_re (x : list R) (k : nat) : R := total 256 (fun m => sample x m * cos (turn k m)).
Definition bin_im (x : list R) (k : nat) : R := - total 256 (fun m => sample x m * sin (turn k m)).
(* the order of the 256 results: bins 0 and 128, which are real, then real and imaginary parts of the bins 1..127 *)
Definition packed (re im : nat -> R) : list R :=
  re 0%nat :: re 128%nat :: flat_map (fun k => [re k; im k]) (seq 1 127).
(* the samples that belong to packed bins, not normalised: bins k and 256 - k are conjugates *)
Definition synthesis (y : list R) (m : nat) : R :=
  sample y 0 + sample y 1 * cos (turn 128 m) +
  2 * total 127 (fun k => sample y (2 * S k) * cos (turn (S k) m) - sample y (2 * S k + 1) * sin (turn (S k) m)).
