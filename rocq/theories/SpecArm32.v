(* Specification of the overlap-add on 32-bit ARM: near to the overlap-add with a division, and two ramps that it mixes. *)
From Coq Require Import ZArith Reals List.
From Verif Require Import Res F32 MParms PFloat.
Import ListNotations.

(* the two arrays hold finite floats, each within e of the other's *)
Definition arrays_within (e : R) (l r : list f32) : Prop :=
  length l = length r /\ forall i, (0 <= i < Z.of_nat (length l))%Z -> exists x y, rd l i = Ok x /\ rd r i = Ok y /\ ff x /\ ff y /\ (Rabs (R_of x - R_of y) <= e)%R.
(* the arrays agree bit for bit at the positions in P *)
Definition same_at (P : Z -> Prop) (l r : list f32) : Prop := length l = length r /\ forall i, P i -> rd l i = rd r i.
(* spectra that rise and fall, and an empty frame *)
Definition silence160 : list f32 := repeat (S754_zero false) 160.
Definition rising256 : list f32 := map (fun k => f_of_Z (Z.of_nat k * 37 - 4000)) (seq 0 256).
Definition falling256 : list f32 := map (fun k => f_of_Z (3000 - Z.of_nat k * 29)) (seq 0 256).
