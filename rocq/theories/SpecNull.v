(* What the interface does with NULL, for C89.  A pointer is None for NULL, Some of the object otherwise. *)
From Coq Require Import ZArith List Bool.
From Verif Require Import F32 Res MParms.
From Flocq Require Import IEEE754.BinarySingleNaN.
Import ListNotations.
Local Open Scope Z_scope.

(* undefined behaviour of any kind *)
Definition undefined {A : Type} (r : res A) : Prop := exists u, r = UB u.
(* 160 zeros in the buffer if there is one *)
Definition silenced (aout : option (list f32)) : option (list f32) :=
  match aout with None => None | Some _ => Some (repeat (S754_zero false) 160) end.
(* a buffer, if given, has room for one frame *)
Definition frame_or_null {A : Type} (aout : option (list A)) : Prop := forall b, aout = Some b -> length b = 160%nat.
Definition is_null {A : Type} (p : option A) : bool := match p with None => true | Some _ => false end.
