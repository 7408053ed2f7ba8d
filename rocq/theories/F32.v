(* IEEE binary32 / binary64 arithmetic on the standard library's spec_float, round to nearest even.
   Nothing here models code of /repo; these are the C float primitives the model files use. *)
From Coq Require Import ZArith List Bool.
From Coq Require Export Floats.SpecFloat.
From Verif Require Import Res.
Import ListNotations.
Local Open Scope Z_scope.

Notation f32 := spec_float (only parsing).
Notation f64 := spec_float (only parsing).

Definition fadd : f32 -> f32 -> f32 := SFadd 24 128.
Definition fsub : f32 -> f32 -> f32 := SFsub 24 128.
Definition fmul : f32 -> f32 -> f32 := SFmul 24 128.
Definition fdiv : f32 -> f32 -> f32 := SFdiv 24 128.
Definition fsqrt : f32 -> f32 := SFsqrt 24 128.
Definition fopp : f32 -> f32 := SFopp.
Definition fabs : f32 -> f32 := SFabs.
Definition flt : f32 -> f32 -> bool := SFltb.
Definition fle : f32 -> f32 -> bool := SFleb.
Definition fgt (a b : f32) : bool := SFltb b a.
Definition fge (a b : f32) : bool := SFleb b a.

Definition dadd : f64 -> f64 -> f64 := SFadd 53 1024.
Definition dsub : f64 -> f64 -> f64 := SFsub 53 1024.
Definition dmul : f64 -> f64 -> f64 := SFmul 53 1024.
Definition ddiv : f64 -> f64 -> f64 := SFdiv 53 1024.

(* conversions between the two formats and from integers *)
Definition f2d (x : f32) : f64 :=
  match x with S754_finite s m e => binary_round 53 1024 s m e | _ => x end.
Definition d2f (x : f64) : f32 :=
  match x with S754_finite s m e => binary_round 24 128 s m e | _ => x end.
Definition f_of_Z (z : Z) : f32 := binary_normalize 24 128 z 0 false.
Definition d_of_Z (z : Z) : f64 := binary_normalize 53 1024 z 0 false.

(* a result handed over by a library function, brought to canonical form (the identity on every
   binary32 datum); makes oracle results binary32 data by construction *)
Definition f_canon (x : f32) : f32 :=
  match x with S754_finite s m e => binary_round 24 128 s m e | _ => x end.

(* decimal literals n/d: correctly rounded because n and d are exact in the format *)
Definition flit (n d : Z) : f32 := fdiv (f_of_Z n) (f_of_Z d).
Definition dlit (n d : Z) : f64 := ddiv (d_of_Z n) (d_of_Z d).

(* an unsuffixed literal of z/10^6 stored into a float; the same with suffix f *)
Definition micro_d (z : Z) : f32 := d2f (dlit z 1000000).
Definition micro_f (z : Z) : f32 := flit z 1000000.

Definition fzero : f32 := S754_zero false.
Definition fone : f32 := f_of_Z 1.
Definition fhalf : f32 := flit 1 2.

(* M_PI = 3.14159265358979323846 as a double: 0x400921FB54442D18 *)
Definition M_PI : f64 := S754_finite false 7074237752028440 (-51).
(* FLT_MAX *)
Definition FLT_MAX : f32 := S754_finite false 16777215 104.

(* truncation toward zero; None for infinities and NaN *)
Definition sf_trunc (x : spec_float) : option Z :=
  match x with
  | S754_zero _ => Some 0
  | S754_finite s m e =>
      let a := if 0 <=? e then Z.pos m * 2 ^ e else Z.pos m / 2 ^ (- e) in
      Some (if s then - a else a)
  | _ => None
  end.

(* (int)x *)
Definition sf_to_int (x : spec_float) : res Z :=
  match sf_trunc x with
  | Some z => if in_int z then Ok z else UB BadConv
  | None => UB BadConv
  end.

(* floorf / ceilf: exact; results are integers of magnitude below 2^24, or the argument itself *)
Definition sf_floor_Z (s : bool) (m : positive) (e : Z) : Z :=
  if 0 <=? e then cond_Zopp s (Z.pos m) * 2 ^ e else cond_Zopp s (Z.pos m) / 2 ^ (- e).
Definition ffloor (x : f32) : f32 :=
  match x with
  | S754_finite s m e => binary_normalize 24 128 (sf_floor_Z s m e) 0 s
  | _ => x
  end.
Definition fceil (x : f32) : f32 := fopp (ffloor (fopp x)).

(* fmodf: exact remainder with the sign of x *)
Definition ffmod (x y : f32) : f32 :=
  match x, y with
  | S754_nan, _ | _, S754_nan => S754_nan
  | S754_infinity _, _ => S754_nan
  | _, S754_zero _ => S754_nan
  | S754_zero s, _ => S754_zero s
  | S754_finite _ _ _, S754_infinity _ => x
  | S754_finite sx mx ex, S754_finite _ my ey =>
      let e := Z.min ex ey in
      let a := Z.pos mx * 2 ^ (ex - e) in
      let b := Z.pos my * 2 ^ (ey - e) in
      binary_normalize 24 128 (cond_Zopp sx (a mod b)) e sx
  end.

Definition is_nan_sf (x : spec_float) : bool := match x with S754_nan => true | _ => false end.
Definition is_finite_sf (x : spec_float) : bool :=
  match x with S754_finite _ _ _ | S754_zero _ => true | _ => false end.
