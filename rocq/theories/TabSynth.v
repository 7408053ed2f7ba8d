(* Generated by tools/gen_tables.py from /repo/src/internal/mbelib_const.h.  Do not edit. *)
From Coq Require Import ZArith List.
From Verif Require Import F32.
Import ListNotations.
Local Open Scope Z_scope.

(* /repo/src/internal/mbelib_const.h:27-44, Ws[321] *)
Definition Ws_micro : list (Z) := 
  [0; 0; 0; 0; 0; 0; 0; 0; 0; 0; 0; 0; 0; 0; 0; 0; 0; 0; 0; 0; 0; 0; 0; 0; 0; 0; 0; 0; 0; 0; 0; 0; 0; 0; 0; 0;
  0; 0; 0; 0; 0; 0; 0; 0; 0; 0; 0; 0; 0; 0; 0; 0; 0; 0; 0; 0; 20000; 40000; 60000; 80000; 100000; 120000;
  140000; 160000; 180000; 200000; 220000; 240000; 260000; 280000; 300000; 320000; 340000; 360000; 380000;
  400000; 420000; 440000; 460000; 480000; 500000; 520000; 540000; 560000; 580000; 600000; 620000; 640000;
  660000; 680000; 700000; 720000; 740000; 760000; 780000; 800000; 820000; 840000; 860000; 880000; 900000;
  920000; 940000; 960000; 980000; 1000000; 1000000; 1000000; 1000000; 1000000; 1000000; 1000000; 1000000;
  1000000; 1000000; 1000000; 1000000; 1000000; 1000000; 1000000; 1000000; 1000000; 1000000; 1000000; 1000000;
  1000000; 1000000; 1000000; 1000000; 1000000; 1000000; 1000000; 1000000; 1000000; 1000000; 1000000; 1000000;
  1000000; 1000000; 1000000; 1000000; 1000000; 1000000; 1000000; 1000000; 1000000; 1000000; 1000000; 1000000;
  1000000; 1000000; 1000000; 1000000; 1000000; 1000000; 1000000; 1000000; 1000000; 1000000; 1000000; 1000000;
  1000000; 1000000; 1000000; 1000000; 1000000; 1000000; 1000000; 1000000; 1000000; 1000000; 1000000; 1000000;
  1000000; 1000000; 1000000; 1000000; 1000000; 1000000; 1000000; 1000000; 1000000; 1000000; 1000000; 1000000;
  1000000; 1000000; 1000000; 1000000; 1000000; 1000000; 1000000; 1000000; 1000000; 1000000; 1000000; 1000000;
  1000000; 1000000; 1000000; 1000000; 1000000; 1000000; 1000000; 1000000; 1000000; 1000000; 1000000; 1000000;
  1000000; 1000000; 1000000; 1000000; 1000000; 1000000; 1000000; 980000; 960000; 940000; 920000; 900000; 880000;
  860000; 840000; 820000; 800000; 780000; 760000; 740000; 720000; 700000; 680000; 660000; 640000; 620000;
  600000; 580000; 560000; 540000; 520000; 500000; 480000; 460000; 440000; 420000; 400000; 380000; 360000;
  340000; 320000; 300000; 280000; 260000; 240000; 220000; 200000; 180000; 160000; 140000; 120000; 100000; 80000;
  60000; 40000; 20000; 0; 0; 0; 0; 0; 0; 0; 0; 0; 0; 0; 0; 0; 0; 0; 0; 0; 0; 0; 0; 0; 0; 0; 0; 0; 0; 0; 0; 0; 0;
  0; 0; 0; 0; 0; 0; 0; 0; 0; 0; 0; 0; 0; 0; 0; 0; 0; 0; 0; 0; 0; 0; 0; 0; 0; 0].
Definition Ws : list (f32) := Eval vm_compute in (map micro_d) Ws_micro.
