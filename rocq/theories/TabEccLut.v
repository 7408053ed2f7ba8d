(* Generated by tools/gen_tables.py from /repo/src/ecc/ecc.c.  Do not edit. *)
From Coq Require Import ZArith List.
From Verif Require Import F32.
Import ListNotations.
Local Open Scope Z_scope.

(* /repo/src/ecc/ecc.c:26-29, ham1511_lut[16] *)
Definition ham1511_lut : list (Z) := 
  [0; 8; 4; 2048; 2; 512; 64; 8192; 1; 256; 32; 4096; 16; 1024; 128; 16384].

(* /repo/src/ecc/ecc.c:31-34, ham1511_7100_lut[16] *)
Definition ham1511_7100_lut : list (Z) := 
  [0; 8; 4; 64; 2; 512; 32; 2048; 1; 16384; 256; 8192; 16; 128; 1024; 4096].
