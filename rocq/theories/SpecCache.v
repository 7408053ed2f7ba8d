(* Specification of the cosine caches: a decoder that keeps a cache must answer every call of every history as the
   decoder that evaluates the cosines directly. *)
From Coq Require Import ZArith List Bool.
From Verif Require Import Res F32 MParms MSynth MImbe MAmbe MCache.
Import ListNotations.
Local Open Scope Z_scope.

(* one decode call of any stream of the thread: bits, current and previous parameters, errors *)
Definition decode_args := (list Z * parms * parms * Z)%type.
(* a history of decode calls without and with a cache *)
Fixpoint decodes (f : decode_args -> res (Z * parms * parms)) (xs : list decode_args) : res (list (Z * parms * parms)) :=
  match xs with
  | [] => Ok []
  | x :: xs => r <- f x ;; l <- decodes f xs ;; Ok (r :: l)
  end.
Fixpoint cached_decodes (f : decode_args -> dct_cache -> res (Z * parms * parms * dct_cache)) (xs : list decode_args) (c : dct_cache)
  : res (list (Z * parms * parms)) :=
  match xs with
  | [] => Ok []
  | x :: xs => '(r, c) <- f x c ;; l <- cached_decodes f xs c ;; Ok (r :: l)
  end.
Definition call_imbe (o : oracle) (x : decode_args) : res (Z * parms * parms) :=
  let '(d, cur, prev, _) := x in mbe_decodeImbe4400Parms o d cur prev.
Definition call_imbe_cached (o : oracle) (x : decode_args) (c : dct_cache) : res (Z * parms * parms * dct_cache) :=
  let '(d, cur, prev, _) := x in imbe_decode_cached o d cur prev c.
Definition call_2450 (o : oracle) (x : decode_args) : res (Z * parms * parms) :=
  let '(d, cur, prev, n) := x in mbe_decodeAmbe2450ParmsInternal o d cur prev n.
Definition call_2450_cached (o : oracle) (x : decode_args) (c : dct_cache) : res (Z * parms * parms * dct_cache) :=
  let '(d, cur, prev, n) := x in ambe2450_decode_cached o d cur prev n c.
Definition call_2400 (o : oracle) (x : decode_args) : res (Z * parms * parms) :=
  let '(d, cur, prev, _) := x in mbe_decodeAmbe2400Parms o d cur prev.
Definition call_2400_cached (o : oracle) (x : decode_args) (c : dct_cache) : res (Z * parms * parms * dct_cache) :=
  let '(d, cur, prev, _) := x in ambe2400_decode_cached o d cur prev c.
