(* Specifications for the noise generators, independent of the model. *)
From Coq Require Import ZArith List Bool.
From Verif Require Import Res F32 MParms MAdaptive MUnvoiced.
Import ListNotations.
Local Open Scope Z_scope.

(* java.util.Random (int arithmetic on 48 bits, as documented by its API) *)
Definition java_scramble (seed : Z) : Z := Z.lxor seed 25214903917 mod 2 ^ 48.
Definition java_step (x : Z) : Z := (x * 25214903917 + 11) mod 2 ^ 48.
(* the state after k draws; draw number k (from 0) of next(24) *)
Definition java_state (seed : Z) (k : nat) : Z := Nat.iter k java_step (java_scramble seed).
Definition java_next24 (seed : Z) (k : nat) : Z := java_state seed (S k) / 2 ^ 24.
(* nextFloat() = next(24) / (float)(1 << 24) *)
Definition java_nextFloat (seed : Z) (k : nat) : f32 := fdiv (f_of_Z (java_next24 seed k)) (f_of_Z 16777216).
(* (0.003f * 32767.0f) / 7.0f and the sample made from one uniform number *)
Definition noise_gain : f32 := fdiv (fmul (flit 3 1000) (f_of_Z 32767)) (f_of_Z 7).
Definition noise_sample (u : f32) : f32 := fmul (fsub (fmul u (f_of_Z 2)) (f_of_Z 1)) noise_gain.
(* frame number f (from 0) of 160 samples *)
Definition java_frame (seed : Z) (f : nat) : list f32 :=
  map (fun i => noise_sample (java_nextFloat seed (160 * f + i))) (seq 0 160).
(* the seed 0 stands for 0x6d25357b *)
Definition effective_seed (seed : Z) : Z := if seed =? 0 then 1831155067 else seed.

(* comfort noise into one caller buffer after another *)
Fixpoint comfort_frames (bufs : list (list f32)) (t : tls) : res (list (list f32) * tls) :=
  match bufs with
  | [] => Ok ([], t)
  | b :: bs =>
      '(x, t) <- mbe_synthesizeComfortNoisef b t ;; '(xs, t) <- comfort_frames bs t ;; Ok (x :: xs, t)
  end.

(* the unvoiced noise generator: u(j) for j >= 0 from a seed, 0 before the start *)
Definition lcg_step (x : Z) : Z := (171 * x + 11213) mod 53125.
Definition lcg_state (seed : Z) (k : nat) : Z := Nat.iter k lcg_step seed.
Definition noise_at (seed : Z) (j : Z) : f32 := if j <? 0 then S754_zero false else f_of_Z (lcg_state seed (Z.to_nat j)).
(* noise buffer number k (0: the cold start) *)
Definition noise_buffer (seed : Z) (k : nat) : list f32 :=
  map (fun i => noise_at seed (160 * (Z.of_nat k - 1) + Z.of_nat i - 96)) (seq 0 256).

(* a stream: n further noise buffers from a stored seed and overlap *)
Fixpoint noise_buffers (n : nat) (seed : f32) (overlap : list f32) (t : tls) : res (list (list f32) * f32 * list f32 * tls) :=
  match n with
  | O => Ok ([], seed, overlap, t)
  | S n' =>
      '(b, seed, overlap, t) <- mbe_generate_noise_with_overlap seed overlap t ;;
      '(bs, seed, overlap, t) <- noise_buffers n' seed overlap t ;; Ok (b :: bs, seed, overlap, t)
  end.

(* the seed a cold start takes *)
Definition cold_seed (t : tls) : Z := if t_uv_override t then t_uv_seed t else 3147.

(* events on one thread that reach the generators: a noise request of some stream (its stored seed and overlap),
   a comfort-noise frame, and the smoothing handoff *)
Inductive thread_event : Type :=
| Noise (seed : f32) (overlap : list f32)
| Comfort (buf : list f32)
| Handoff (addr : Z) (value : f32).
Definition cold (seed : f32) : bool := flt seed (S754_zero false).
(* run them; record what every cold stream was seeded with *)
Fixpoint run_events (es : list thread_event) (t : tls) : res (list f32 * tls) :=
  match es with
  | [] => Ok ([], t)
  | Noise seed ov :: es' =>
      '(_, seed', _, t) <- mbe_generate_noise_with_overlap seed ov t ;;
      '(l, t) <- run_events es' t ;; Ok ((if cold seed then [seed'] else []) ++ l, t)
  | Comfort b :: es' => '(_, t) <- mbe_synthesizeComfortNoisef b t ;; run_events es' t
  | Handoff a x :: es' => run_events es' (mbe_setPreEnhRm0 a x t)
  end.
(* the seeds cold starts must get: the override once, then the default *)
Fixpoint cold_seeds (override : option Z) (es : list thread_event) : list f32 :=
  match es with
  | [] => []
  | Noise seed _ :: es' =>
      if cold seed then f_of_Z (match override with Some s => s | None => 3147 end) :: cold_seeds None es'
      else cold_seeds override es'
  | _ :: es' => cold_seeds override es'
  end.
