(* C32-C35: the noise generators. *)
From Coq Require Import ZArith List Bool.
From Verif Require Import Res F32 MParms MAdaptive MUnvoiced SpecAdaptive SpecGen SpecGen2 PGen PGen2 POut.
Import ListNotations.
Local Open Scope Z_scope.

(* C32: from every thread state, into every buffer, comfort noise is defined, finite and at most 0.003 * 32767 / 7. *)
Theorem C32_bounded : forall aout t, length aout = 160%nat -> exists aout' t',
  mbe_synthesizeComfortNoisef aout t = Ok (aout', t') /\ length aout' = 160%nat /\
  Forall (fun x => binary32 x /\ finite x /\ fle (fabs x) noise_gain = true) aout'.
Proof. exact comfort_bounded. Qed.
Print Assumptions C32_bounded.
(* ... and at most 98 as 16-bit samples. *)
Theorem C32_short : forall o aout t, length aout = 160%nat -> exists aout' t',
  mbe_synthesizeComfortNoise o aout t = Ok (aout', t') /\ length aout' = 160%nat /\ Forall (fun z => -98 <= z <= 98) aout'.
Proof. exact comfort_short_bounded. Qed.
Print Assumptions C32_short.
(* the bound is 14.043..., and the largest uniform number almost reaches it: 98 is attained *)
Example C32_gain : noise_gain = S754_finite false 14725153 (-20). Proof. vm_compute. reflexivity. Qed.
Example C32_attained : short_of_sample (comfort_sample 16777215) = Ok 98 /\ short_of_sample (comfort_sample 0) = Ok (-98).
Proof. vm_compute. split; reflexivity. Qed.

(* C33: after seeding, n frames of comfort noise are those of java.util.Random, whatever was there before. *)
Theorem C33_java : forall s t bufs, Forall (fun b => length b = 160%nat) bufs ->
  exists t', comfort_frames bufs (mbe_setThreadRngSeed s t) = Ok (map (java_frame (effective_seed s)) (seq 0 (length bufs)), t').
Proof. exact seeded_noise. Qed.
Print Assumptions C33_java.
(* the seeds 0 and 0x6d25357b leave the same thread state *)
Theorem C33_default_seed : forall t, mbe_setThreadRngSeed 0 t = mbe_setThreadRngSeed 1831155067 t.
Proof. reflexivity. Qed.
Print Assumptions C33_default_seed.
(* the state returns exactly every 2^48 draws, and passes through every 48-bit value *)
Theorem C33_period : forall n t, t_seeded t = true -> 0 <= t_seed48 t < 2 ^ 48 ->
  (t_seed48 (draws n t) = t_seed48 t <-> Z.of_nat n mod 2 ^ 48 = 0).
Proof. exact draws_period. Qed.
Print Assumptions C33_period.
Theorem C33_all_states : forall t y, t_seeded t = true -> 0 <= t_seed48 t < 2 ^ 48 -> 0 <= y < 2 ^ 48 ->
  exists n, Z.of_nat n < 2 ^ 48 /\ t_seed48 (draws n t) = y.
Proof. exact draws_all. Qed.
Print Assumptions C33_all_states.
(* a seeded thread is such a state *)
Example C33_seeded : t_seeded (mbe_setThreadRngSeed 42 tls0) = true /\ t_seed48 (mbe_setThreadRngSeed 42 tls0) = 25214903879.
Proof. vm_compute. split; reflexivity. Qed.
(* new Random(42).nextFloat(): 0.72756367..., the published first value *)
Example C33_random42 : java_next24 42 0 = 12206493 /\ 7275635 <= java_next24 42 0 * 10000000 / 16777216 <= 7275637.
Proof. vm_compute. repeat split; discriminate. Qed.

(* C34: the unvoiced generator has period 53125 and reaches every value from every value. *)
Theorem C34_period : forall buf n s b f, 0 <= s < 53125 -> length buf = n ->
  mbe_generate_noise_lcg buf (Z.of_nat n) (f_of_Z s) = Ok (b, f) -> (f = f_of_Z s <-> Z.of_nat n mod 53125 = 0).
Proof. exact noise_period. Qed.
Print Assumptions C34_period.
Theorem C34_all_values : forall s y, 0 <= s < 53125 -> 0 <= y < 53125 -> exists n, Z.of_nat n < 53125 /\ forall buf, length buf = n -> exists b, mbe_generate_noise_lcg buf (Z.of_nat n) (f_of_Z s) = Ok (b, f_of_Z y).
Proof. exact noise_all. Qed.
Print Assumptions C34_all_values.
(* mbe_generate_noise_lcg runs this recurrence exactly, for every seed and count *)
Theorem C34_generator : forall buf n s, 0 <= s < 53125 -> length buf = n ->
  mbe_generate_noise_lcg buf (Z.of_nat n) (f_of_Z s) =
  Ok (map (fun i => f_of_Z (lcg_state s i)) (seq 0 n), f_of_Z (lcg_state s n)).
Proof. exact noise_lcg_ok. Qed.
Print Assumptions C34_generator.
(* all buffers of a stream are windows of one sequence: zeros, then the generator's values *)
Theorem C34_stream : forall n seed ov t, cold seed = true -> 0 <= cold_seed t < 53125 ->
  exists f ov' t', noise_buffers (S n) seed ov t = Ok (map (noise_buffer (cold_seed t)) (seq 0 (S n)), f, ov', t').
Proof. exact noise_stream. Qed.
Print Assumptions C34_stream.
(* so the last 96 samples of each buffer are the first 96 of the next *)
Theorem C34_overlap : forall n seed ov t bs f ov' t', cold seed = true -> 0 <= cold_seed t < 53125 ->
  noise_buffers n seed ov t = Ok (bs, f, ov', t') -> forall k, (S k < n)%nat ->
  skipn 160 (nth k bs []) = firstn 96 (nth (S k) bs []) /\ length (nth k bs []) = 256%nat.
Proof. exact stream_overlap. Qed.
Print Assumptions C34_overlap.
(* every value held is an integer below 53125, exactly represented *)
Theorem C34_exact : forall n seed ov t bs f ov' t', cold seed = true -> 0 <= cold_seed t < 53125 ->
  noise_buffers n seed ov t = Ok (bs, f, ov', t') ->
  Forall (Forall (fun x => exists z, 0 <= z < 53125 /\ x = f_of_Z z /\ sf_trunc x = Some z)) bs.
Proof. exact stream_values. Qed.
Print Assumptions C34_exact.
Example C34_start : map (fun i => sf_trunc (nth i (noise_buffer 3147 1) S754_nan)) [95; 96; 97; 98]%nat =
  [Some 0; Some 3147; Some 18100; Some 25063].
Proof. vm_compute. reflexivity. Qed.
Example C34_cold : cold (f_of_Z (-1)) = true /\ cold (f_of_Z 0) = false. Proof. split; reflexivity. Qed.

(* C35: after seeding, over every sequence of events, the first cold start takes the seed and all later ones 3147. *)
Theorem C35_used_once : forall s t es l t', run_events es (mbe_setThreadRngSeed s t) = Ok (l, t') ->
  l = cold_seeds (Some (effective_seed s mod 53125)) es.
Proof. intros s t es l t' H. rewrite <- (seed_override s t). exact (run_events_seeds es _ l t' H). Qed.
Print Assumptions C35_used_once.
(* without a call to it they all take 3147 *)
Theorem C35_default : forall t es l t', t_uv_override t = false -> run_events es t = Ok (l, t') -> l = cold_seeds None es.
Proof. intros t es l t' H R. rewrite (run_events_seeds es t l t' R). unfold override_of. now rewrite H. Qed.
Print Assumptions C35_default.
(* the events run without undefined behaviour when buffers have their sizes and seeds are cold or generator values *)
Theorem C35_defined : forall es t, Forall (fun e => match e with
    | Noise seed ov => cold seed = true \/ (exists z, 0 <= z < 53125 /\ seed = f_of_Z z) /\ length ov = 96%nat
    | Comfort b => length b = 160%nat | Handoff _ _ => True end) es -> exists l t', run_events es t = Ok (l, t').
Proof. exact run_events_ok. Qed.
Print Assumptions C35_defined.
Example C35_two_streams : cold_seeds (Some 7)
  [Noise (f_of_Z 5) (repeat fzero 96); Noise (f_of_Z (-1)) []; Handoff 1 fone; Noise (f_of_Z (-1)) []] = [f_of_Z 7; f_of_Z 3147].
Proof. vm_compute. reflexivity. Qed.
