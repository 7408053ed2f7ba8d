(* C30, C31: the output stage. *)
From Coq Require Import ZArith List Bool.
From Verif Require Import Res F32 MParms MAdaptive MUnvoiced MSynth SpecState SpecAdaptive SpecOut POut.
Import ListNotations.
Local Open Scope Z_scope.

(* C30: on buffers without NaN the scalar, SSE2 and NEON paths all give the specified samples. *)
Theorem C30_all_paths : forall fb aout, length fb = 160%nat -> length aout = 160%nat ->
  Forall (fun x => binary32 x /\ x <> S754_nan) fb ->
  mbe_floattoshort_scalar fb aout = Ok (map short_spec fb) /\
  mbe_floattoshort_vec short_of_sample_sse2 fb aout = Ok (map short_spec fb) /\
  mbe_floattoshort_vec short_of_sample_neon fb aout = Ok (map short_spec fb).
Proof. exact all_paths. Qed.
Print Assumptions C30_all_paths.
(* the conversion that the library calls, in the scalar build and in the x86-64 SIMD build *)
Theorem C30_library : forall o fb aout, length fb = 160%nat -> length aout = 160%nat ->
  Forall (fun x => binary32 x /\ x <> S754_nan) fb -> mbe_floattoshort o fb aout = Ok (map short_spec fb).
Proof. exact convert_either. Qed.
Print Assumptions C30_library.
(* whichever conversion: within +-31128, monotone, odd *)
Theorem C30_range : forall f fb aout r, In f converters -> numbers fb -> length aout = 160%nat -> f fb aout = Ok r -> length r = 160%nat /\ Forall (fun z => -31128 <= z <= 31128) r.
Proof. exact convert_range. Qed.
Print Assumptions C30_range.
Theorem C30_monotone : forall f fb fb' aout aout' r r', In f converters -> numbers fb -> numbers fb' -> length aout = 160%nat -> length aout' = 160%nat ->
  Forall2 (fun x y => fle x y = true) fb fb' -> f fb aout = Ok r -> f fb' aout' = Ok r' -> Forall2 Z.le r r'.
Proof. exact convert_mono. Qed.
Print Assumptions C30_monotone.
Theorem C30_odd : forall f fb aout r, In f converters -> numbers fb -> length aout = 160%nat -> f fb aout = Ok r -> f (map fopp fb) aout = Ok (map Z.opp r).
Proof. exact convert_odd. Qed.
Print Assumptions C30_odd.
(* a NaN anywhere makes the scalar conversion undefined *)
Theorem C30_nan_undefined : forall fb aout, length fb = 160%nat -> length aout = 160%nat -> In S754_nan fb ->
  exists w, mbe_floattoshort_scalar fb aout = UB w.
Proof. exact buffer_nan. Qed.
Print Assumptions C30_nan_undefined.
(* the vector paths are defined even then and disagree: -31128 (SSE2), 0 (NEON) *)
Theorem C30_nan_paths_differ : short_of_sample S754_nan = UB BadConv /\ short_of_sample_sse2 S754_nan = -31128 /\ short_of_sample_neon S754_nan = 0.
Proof. exact scalar_nan. Qed.
Print Assumptions C30_nan_paths_differ.
(* the vector builds of the library convert every frame, each NaN to its own value *)
Theorem C30_nan_library : forall o fb aout, length fb = 160%nat -> length aout = 160%nat -> Forall binary32 fb ->
  match o_simd o with
  | Scalar => True
  | Sse2 => mbe_floattoshort o fb aout = Ok (map (fun x => match x with S754_nan => -31128 | _ => short_spec x end) fb)
  | Neon => mbe_floattoshort o fb aout = Ok (map (fun x => match x with S754_nan => 0 | _ => short_spec x end) fb)
  end.
Proof. exact convert_vec. Qed.
Print Assumptions C30_nan_library.
Example C30_cases : short_spec (flit (-31) 2) = -108 /\ short_spec (f_of_Z 4447) = 31128 /\ short_spec (S754_infinity true) = -31128 /\
  short_spec FLT_MAX = 31128 /\ short_spec (flit 1 7) = 1.
Proof. vm_compute. repeat split. Qed.

(* C31 *)
Theorem C31_speech : forall o aout a cur prev uvq t aout' cur' prev' t', length aout = 160%nat ->
  mbe_synthesizeSpeechf o aout a cur prev uvq t = Ok (aout', cur', prev', t') -> length aout' = 160%nat /\ Forall bounded_sample aout'.
Proof. exact speech_bounded. Qed.
Print Assumptions C31_speech.
(* tones are not clipped, but stay within the same limit because the sine does *)
Theorem C31_tone : forall o aout d cur aout' cur', sine_bounded o -> length aout = 160%nat ->
  mbe_synthesizeTonef o aout d cur = Ok (aout', cur') -> length aout' = 160%nat /\ Forall bounded_sample aout'.
Proof. exact tone_bounded. Qed.
Print Assumptions C31_tone.
Theorem C31_dstar_tone : forall o aout cur id aout' cur', sine_bounded o -> length aout = 160%nat ->
  mbe_synthesizeTonefdstar o aout cur id = Ok (aout', cur') -> length aout' = 160%nat /\ Forall bounded_sample aout'.
Proof. exact dstar_bounded. Qed.
Print Assumptions C31_dstar_tone.
Example C31_limit : sample_limit = S754_finite false 9107354 (-11) /\ mbe_clipFloatSample (S754_infinity true) = fopp sample_limit /\
  mbe_clipFloatSample (f_of_Z 4446) = f_of_Z 4446.
Proof. vm_compute. repeat split. Qed.
Example C31_sine : sine_bounded zero_oracle.
Proof. intros x. right. reflexivity. Qed.
