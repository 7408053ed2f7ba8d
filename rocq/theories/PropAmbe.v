(* C19 (AMBE part), C20, C21, C22, C55 and the IMBE fundamental of C17: AMBE parameter decoding. *)
From Coq Require Import ZArith List Bool Reals.
From Verif Require Import Res F32 TabAmbe2450 MParms MAdaptive MUnvoiced MSynth MImbe MAmbe SpecEcc SpecFrame SpecState SpecImbe SpecAmbe PFloat PState PAmbeDec PAmbeDec2 PExp2 PNyq PSize.
Import ListNotations.
Local Open Scope Z_scope.

(* pitch code 44, voicing pattern 3, gain code 21, alternating codebook bits; and the same with other leading bits *)
Definition voice_bits : list Z := [0; 1; 0; 1] ++ [0; 0; 0; 1] ++ [1; 0; 1; 0] ++ concat (repeat [1; 0] 11) ++ [1] ++ [1] ++ [1] ++ [1; 0; 0] ++ [1; 0; 1; 1; 0; 1; 0; 1; 0].
Definition tone_bits : list Z := repeat 1 6 ++ repeat 0 43.
Definition decoded (r : res (Z * parms * parms)) : res (Z * Z * list Z) :=
  match r with Ok (bad, m, _) => Ok (bad, p_L m, firstn 8 (skipn 1 (p_Vl m))) | UB w => UB w end.

(* C20: the classification of the 2^49 vectors, for every number of errors *)
Theorem C20_classification : forall o d cur prev e bad cur' prev', is_bits 49 d -> length (p_Vl cur) = 57%nat -> mbe_decodeAmbe2450ParmsInternal o d cur prev e = Ok (bad, cur', prev') ->
  (bad = 7 <-> tone2450 d /\ e < 6) /\ (bad = 2 <-> ~ (tone2450 d /\ e < 6) /\ erasure2450 (pitch2450 d)) /\ (bad = 0 <-> ~ (tone2450 d /\ e < 6) /\ ~ erasure2450 (pitch2450 d)).
Proof. exact ambe2450_return. Qed.
Print Assumptions C20_classification.
(* C20: the public entry point knows no error count *)
Theorem C20_public : forall o d cur prev bad cur' prev', is_bits 49 d -> length (p_Vl cur) = 57%nat -> mbe_decodeAmbe2450Parms o d cur prev = Ok (bad, cur', prev') ->
  (bad = 7 <-> tone2450 d) /\ (bad = 2 <-> ~ tone2450 d /\ erasure2450 (pitch2450 d)) /\ (bad = 0 <-> ~ tone2450 d /\ ~ erasure2450 (pitch2450 d)).
Proof. exact ambe2450_return_public. Qed.
Print Assumptions C20_public.
(* C20: tones and erasures change only the repeat counter *)
Theorem C20_tone : forall o d cur prev e, is_bits 49 d -> tone2450 d -> e < 6 ->
  mbe_decodeAmbe2450ParmsInternal o d cur prev e = Ok (7, set_repeat (p_repeat prev) cur, prev).
Proof. exact ambe2450_tone. Qed.
Print Assumptions C20_tone.
Theorem C20_erasure : forall o d cur prev e, is_bits 49 d -> ~ (tone2450 d /\ e < 6) -> erasure2450 (pitch2450 d) ->
  mbe_decodeAmbe2450ParmsInternal o d cur prev e = Ok (2, set_repeat (p_repeat prev) cur, prev).
Proof. exact ambe2450_erasure. Qed.
Print Assumptions C20_erasure.
(* C20: what a voice or silence frame sets *)
Theorem C20_voice : forall o d cur prev e bad cur' prev', is_bits 49 d -> length (p_Vl cur) = 57%nat -> ~ (tone2450 d /\ e < 6) -> ~ erasure2450 (pitch2450 d) ->
  mbe_decodeAmbe2450ParmsInternal o d cur prev e = Ok (bad, cur', prev') ->
  bad = 0 /\ ambe_accepted (harmonics2450 (pitch2450 d)) (w0_2450 (pitch2450 d)) (gain2450 d) (voicing2450 d) cur prev cur' prev'.
Proof. exact ambe2450_accepted. Qed.
Print Assumptions C20_voice.
Theorem C20_silence : forall o d cur prev e bad cur' prev', is_bits 49 d -> length (p_Vl cur) = 57%nat -> ~ (tone2450 d /\ e < 6) -> pitch2450 d = 124 \/ pitch2450 d = 125 ->
  mbe_decodeAmbe2450ParmsInternal o d cur prev e = Ok (bad, cur', prev') ->
  p_L cur' = (if pitch2450 d =? 124 then 15 else 14) /\ forall l, 1 <= l <= p_L cur' -> rd (p_Vl cur') l = Ok 0.
Proof. exact silence2450_decoded. Qed.
Print Assumptions C20_silence.
Example C20_case : is_bits 49 voice_bits /\ pitch2450 voice_bits = 44 /\ harmonics2450 44 = 18 /\ decoded (mbe_decodeAmbe2450Parms zero_oracle voice_bits ambe_initial ambe_initial) = Ok (0, 18, [1; 1; 1; 1; 1; 1; 1; 1])
  /\ decoded (mbe_decodeAmbe2450Parms zero_oracle tone_bits ambe_initial ambe_initial) = Ok (7, 15, [0; 0; 0; 0; 0; 0; 0; 0])
  /\ decoded (mbe_decodeAmbe2450ParmsInternal zero_oracle tone_bits ambe_initial ambe_initial 6) = Ok (2, 15, [0; 0; 0; 0; 0; 0; 0; 0])
  /\ decoded (mbe_decodeAmbe2450Parms zero_oracle silence_bits ambe_initial ambe_initial) = Ok (0, 15, [0; 0; 0; 0; 0; 0; 0; 0]).
Proof. split; [split; [reflexivity|repeat (constructor; [first [left; reflexivity|right; reflexivity]|]); constructor]|]. vm_compute. repeat split; reflexivity. Qed.

(* C21: no table is read outside and no coefficient before it is written *)
Theorem C21_defined : forall o d cur prev e, is_bits 49 d -> wf_parms cur -> usable_history (harmonics2450 (pitch2450 d)) prev ->
  exists bad cur' prev', mbe_decodeAmbe2450ParmsInternal o d cur prev e = Ok (bad, cur', prev').
Proof. exact ambe2450_defined. Qed.
Print Assumptions C21_defined.
Theorem C21_size : forall o d cur prev e bad cur' prev', is_bits 49 d -> length (p_Vl cur) = 57%nat -> ~ (tone2450 d /\ e < 6) -> ~ erasure2450 (pitch2450 d) ->
  mbe_decodeAmbe2450ParmsInternal o d cur prev e = Ok (bad, cur', prev') -> 9 <= p_L cur' <= 56.
Proof. exact size2450. Qed.
Print Assumptions C21_size.
Example C21_case : wf_parms ambe_initial /\ usable_history (harmonics2450 (pitch2450 voice_bits)) ambe_initial /\ ~ erasure2450 (pitch2450 voice_bits).
Proof. split; [exact ambe_initial_wf|]. split; [split; [exact ambe_initial_wf|left; vm_compute; split; discriminate]|]. vm_compute. intuition discriminate. Qed.

(* C22: the classification of the 2^49 vectors *)
Theorem C22_classification : forall o d cur prev bad cur' prev', is_bits 49 d -> length (p_Vl cur) = 57%nat -> (pitch2400 d < 126 -> exp2_close o (exponent2400 (pitch2400 d))) ->
  mbe_decodeAmbe2400Parms o d cur prev = Ok (bad, cur', prev') ->
  (bad = 0 <-> pitch2400 d < 126) /\ (5 <= bad <-> 126 <= pitch2400 d /\ 5 <= tone2400 d <= 122) /\ (bad = 3 <-> 126 <= pitch2400 d /\ ~ 5 <= tone2400 d <= 122) /\ bad <> 2 /\ (5 <= bad -> bad = tone2400 d).
Proof. exact ambe2400_return. Qed.
Print Assumptions C22_classification.
Theorem C22_tone : forall o d cur prev, is_bits 49 d -> 126 <= pitch2400 d -> 5 <= tone2400 d <= 122 ->
  mbe_decodeAmbe2400Parms o d cur prev = Ok (tone2400 d, set_repeat (p_repeat prev) cur, prev).
Proof. exact ambe2400_tone. Qed.
Print Assumptions C22_tone.
Theorem C22_dual : forall o d cur prev, is_bits 49 d -> 126 <= pitch2400 d -> 128 <= tone2400 d <= 163 ->
  mbe_decodeAmbe2400Parms o d cur prev = Ok (3, set_repeat (p_repeat prev) cur, prev).
Proof. exact ambe2400_dual. Qed.
Print Assumptions C22_dual.
(* 14 unvoiced harmonics of 2 pi / 32 *)
Theorem C22_silence : forall o d cur prev, is_bits 49 d -> length (p_Vl cur) = 57%nat -> 126 <= pitch2400 d -> ~ (5 <= tone2400 d <= 122) -> ~ (128 <= tone2400 d <= 163) ->
  exists V, length V = 57%nat /\ (forall l, 1 <= l <= 14 -> rd V l = Ok 0) /\ (forall l, l < 1 \/ 14 < l -> rd V l = rd (p_Vl cur) l) /\
  mbe_decodeAmbe2400Parms o d cur prev = Ok (3, set_Vl V (set_L 14 (set_w0 (d2f (ddiv (dmul (d_of_Z 2) M_PI) (d_of_Z 32))) (set_repeat (p_repeat prev) cur))), prev).
Proof. exact ambe2400_silence. Qed.
Print Assumptions C22_silence.
Theorem C22_voice : forall o d cur prev bad cur' prev', is_bits 49 d -> length (p_Vl cur) = 57%nat -> pitch2400 d < 126 -> exp2_close o (exponent2400 (pitch2400 d)) ->
  mbe_decodeAmbe2400Parms o d cur prev = Ok (bad, cur', prev') ->
  bad = 0 /\ ambe_accepted (harmonics2400 (pitch2400 d)) (radians (exp2f o (exponent2400 (pitch2400 d)))) (gain2400 d) (voicing2400 o d) cur prev cur' prev'.
Proof. exact ambe2400_accepted. Qed.
Print Assumptions C22_voice.
Theorem C22_defined : forall o d cur prev, is_bits 49 d -> wf_parms cur -> (pitch2400 d < 126 -> exp2_close o (exponent2400 (pitch2400 d)) /\ usable_history (harmonics2400 (pitch2400 d)) prev) ->
  exists bad cur' prev', mbe_decodeAmbe2400Parms o d cur prev = Ok (bad, cur', prev').
Proof. exact ambe2400_defined. Qed.
Print Assumptions C22_defined.
Theorem C22_size : forall o d cur prev bad cur' prev', is_bits 49 d -> length (p_Vl cur) = 57%nat -> pitch2400 d < 126 -> exp2_close o (exponent2400 (pitch2400 d)) ->
  mbe_decodeAmbe2400Parms o d cur prev = Ok (bad, cur', prev') -> 9 <= p_L cur' <= 56.
Proof. exact size2400. Qed.
Print Assumptions C22_size.
(* an exp2f that meets the accuracy assumption at all 126 voice codes *)
Example C22_close : forall b, 0 <= b < 126 -> exp2_close near_oracle (exponent2400 b).
Proof. exact near_oracle_close. Qed.
Example C22_case : pitch2400 voice_bits = 40 /\ harmonics2400 40 = 17 /\ decoded (mbe_decodeAmbe2400Parms near_oracle voice_bits ambe_initial ambe_initial) = Ok (0, 17, [0; 0; 0; 0; 0; 0; 0; 0])
  /\ decoded (mbe_decodeAmbe2400Parms near_oracle (repeat 1 6 ++ repeat 0 2 ++ [1; 1] ++ repeat 0 39) ambe_initial ambe_initial) = Ok (16, 15, [0; 0; 0; 0; 0; 0; 0; 0])
  /\ decoded (mbe_decodeAmbe2400Parms near_oracle tone_bits ambe_initial ambe_initial) = Ok (3, 15, [0; 0; 0; 0; 0; 0; 0; 0]).
Proof. vm_compute. repeat split; reflexivity. Qed.

(* C19 is false for the AMBE decoders too *)
Theorem C19_out_of_range_2450 : forall o d cur prev e, is_bits 49 d -> length (p_Vl cur) = 57%nat -> ~ (tone2450 d /\ e < 6) -> ~ erasure2450 (pitch2450 d) ->
  wf_parms prev -> p_L prev = 56 -> harmonics2450 (pitch2450 d) <> 23 -> harmonics2450 (pitch2450 d) <> 46 -> mbe_decodeAmbe2450ParmsInternal o d cur prev e = UB OOB.
Proof. exact ambe2450_outside. Qed.
Print Assumptions C19_out_of_range_2450.
Theorem C19_out_of_range_2400 : forall o d cur prev, is_bits 49 d -> length (p_Vl cur) = 57%nat -> pitch2400 d < 126 -> exp2_close o (exponent2400 (pitch2400 d)) ->
  wf_parms prev -> p_L prev = 56 -> harmonics2400 (pitch2400 d) <> 23 -> harmonics2400 (pitch2400 d) <> 46 -> mbe_decodeAmbe2400Parms o d cur prev = UB OOB.
Proof. exact ambe2400_outside. Qed.
Print Assumptions C19_out_of_range_2400.
Example C19_case_ambe : harmonics2450 119 = 56 /\ harmonics2400 125 = 56 /\ decoded (mbe_decodeAmbe2450Parms zero_oracle silence_bits ambe_initial (set_L 56 ambe_initial)) = UB OOB.
Proof. vm_compute. repeat split; reflexivity. Qed.

(* C17: the fundamental of an accepted IMBE frame is 4 pi / (b0 + 39.5) *)
Theorem C17_fundamental : forall o d cur prev bad cur' prev', is_bits 88 d -> pitch7200 d <= 207 -> length (p_Vl cur) = 57%nat ->
  mbe_decodeImbe4400Parms o d cur prev = Ok (bad, cur', prev') ->
  ff (p_w0 cur') /\ (Rabs (R_of (p_w0 cur') * (IZR (pitch7200 d) + 79 / 2) - 4 * PI) <= 4 / 1000000)%R.
Proof. exact imbe_fundamental. Qed.
Print Assumptions C17_fundamental.

(* C55: the highest harmonic lies below half the sampling rate ... *)
Theorem C55_imbe : forall o d cur prev bad cur' prev', is_bits 88 d -> pitch7200 d <= 207 -> length (p_Vl cur) = 57%nat ->
  mbe_decodeImbe4400Parms o d cur prev = Ok (bad, cur', prev') -> (IZR (p_L cur') * R_of (p_w0 cur') <= PI)%R.
Proof. exact imbe_nyquist. Qed.
Print Assumptions C55_imbe.
Theorem C55_2450 : forall o d cur prev e bad cur' prev', is_bits 49 d -> length (p_Vl cur) = 57%nat -> ~ (tone2450 d /\ e < 6) -> pitch2450 d < 120 ->
  mbe_decodeAmbe2450ParmsInternal o d cur prev e = Ok (bad, cur', prev') -> (IZR (p_L cur') * R_of (p_w0 cur') <= PI)%R.
Proof. exact ambe2450_nyquist. Qed.
Print Assumptions C55_2450.
Theorem C55_2400 : forall o d cur prev bad cur' prev', is_bits 49 d -> length (p_Vl cur) = 57%nat -> pitch2400 d < 126 -> exp2_close o (exponent2400 (pitch2400 d)) ->
  mbe_decodeAmbe2400Parms o d cur prev = Ok (bad, cur', prev') -> (IZR (p_L cur') * R_of (p_w0 cur') <= PI)%R.
Proof. exact ambe2400_nyquist. Qed.
Print Assumptions C55_2400.
(* ... except for AMBE 2450 silence, whose highest harmonic lies above the sampling rate *)
Theorem C55_silence : forall o d cur prev e bad cur' prev', is_bits 49 d -> length (p_Vl cur) = 57%nat -> ~ (tone2450 d /\ e < 6) -> pitch2450 d = 124 \/ pitch2450 d = 125 ->
  mbe_decodeAmbe2450ParmsInternal o d cur prev e = Ok (bad, cur', prev') -> (2 * PI <= IZR (p_L cur') * R_of (p_w0 cur'))%R.
Proof. exact ambe2450_silence_top. Qed.
Print Assumptions C55_silence.
Theorem C55_refuted : exists o d cur prev cur' prev', is_bits 49 d /\ wf_parms cur /\ wf_parms prev /\ mbe_decodeAmbe2450Parms o d cur prev = Ok (0, cur', prev')
  /\ (PI < IZR (p_L cur') * R_of (p_w0 cur'))%R.
Proof. exact silence_refutes. Qed.
Print Assumptions C55_refuted.
