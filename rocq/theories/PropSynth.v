(* C64, C65, C66, C67: smoothing and speech synthesis as formulas. *)
From Coq Require Import ZArith List Bool.
From Verif Require Import Res F32 MParms MAdaptive MUnvoiced MSynth MImbe SpecEcc SpecFrame SpecState SpecAdaptive SpecGen SpecWola SpecOut SpecImbe SpecMachine SpecAmp SpecSynth PropMachine PFloat PSynth PSynth2 SpecTrig POsc POsc2.
From Coq Require Import Reals.
Import ListNotations.
Local Open Scope Z_scope.

(* a cosine that is always 1, a sine that is always 0, a transform that moves the values by 100 places *)
Definition flat_oracle : oracle := mkoracle (fun _ => f_of_Z 1) (fun _ => zero) (fun x => x) (fun x => x) (fun x => x) (fun x i => cell zero x ((i + 100) mod 256)) (fun x i => cell zero x ((i + 156) mod 256)) true Scalar true.
(* three harmonics of amplitudes 1, 2, 3, the second one unvoiced; the generator at 3147 *)
Definition three : parms := set_noiseSeed (f_of_Z 3147) (set_L 3 (set_Vl ([0; 1; 0; 1] ++ repeat 0 53)
  (set_Ml ([zero; f_of_Z 1; f_of_Z 2; f_of_Z 3] ++ repeat zero 53) imbe_initial))).
Definition samples (ns : list nat) (r : res (list f32 * parms * parms * tls)) : list f32 :=
  match r with Ok (b, _, _, _) => map (fun n => nth n b zero) ns | UB _ => [] end.

(* C64: the 160 samples, the two parameter sets and the thread state after a frame that is not muted *)
Theorem C64_speech : forall o aout a cur prev uvq t, wf_parms cur -> wf_parms prev -> 0 <= p_L cur <= 56 -> 0 <= p_L prev <= 56 ->
  pitch_in_range (p_w0 cur) -> generator_seed (p_noiseSeed cur) -> length aout = 160%nat ->
  0 <= p_errorCountTotal cur <= 1000000 -> p_amplitudeThreshold prev <= 2000000000 -> muted cur = false ->
  mbe_synthesizeSpeechf o aout a cur prev uvq t =
    Ok (spoken o (smoothing_result o (frame_energy t a cur) cur prev) prev (if pending t a then clear_pending t else t)).
Proof. exact speech_formula. Qed.
Print Assumptions C64_speech.
(* C64: the unvoiced part on its own *)
Theorem C64_unvoiced : forall o out cur prev noise, wf_parms cur -> wf_parms prev -> 0 <= p_L cur <= 56 -> pitch_in_range (p_w0 cur) ->
  length noise = 256%nat -> length out = 160%nat ->
  mbe_synthesizeUnvoicedFFTWithNoise o out cur prev noise = Ok (overlap_add out (p_previousUw prev) (noise_wave o cur noise), noise_wave o cur noise).
Proof. exact unvoiced_formula. Qed.
Print Assumptions C64_unvoiced.
Example C64_case : wf_parms three /\ pitch_in_range (p_w0 three) /\ generator_seed (p_noiseSeed three) /\ muted three = false /\
  samples [0; 142; 144; 150]%nat (mbe_synthesizeSpeechf flat_oracle silence 1 three three 3 t0) =
    [S754_finite false 8388608 (-20); S754_finite false 9397113 (-20); S754_finite false 9453016 (-20); S754_finite false 8388608 (-20)].
Proof.
  split; [repeat split; reflexivity|]. split; [vm_compute; intuition discriminate|]. split; [right; exists 3147; split; [vm_compute; intuition discriminate|reflexivity]|].
  split; [reflexivity|]. vm_compute. reflexivity.
Qed.

(* C65: what smoothing does to a set *)
Theorem C65_smoothing : forall o a cur prev t, wf_parms cur -> 0 <= p_L cur <= 56 -> 0 <= p_errorCountTotal cur <= 1000000 -> p_amplitudeThreshold prev <= 2000000000 ->
  mbe_applyAdaptiveSmoothing o a cur prev t = Ok (smoothing_result o (frame_energy t a cur) cur prev, if pending t a then clear_pending t else t).
Proof. exact smoothing_formula. Qed.
Print Assumptions C65_smoothing.
(* an error rate of 0.01 with four errors: the limit on the sum is 20480 + 6000 - 1200 = 25280; amplitudes 1, 2, 30000 *)
Definition loud : parms := set_errorRate (flit 1 100) (set_errorCountTotal 4 (set_Ml ([zero; f_of_Z 1; f_of_Z 2; f_of_Z 30000] ++ repeat zero 53)
  (set_Vl (repeat 0 57) three))).
Example C65_case : wf_parms loud /\
  match mbe_applyAdaptiveSmoothing flat_oracle 1 loud loud t0 with
  | Ok (m, _) => (firstn 4 (p_Vl m), firstn 4 (p_Ml m), p_amplitudeThreshold m)
  | UB _ => ([], [], 0)
  end = ([0; 0; 0; 1], [zero; S754_finite false 14136187 (-24); S754_finite false 14136187 (-23); S754_finite false 12942066 (-9)], 25280).
Proof. split; [repeat split; reflexivity|]. vm_compute. reflexivity. Qed.

(* C66: in a frame whose harmonics are all voiced no harmonic has a random phase.  False: the count of unvoiced harmonics includes
   entry 0 of the voicing array, which no decoder writes *)
Theorem C66_refuted : exists c b str st' t', call_ok c /\ imbe_do zero_oracle 1 c start t0 = Ok (b, str, st', t') /\ str = [0] /\
  let m := cur_of st' in Forall (fun v => v = 1) (firstn 9 (skipn 1 (p_Vl m))) /\ p_L m = 9 /\ cell zero (p_PHIl m) 3 <> cell zero (p_PSIl m) 3.
Proof. exact voiced_random. Qed.
Print Assumptions C66_refuted.
(* C66: the count that synthesis uses is one more than the number of unvoiced harmonics whenever entry 0 is 0 *)
Theorem C66_count : forall m, 0 <= p_L m <= 56 -> length (p_Vl m) = 57%nat -> cell 0 (p_Vl m) 0 = 0 ->
  count_unvoiced (p_L m) (p_Vl m) = Ok (1 + Z.of_nat (length (filter (fun l => cell 0 (p_Vl m) l =? 0) (upto (p_L m))))).
Proof. exact count_model. Qed.
Print Assumptions C66_count.
Example C66_case : count_unvoiced (p_L three) (p_Vl three) = Ok 2 /\ cell 0 (p_Vl three) 0 = 0.
Proof. split; reflexivity. Qed.

(* C67: with a cosine and a sine accurate to 2^-23, each of the 160 values of an oscillator, which synthesis multiplies by window and amplitude and adds to the sample, is within 2^-13 of the cosine of its phase *)
Theorem C67_oscillator : forall simd o start step amp aout off, length aout = 160%nat -> off = 0 \/ off = 160 -> trig_close o start -> trig_close o step ->
  exists r, add_oscillator simd aout off amp (cosf o start) (sinf o start) (sinf o step) (cosf o step) = Ok r /\ length r = 160%nat /\
  forall n x, 0 <= n < 160 -> rd aout n = Ok x -> exists c, near c (cos (R_of start + IZR n * R_of step))%R (/ 8192)%R /\
    rd r n = Ok (fadd x (if lanes4 simd then fmul (fmul c (fade (n + off))) (fmul (f_of_Z 2) amp) else fmul (fmul (fmul (f_of_Z 2) (fade (n + off))) amp) c)).
Proof. exact oscillator_run. Qed.
Print Assumptions C67_oscillator.
(* an oscillator of amplitude 1 and step 2^-12 fades in over silence: sample 100 is 2 * 0.9 * cos(100 / 4096) = 1.7994..., sample 159 is 2 * cos(159 / 4096) = 1.9985... *)
Example C67_case : trig_close simple_oracle zero /\ trig_close simple_oracle small_step /\
  match add_oscillator Scalar (repeat zero 160) 0 (f_of_Z 1) (cosf simple_oracle zero) (sinf simple_oracle zero) (sinf simple_oracle small_step) (cosf simple_oracle small_step) with
  | Ok r => map (fun k => sf_trunc (fmul (f_of_Z 10000) (nth k r zero))) [55; 60; 100; 159]%nat | UB _ => [] end = [Some 0; Some 1999; Some 17994; Some 19985].
Proof. split; [exact simple_zero|]. split; [exact simple_small|]. vm_compute. reflexivity. Qed.
