(* C89: NULL arguments. *)
From Coq Require Import ZArith List Bool.
From Verif Require Import Res F32 MParms MAdaptive MSynth MAmbe SpecEcc SpecFrame SpecTone SpecState SpecWola MNull SpecNull PNull.
From Flocq Require Import IEEE754.BinarySingleNaN.
Import ListNotations.
Local Open Scope Z_scope.

(* C89: a NULL set is not smoothed, muted or repeated; a NULL buffer or set makes these calls do nothing, to the thread neither *)
Theorem C89_quiet : forall o a v t cur prev,
  n_requiresAdaptiveSmoothing None = false /\ n_requiresMuting None = false /\ n_isMaxFrameRepeat None = false /\
  n_comfortNoisef None t = Ok (None, t) /\ n_comfortNoise o None t = Ok (None, t) /\
  n_silencef None = Ok None /\ n_silence None = Ok None /\ n_printVersion v None = Ok None /\
  n_applyAdaptiveSmoothing o a None prev t = Ok (None, t) /\ n_applyAdaptiveSmoothing o a cur None t = Ok (cur, t).
Proof. exact quiet_null. Qed.
Print Assumptions C89_quiet.
(* the next random sample is the one that would have come without the two calls *)
Example C89_quiet_case : exists b t, n_comfortNoisef (Some (repeat fone 160)) tls0 = Ok (Some b, t) /\ t_seed48 t <> t_seed48 tls0 /\
  ('(_, t) <- n_comfortNoisef None tls0 ;; n_comfortNoisef (Some (repeat fone 160)) t) = Ok (Some b, t).
Proof. eexists; eexists; split; [vm_compute; reflexivity|split; [vm_compute; discriminate|vm_compute; reflexivity]]. Qed.
(* C89: tone synthesis with a NULL set or a NULL buffer writes silence if it can and leaves the set *)
Theorem C89_tone : forall o aout d cur, is_bits 49 d -> frame_or_null aout -> is_null aout || is_null cur = true ->
  n_synthesizeTonef o aout (Some d) cur = Ok (silenced aout, cur).
Proof. exact tone_null. Qed.
Print Assumptions C89_tone.
(* C89: so does the D-STAR tone, whose frame may be NULL as well *)
Theorem C89_dstar : forall o aout d cur id, frame_or_null aout -> is_null aout || is_null cur = true ->
  n_synthesizeTonefdstar o aout d cur id = Ok (silenced aout, cur).
Proof. exact dstar_null. Qed.
Print Assumptions C89_dstar.
(* C89: a NULL frame is undefined for tone synthesis unless the build has no tones; for the D-STAR tone it is no matter *)
Theorem C89_tone_frame : forall o aout cur, (o_tones o = true -> undefined (n_synthesizeTonef o aout None cur)) /\
  (o_tones o = false -> frame_or_null aout -> n_synthesizeTonef o aout None cur = Ok (silenced aout, cur)) /\
  (forall b c id, frame_or_null aout -> aout = Some b -> cur = Some c ->
    n_synthesizeTonefdstar o aout None cur id = ('(b', c') <- mbe_synthesizeTonefdstar o b c id ;; Ok (Some b', Some c'))).
Proof. exact tone_frame_null. Qed.
Print Assumptions C89_tone_frame.
(* digit 5 and tones 40 and 41: silence without a set, sound with one *)
Definition digit5 : list Z := repeat 1 12 ++ [1; 0; 0; 0; 0; 1; 0; 1] ++ repeat 0 29.
Definition sine_oracle : oracle := mkoracle (fun _ => fone) (fun _ => fone) (fun x => x) (fun x => x) (fun x => x) (fun _ _ => fzero) (fun _ _ => fzero) true Scalar true.
Example C89_tone_case : n_synthesizeTonef sine_oracle (Some (repeat fone 160)) (Some digit5) None = Ok (Some (repeat (S754_zero false) 160), None) /\
  n_synthesizeTonef sine_oracle None (Some digit5) (Some ambe_initial) = Ok (None, Some ambe_initial) /\
  n_synthesizeTonefdstar sine_oracle (Some (repeat fone 160)) None None 40 = Ok (Some (repeat (S754_zero false) 160), None) /\
  exists x b c, n_synthesizeTonefdstar sine_oracle (Some (repeat fone 160)) None (Some ambe_initial) 41 = Ok (Some (x :: b), Some c) /\ fgt x fone = true /\
    p_swn c <> p_swn ambe_initial.
Proof.
  repeat split; try (vm_compute; reflexivity). eexists; eexists; eexists. split; [vm_compute; reflexivity|split; [vm_compute; reflexivity|vm_compute; discriminate]].
Qed.
(* C89: synthesis of speech needs the current set; without the previous set or the buffer it is defined exactly for a muted frame. A frame without previous set is not smoothed, and one without buffer draws no random number *)
Theorem C89_speech : forall o a uv t,
  (forall aout prev, undefined (n_synthesizeSpeechf o aout a None prev uv t)) /\
  (forall b c, muted c = true -> n_synthesizeSpeechf o (Some b) a (Some c) None uv t =
     ('(b', t') <- mbe_synthesizeComfortNoisef b t ;; Ok (Some b', Some c, None, t'))) /\
  (forall c, muted c = true -> n_synthesizeSpeechf o None a (Some c) None uv t = Ok (None, Some c, None, t)) /\
  (forall aout c, muted c = false -> undefined (n_synthesizeSpeechf o aout a (Some c) None uv t)) /\
  (forall c p c' t', mbe_applyAdaptiveSmoothing o a c p t = Ok (c', t') -> muted c' = true ->
     n_synthesizeSpeechf o None a (Some c) (Some p) uv t = Ok (None, Some c', Some p, t')) /\
  (forall c p c' t', mbe_applyAdaptiveSmoothing o a c p t = Ok (c', t') -> muted c' = false ->
     undefined (n_synthesizeSpeechf o None a (Some c) (Some p) uv t)).
Proof. exact speech_null. Qed.
Print Assumptions C89_speech.
(* C89: the 16-bit function needs its buffer in any case *)
Theorem C89_short : forall o a uv t,
  (forall cur prev, undefined (n_synthesizeSpeech o None a cur prev uv t)) /\
  (forall aout prev, undefined (n_synthesizeSpeech o aout a None prev uv t)) /\
  (forall aout c, muted c = false -> undefined (n_synthesizeSpeech o aout a (Some c) None uv t)) /\
  (forall b c, muted c = true -> n_synthesizeSpeech o (Some b) a (Some c) None uv t =
     ('(b', t') <- mbe_synthesizeComfortNoise o b t ;; Ok (Some b', Some c, None, t'))).
Proof. exact short_null. Qed.
Print Assumptions C89_short.
(* a fresh set is not muted, one after four repeats is *)
Example C89_speech_case : muted imbe_initial = false /\ muted (set_repeatCount 4 imbe_initial) = true /\
  n_synthesizeSpeechf sine_oracle (Some (repeat fone 160)) 0 (Some imbe_initial) None 3 tls0 = UB OOB /\
  exists x b t, n_synthesizeSpeechf sine_oracle (Some (repeat fone 160)) 0 (Some (set_repeatCount 4 imbe_initial)) None 3 tls0 =
    Ok (Some (x :: b), Some (set_repeatCount 4 imbe_initial), None, t) /\ x <> fone.
Proof.
  repeat split; try (vm_compute; reflexivity). eexists; eexists; eexists. split; [vm_compute; reflexivity|vm_compute; discriminate].
Qed.
(* C89: the other functions that work on sets or convert samples need all their arguments *)
Theorem C89_rest : forall o a t cur prev enh fb aout,
  (is_null cur || is_null prev || is_null enh = true -> undefined (n_initMbeParms cur prev enh)) /\
  (is_null cur || is_null prev = true -> undefined (n_moveMbeParms cur prev)) /\
  (is_null cur = true -> undefined (n_spectralAmpEnhance o a cur t)) /\
  (is_null fb || is_null aout = true -> undefined (n_floattoshort o fb aout)).
Proof. exact rest_null. Qed.
Print Assumptions C89_rest.
(* C89: without NULL these are the functions of the other properties *)
Theorem C89_ordinary : forall o a uv t c p e b s d v id f,
  n_requiresAdaptiveSmoothing (Some c) = mbe_requiresAdaptiveSmoothing c /\ n_requiresMuting (Some c) = mbe_requiresMuting c /\
  n_isMaxFrameRepeat (Some c) = mbe_isMaxFrameRepeat c /\
  n_comfortNoisef (Some b) t = ('(x, t) <- mbe_synthesizeComfortNoisef b t ;; Ok (Some x, t)) /\
  n_comfortNoise o (Some s) t = ('(x, t) <- mbe_synthesizeComfortNoise o s t ;; Ok (Some x, t)) /\
  n_applyAdaptiveSmoothing o a (Some c) (Some p) t = ('(x, t) <- mbe_applyAdaptiveSmoothing o a c p t ;; Ok (Some x, t)) /\
  n_printVersion v (Some s) = (x <- mbe_printVersion v s ;; Ok (Some x)) /\
  n_moveMbeParms (Some c) (Some p) = Ok (Some c, Some (mbe_moveMbeParms c)) /\
  n_initMbeParms (Some c) (Some p) (Some e) = ('(x, y, z) <- mbe_initMbeParms c p e ;; Ok (Some x, Some y, Some z)) /\
  n_spectralAmpEnhance o a (Some c) t = ('(x, t) <- mbe_spectralAmpEnhance o a c t ;; Ok (Some x, t)) /\
  n_silencef (Some b) = (x <- mbe_synthesizeSilencef b ;; Ok (Some x)) /\
  n_silence (Some s) = (x <- mbe_synthesizeSilence s ;; Ok (Some x)) /\
  n_synthesizeTonef o (Some b) (Some d) (Some c) = ('(x, y) <- mbe_synthesizeTonef o b d c ;; Ok (Some x, Some y)) /\
  n_synthesizeTonefdstar o (Some b) (Some d) (Some c) id = ('(x, y) <- mbe_synthesizeTonefdstar o b c id ;; Ok (Some x, Some y)) /\
  n_synthesizeSpeechf o (Some b) a (Some c) (Some p) uv t = ('(x, y, z, t) <- mbe_synthesizeSpeechf o b a c p uv t ;; Ok (Some x, Some y, Some z, t)) /\
  n_synthesizeSpeech o (Some s) a (Some c) (Some p) uv t = ('(x, y, z, t) <- mbe_synthesizeSpeech o s a c p uv t ;; Ok (Some x, Some y, Some z, t)) /\
  n_floattoshort o (Some f) (Some s) = (x <- mbe_floattoshort o f s ;; Ok (Some x)).
Proof. exact ordinary_null. Qed.
Print Assumptions C89_ordinary.
