(* Property theorems C15 (status string), C16, C45, C46, C50: state initialisation and copying, status string, 16-bit
   entry points, version string. *)
From Coq Require Import ZArith List Bool.
From Verif Require Import Res F32 MFrame MParms MAdaptive MUnvoiced MSynth MImbe MAmbe SpecFrame PRun SpecState PState PShort.
Import ListNotations.
Local Open Scope Z_scope.

(* C15: the status string of a frame entry point fits in errs2 + 3 bytes: 9, 9, 18 and 17 bytes *)
Theorem C15_status_2450 : forall o a aout fr d st uv t r, ambe_frame fr -> length d = 49%nat ->
  mbe_processAmbe3600x2450Framef o a aout fr d st uv t = Ok r -> bounded_status 6 9 r.
Proof. exact frame2450_bounded. Qed.
Print Assumptions C15_status_2450.
Theorem C15_status_2400 : forall o a aout fr d st uv t r, ambe_frame fr -> length d = 49%nat ->
  mbe_processAmbe3600x2400Framef o a aout fr d st uv t = Ok r -> bounded_status 6 9 r.
Proof. exact frame2400_bounded. Qed.
Print Assumptions C15_status_2400.
Theorem C15_status_7200 : forall o a aout fr d st uv t r, imbe7200_frame fr -> length d = 88%nat ->
  mbe_processImbe7200x4400Framef o a aout fr d st uv t = Ok r -> bounded_status 15 18 r.
Proof. exact frame7200_bounded. Qed.
Print Assumptions C15_status_7200.
Theorem C15_status_7100 : forall o a aout fr d st uv t r, imbe7100_frame fr -> length d = 88%nat ->
  mbe_processImbe7100x4400Framef o a aout fr d st uv t = Ok r -> bounded_status 14 17 r.
Proof. exact frame7100_bounded. Qed.
Print Assumptions C15_status_7100.

(* C16: grammar of the status string *)
Theorem C16_status_imbe : forall o a aout errs2 d st uv c0 cv t aout' str st' t',
  mbe_processImbe4400Dataf_withC0 o a aout errs2 d st uv c0 cv t = Ok (aout', str, st', t') ->
  status_string imbe_markers errs2 str.
Proof. exact imbe_status. Qed.
Print Assumptions C16_status_imbe.
Theorem C16_status_ambe2450 : forall o a aout errs2 d st uv c0 cv t aout' str st' t',
  mbe_processAmbe2450Dataf_internal o a aout errs2 d st uv c0 cv t = Ok (aout', str, st', t') ->
  status_string ambe_markers errs2 str.
Proof. exact ambe2450_status. Qed.
Print Assumptions C16_status_ambe2450.
Theorem C16_status_ambe2400 : forall o a aout errs errs2 d st uv t aout' str st' t',
  mbe_processAmbe2400Dataf o a aout errs errs2 d st uv t = Ok (aout', str, st', t') ->
  status_string ambe_markers errs2 str.
Proof. exact ambe2400_status. Qed.
Print Assumptions C16_status_ambe2400.

(* an erasure frame with two errors: "==E" *)
Example C16_case : status_of (mbe_processAmbe2450Dataf zero_oracle 1 (repeat (flit 1 1) 160) 1 2 erasure_bits
  (ambe_initial, ambe_initial, ambe_initial) 3 tls0) = Ok [61; 61; 69; 0].
Proof. vm_compute. reflexivity. Qed.

(* C45: initialisation does not depend on the previous contents; copying is complete *)
Theorem C45_init_generic : forall cur prev enh, wf_parms prev ->
  mbe_initMbeParms cur prev enh = Ok (imbe_initial, imbe_initial, imbe_initial).
Proof. exact init_mbe. Qed.
Print Assumptions C45_init_generic.
Theorem C45_init_ambe : forall cur prev enh, wf_parms prev ->
  mbe_initAmbeParms_common cur prev enh = Ok (ambe_initial, ambe_initial, ambe_initial).
Proof. exact init_ambe. Qed.
Print Assumptions C45_init_ambe.
Theorem C45_copy : forall src, mbe_moveMbeParms src = src /\ mbe_useLastMbeParms src = src.
Proof. exact (fun src => conj eq_refl eq_refl). Qed.
Print Assumptions C45_copy.

Example C45_case : mbe_initMbeParms ambe_initial (set_Ml (repeat S754_nan 57) (set_repeat 3 ambe_initial)) ambe_initial
  = Ok (imbe_initial, imbe_initial, imbe_initial).
Proof. vm_compute. reflexivity. Qed.

(* C46: each 16-bit entry point is its float counterpart, run on any buffer whatever its contents, then converted;
   everything but the samples is the same. *)
Theorem C46_imbe_data : forall o a aout errs errs2 d st uv t b, frame_buffer b ->
  assoc4 (mbe_processImbe4400Data o a aout errs errs2 d st uv t)
  = then_short o aout (assoc4 (mbe_processImbe4400Dataf o a b errs errs2 d st uv t)).
Proof. exact short_imbe_data. Qed.
Print Assumptions C46_imbe_data.
Theorem C46_ambe2450_data : forall o a aout errs errs2 d st uv t b, frame_buffer b ->
  assoc4 (mbe_processAmbe2450Data o a aout errs errs2 d st uv t)
  = then_short o aout (assoc4 (mbe_processAmbe2450Dataf o a b errs errs2 d st uv t)).
Proof. exact short_ambe2450_data. Qed.
Print Assumptions C46_ambe2450_data.
Theorem C46_ambe2400_data : forall o a aout errs errs2 d st uv t b, frame_buffer b ->
  assoc4 (mbe_processAmbe2400Data o a aout errs errs2 d st uv t)
  = then_short o aout (assoc4 (mbe_processAmbe2400Dataf o a b errs errs2 d st uv t)).
Proof. exact short_ambe2400_data. Qed.
Print Assumptions C46_ambe2400_data.
Theorem C46_speech : forall o aout a cur prev uv t b, frame_buffer b ->
  assoc4 (mbe_synthesizeSpeech o aout a cur prev uv t)
  = then_short o aout (assoc4 (mbe_synthesizeSpeechf o b a cur prev uv t)).
Proof. exact short_speech. Qed.
Print Assumptions C46_speech.
Theorem C46_comfort_noise : forall o aout t b, frame_buffer b ->
  mbe_synthesizeComfortNoise o aout t = then_short o aout (mbe_synthesizeComfortNoisef b t).
Proof. exact short_comfort. Qed.
Print Assumptions C46_comfort_noise.
Theorem C46_imbe7200 : forall o a aout fr d st uv t b, frame_buffer b ->
  frame_pair (mbe_processImbe7200x4400Frame o a aout fr d st uv t)
  = then_short o aout (frame_pair (mbe_processImbe7200x4400Framef o a b fr d st uv t)).
Proof. exact short_imbe7200. Qed.
Print Assumptions C46_imbe7200.
Theorem C46_imbe7100 : forall o a aout fr d st uv t b, frame_buffer b ->
  frame_pair (mbe_processImbe7100x4400Frame o a aout fr d st uv t)
  = then_short o aout (frame_pair (mbe_processImbe7100x4400Framef o a b fr d st uv t)).
Proof. exact short_imbe7100. Qed.
Print Assumptions C46_imbe7100.
Theorem C46_ambe3600x2450 : forall o a aout fr d st uv t b, frame_buffer b ->
  frame_pair (mbe_processAmbe3600x2450Frame o a aout fr d st uv t)
  = then_short o aout (frame_pair (mbe_processAmbe3600x2450Framef o a b fr d st uv t)).
Proof. exact short_ambe3600x2450. Qed.
Print Assumptions C46_ambe3600x2450.
Theorem C46_ambe3600x2400 : forall o a aout fr d st uv t b, frame_buffer b ->
  frame_pair (mbe_processAmbe3600x2400Frame o a aout fr d st uv t)
  = then_short o aout (frame_pair (mbe_processAmbe3600x2400Framef o a b fr d st uv t)).
Proof. exact short_ambe3600x2400. Qed.
Print Assumptions C46_ambe3600x2400.

(* C46: the quality knob is ignored; so is the C0 error count where the interface has one and the code does not use it *)
Theorem C46_knob_imbe : forall o a b errs errs' errs2 d st u1 u2 t,
  mbe_processImbe4400Dataf o a b errs errs2 d st u1 t = mbe_processImbe4400Dataf o a b errs' errs2 d st u2 t.
Proof. exact (fun o a b errs errs' errs2 d st u1 u2 t => imbe_uv o a b errs2 d st u1 u2 0 false t). Qed.
Print Assumptions C46_knob_imbe.
Theorem C46_knob_ambe2450 : forall o a b errs errs' errs2 d st u1 u2 t,
  mbe_processAmbe2450Dataf o a b errs errs2 d st u1 t = mbe_processAmbe2450Dataf o a b errs' errs2 d st u2 t.
Proof. exact (fun o a b errs errs' errs2 d st u1 u2 t => ambe2450_uv o a b errs2 d st u1 u2 0 false t). Qed.
Print Assumptions C46_knob_ambe2450.
Theorem C46_knob_ambe2400 : forall o a b errs errs2 d st u1 u2 t,
  mbe_processAmbe2400Dataf o a b errs errs2 d st u1 t = mbe_processAmbe2400Dataf o a b errs errs2 d st u2 t.
Proof. exact ambe2400_uv. Qed.
Print Assumptions C46_knob_ambe2400.

Example C46_case : match mbe_synthesizeComfortNoise zero_oracle (repeat 5 160) tls0 with
  | Ok (s, _) => firstn 4 s | UB _ => [] end = [-17; 51; -16; -97].
Proof. vm_compute. reflexivity. Qed.

(* C50: for every version string and buffer of at least 32 bytes the result is the longest prefix of at most 31 bytes
   and a NUL; the rest of the buffer is not touched *)
Theorem C50_version_fits : forall version str, (32 <= length str)%nat ->
  mbe_printVersion version str = Ok (firstn 31 version ++ [0] ++ skipn (Nat.min 31 (length version) + 1) str).
Proof. exact version_spec. Qed.
Print Assumptions C50_version_fits.
Example C50_case : mbe_printVersion (repeat 65 40) (repeat 1 34) = Ok (repeat 65 31 ++ [0; 1; 1]).
Proof. vm_compute. reflexivity. Qed.
