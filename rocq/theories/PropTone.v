(* C37, C38: tone identifiers and tone phase. *)
From Coq Require Import ZArith List Bool.
From Verif Require Import Res F32 MParms MSynth MAmbe SpecEcc SpecFrame SpecTone PSpeech PTone.
Import ListNotations.
Local Open Scope Z_scope.

(* C37: an identifier is accepted exactly when tone synthesis has frequencies for it, and exactly the specified ones are *)
Theorem C37_accepted : forall d, is_bits 49 d -> exists b, ambe2450_is_valid_tone_id d = Ok b /\
  (b = true <-> exists f1 f2, mbe_lookupToneFreqs (tone_id d) = Some (f1, f2)) /\ (b = true <-> exists hz, tone_hz (tone_id d) = Some hz).
Proof. exact valid_id. Qed.
Print Assumptions C37_accepted.
(* C37: the sixteen DTMF digits have their standard frequencies *)
Theorem C37_dtmf : forall r c, (r < 4)%nat -> (c < 4)%nat -> mbe_lookupToneFreqs (key_id r c) = Some (f_of_Z (dtmf_col c), f_of_Z (dtmf_row r)).
Proof. exact dtmf. Qed.
Print Assumptions C37_dtmf.
(* digit 5 is accepted and is 1336 Hz with 770 Hz; identifier 123 is not accepted *)
Definition digit5 : list Z := repeat 1 12 ++ [1; 0; 0; 0; 0; 1; 0; 1] ++ repeat 0 29.
Definition id123 : list Z := repeat 1 12 ++ [0; 1; 1; 1; 1; 0; 1; 1] ++ repeat 0 29.
Example C37_case : is_bits 49 digit5 /\ tone_id digit5 = key_id 1 1 /\ ambe2450_is_valid_tone_id digit5 = Ok true /\
  mbe_lookupToneFreqs (tone_id digit5) = Some (f_of_Z 1336, f_of_Z 770) /\ is_bits 49 id123 /\ tone_id id123 = 123 /\ ambe2450_is_valid_tone_id id123 = Ok false.
Proof.
  unfold is_bits. split; [|split; [vm_compute; reflexivity|split; [vm_compute; reflexivity|split; [vm_compute; reflexivity|split; [|split; vm_compute; reflexivity]]]]];
  (split; [reflexivity|]; unfold digit5, id123; cbn [repeat app]; repeat (apply Forall_cons; [unfold is_bit; auto|]); apply Forall_nil).
Qed.

(* C38: n frames with one identifier are the frames of one oscillator pair, whatever their amplitudes and buffers *)
Theorem C38_frames : forall o id hz fs cur, o_tones o = true -> tone_hz id = Some hz ->
  Forall (fun x => is_bits 49 (fst x) /\ length (snd x) = 160%nat /\ tone_id (fst x) = id) fs ->
  exists cur', tone_frames o fs cur = Ok (map (fun x => tone_frame o hz (to_u32 (p_swn cur)) (to_u32 (p_un cur)) (fst x) (tone_amp (fst (snd x)))) (combine (seq 0 (length fs)) fs), cur') /\
    cur' = set_un (p_un cur') (set_swn (p_swn cur') cur) /\
    to_u32 (p_swn cur') = (to_u32 (p_swn cur) + phase_step (fst hz) * (160 * Z.of_nat (length fs))) mod 2 ^ 32.
Proof. exact tone_stream. Qed.
Print Assumptions C38_frames.
(* C38: frames of one amplitude are the first 160 n samples *)
Theorem C38_samples : forall o id hz ad fs cur, o_tones o = true -> tone_hz id = Some hz ->
  Forall (fun x => is_bits 49 (fst x) /\ length (snd x) = 160%nat /\ tone_id (fst x) = id) fs -> Forall (fun x => tone_amp (fst x) = ad) fs ->
  exists bufs cur', tone_frames o fs cur = Ok (bufs, cur') /\
    concat bufs = map (fun i => tone_sample o hz ad (to_u32 (p_swn cur)) (to_u32 (p_un cur)) (Z.of_nat i)) (seq 0 (160 * length fs)).
Proof. exact tone_samples. Qed.
Print Assumptions C38_samples.
(* C38: D-STAR single tones *)
Theorem C38_dstar : forall o id hz bufs cur, o_tones o = true -> 5 <= id <= 122 -> tone_hz id = Some hz -> Forall (fun b => length b = 160%nat) bufs ->
  exists cur', dstar_frames o id bufs cur = Ok (map (fun f => tone_frame o hz (to_u32 (p_swn cur)) (to_u32 (p_un cur)) f 103) (seq 0 (length bufs)), cur') /\
    cur' = set_un (p_un cur') (set_swn (p_swn cur') cur).
Proof. exact dstar_stream. Qed.
Print Assumptions C38_dstar.
(* 1000 Hz is identifier 32: an eighth of a turn a sample, so the phase after a frame is where it began *)
Example C38_case : tone_hz 32 = Some (100000, 0) /\ phase_step 100000 = 2 ^ 29 /\ osc_phase 5 (phase_step 100000) 7 = 5 /\ tone_hz 129 = Some (120900, 69700) /\ phase_step 120900 = 649076933.
Proof. vm_compute. repeat split. Qed.
