(* C76: tone frames sound the frequencies of their identifier. *)
From Coq Require Import ZArith Reals Lra Lia List Bool.
From Verif Require Import Res F32 MParms MSynth MAmbe MFft SpecEcc SpecFrame SpecState SpecTone SpecTrig SpecAmbe SpecMachine SpecAmbeMachine SpecEnh2 SpecWave
  PFloat PDec PArr PFftErr PIdeal PNum6 PMachine PStream PAmbeMachine PAmbeStream PWave PWave2.
Import ListNotations.
Local Open Scope R_scope.

(* C76: the samples of consecutive tone frames of one identifier and amplitude are within 0.006 + 4e-6 per sample of the sinusoids of the identifier's frequencies, with no jump of phase between frames *)
Theorem C76_frames : forall o id hz ad fs cur, o_tones o = true -> accurate_turn o -> tone_hz id = Some hz -> (0 <= ad <= 127)%Z ->
  Forall (fun x => is_bits 49 (fst x) /\ length (snd x) = 160%nat /\ tone_id (fst x) = id) fs -> Forall (fun x => tone_amp (fst x) = ad) fs ->
  exists bufs cur', tone_frames o fs cur = Ok (bufs, cur') /\ sounds hz ad (to_u32 (p_swn cur)) (to_u32 (p_un cur)) (160 * length fs) (concat bufs).
Proof. exact frames_sound. Qed.
Print Assumptions C76_frames.
(* C76: the same for consecutive D-STAR tone frames, of level 103 *)
Theorem C76_dstar : forall o id hz bufs cur, o_tones o = true -> accurate_turn o -> (5 <= id <= 122)%Z -> tone_hz id = Some hz -> Forall (fun b => length b = 160%nat) bufs ->
  exists r cur', dstar_frames o id bufs cur = Ok (r, cur') /\ sounds hz 103 (to_u32 (p_swn cur)) (to_u32 (p_un cur)) (160 * length bufs) (concat r).
Proof. exact dstar_sound. Qed.
Print Assumptions C76_dstar.
(* C76: the same for consecutive calls of the 2450 decoder with frames classified as that tone, whatever errors they report; the thread is not touched *)
Theorem C76_calls : forall o a hz ad cs st t, o_tones o = true -> accurate_turn o -> Forall (fun c => ambe_ok c /\ kind_of c = Tone hz /\ tone_amp (ac_bits c) = ad) cs -> sane_state st -> foreign (prev_of st) = false ->
  exists r st', ambe_stream (do2450 o a) cs st t = Ok (r, st', t) /\ sounds hz ad (to_u32 (p_swn (cur_of st))) (to_u32 (p_un (cur_of st))) (160 * length cs) (concat (map fst r)).
Proof. exact calls_sound. Qed.
Print Assumptions C76_calls.
(* a sinusoid of 1000 Hz at 8000 samples a second has period 8: from phase 0 it is 0 at samples 1 and 5, 1 at sample 3, -1 at sample 7 *)
Example C76_wave : sinusoid 100000 0 1 = 0 /\ sinusoid 100000 0 3 = 1 /\ sinusoid 100000 0 5 = 0 /\ sinusoid 100000 0 7 = -1 /\ tone_level 127 = 32767 * 0.95 / 7.
Proof.
  unfold sinusoid, tone_level. repeat split; [| | | |lra].
  - replace (2 * PI * _ - PI / 2) with 0 by field. apply sin_0.
  - replace (2 * PI * _ - PI / 2) with (PI / 2) by field. apply sin_PI2.
  - replace (2 * PI * _ - PI / 2) with PI by field. apply sin_PI.
  - replace (2 * PI * _ - PI / 2) with (3 * (PI / 2)) by field. apply sin_3PI2.
Qed.
(* a thousand frames of the digit 5 at full level: two sinusoids of 1336 and 770 Hz *)
Definition five : ambe_call := mkambe_call (repeat 1 12 ++ [1; 0; 0; 0; 0; 1; 0; 1] ++ repeat 0 24 ++ [1] ++ repeat 0 4)%Z 0 0 true 3 (repeat fzero 160).
Example C76_case : forall a t, exists r st', ambe_stream (do2450 (with_pffft (grid cos) (grid sin) ideal) a) (repeat five 1000) start_ambe t = Ok (r, st', t) /\
  sounds (133600, 77000)%Z 127 0 0 (160 * length (repeat five 1000)) (concat (map fst r)).
Proof.
  intros a t. refine (C76_calls (with_pffft (grid cos) (grid sin) ideal) a (133600, 77000)%Z 127 (repeat five 1000) start_ambe t eq_refl (angles_turn _ (ideal_angles _ _)) _ sane_start_ambe _).
  - apply Forall_forall. intros c Hc. apply repeat_spec in Hc. rewrite Hc. split; [|split; reflexivity].
    split; [|split; [cbn; lia|reflexivity]]. split; [reflexivity|]. apply Forall_forall. intros b Hb. unfold five, ac_bits, is_bit in *. cbn in Hb. lia.
  - reflexivity.
Qed.
