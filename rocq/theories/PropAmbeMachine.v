(* C19, C24, C26, C29, C39, C40, C41, C47, C51, C52, C54, C58 for AMBE: streams of frames. *)
From Coq Require Import ZArith List Bool.
From Verif Require Import Res F32 MFrame MParms MAdaptive MUnvoiced MSynth MImbe MAmbe SpecEcc SpecFrame SpecState SpecAdaptive SpecAmbe SpecImbe SpecTone SpecMachine SpecAmbeMachine PNyq PMachine PStream PAmbeMachine PAmbeStream.
Import ListNotations.
Local Open Scope Z_scope.

Definition strings (r : res (list (list f32 * list Z) * dstate * tls)) : res (list (list Z) * (Z * Z)) :=
  match r with Ok (r, st, _) => Ok (map snd r, (p_repeatCount (prev_of st), p_repeatCount (cur_of st))) | UB w => UB w end.

(* C24: what one call of either rate does, by kind of frame *)
Theorem C24_step2450 : forall o a cl st t b str st' t' c p e, ambe_ok cl -> sane_state st -> thread_ok t -> do2450 o a cl st t = Ok (b, str, st', t') ->
  begin st = (c, p, e) -> step2450 o cl c p e t b str st'.
Proof. exact step2450_only. Qed.
Print Assumptions C24_step2450.
Theorem C24_step2400 : forall o a cl st t b str st' t' c p e, ambe_ok cl -> sane_state st -> thread_ok t -> good_exp2 o R2400 -> do2400 o a cl st t = Ok (b, str, st', t') ->
  begin st = (c, p, e) -> step2400 o cl c p e t b str st'.
Proof. exact step2400_only. Qed.
Print Assumptions C24_step2400.
(* C24: the counters stay in 0..3 once an AMBE call has been made *)
Theorem C24_counts : forall r o a c cs st t s st' t', good_exp2 o r -> Forall ambe_ok (c :: cs) -> sane_state st -> foreign (prev_of st) = true -> thread_ok t ->
  ambe_stream (do_ambe r o a) (c :: cs) st t = Ok (s, st', t') -> settled st'.
Proof. exact settled_streams. Qed.
Print Assumptions C24_counts.
Theorem C24_counts_kept : forall r o a cs st t s st' t', good_exp2 o r -> Forall ambe_ok cs -> settled st -> thread_ok t ->
  ambe_stream (do_ambe r o a) cs st t = Ok (s, st', t') -> settled st' /\ thread_ok t'.
Proof. exact settled_stream. Qed.
Print Assumptions C24_counts_kept.
(* C24: up to three concealed frames in a row keep the model *)
Theorem C24_run : forall r o a cs st t s st' t', good_exp2 o r -> Forall (concealed r) cs -> sane_state st -> thread_ok t -> foreign (prev_of st) = false ->
  p_repeatCount (prev_of st) + Z.of_nat (length cs) <= 3 -> ambe_stream (do_ambe r o a) cs st t = Ok (s, st', t') ->
  map snd s = map (fun c => status (ac_errors c) [82]) cs /\ same_bands (prev_of st) (prev_of st') /\ p_repeatCount (prev_of st') = p_repeatCount (prev_of st) + Z.of_nat (length cs) /\
  sane_state st' /\ thread_ok t' /\ foreign (prev_of st') = false.
Proof. exact conceal_run. Qed.
Print Assumptions C24_run.
(* C24: the fourth is muted and resets *)
Theorem C24_four : forall r o a c1 c2 c3 c4 st t s st' t', good_exp2 o r -> Forall (concealed r) [c1; c2; c3; c4] -> sane_state st -> thread_ok t -> foreign (prev_of st) = false ->
  p_repeatCount (prev_of st) = 0 -> ambe_stream (do_ambe r o a) [c1; c2; c3; c4] st t = Ok (s, st', t') ->
  map snd s = [status (ac_errors c1) [82]; status (ac_errors c2) [82]; status (ac_errors c3) [82]; status (ac_errors c4) [82; 77]] /\ st' = start_ambe /\
  exists t3 b4 s123, s = s123 ++ [(b4, status (ac_errors c4) [82; 77])] /\ noise (ac_buf c4) t3 b4.
Proof. exact conceal_four. Qed.
Print Assumptions C24_four.
(* C24: the clause "the stored counters are equal" is false: a tone frame clears the counter of the current set only *)
Theorem C24_equal_refuted : exists o a cs t r st t', Forall ambe_ok cs /\ thread_ok t /\ ambe_stream (do2450 o a) cs start_ambe t = Ok (r, st, t') /\
  p_repeatCount (prev_of st) = 1 /\ p_repeatCount (cur_of st) = 0.
Proof. exact counters_apart. Qed.
Print Assumptions C24_equal_refuted.
Example C24_case : kind_of lost = Voice /\ needs_of lost = true /\
  strings (ambe_stream (do2450 zero_oracle 1) [lost; lost; lost; lost] start_ambe thread0) =
  Ok ([[61; 61; 61; 61; 61; 61; 82; 0]; [61; 61; 61; 61; 61; 61; 82; 0]; [61; 61; 61; 61; 61; 61; 82; 0]; [61; 61; 61; 61; 61; 61; 82; 77; 0]], (0, 0)).
Proof. vm_compute. auto. Qed.

(* C29, AMBE: at most six errors a frame keep the filtered rate in [0, 0.128] *)
Theorem C29_ambe : forall r o a cs st t s st' t', good_exp2 o r -> Forall ambe_ok cs -> Forall (fun c => ac_errors c <= 6) cs -> sane_state st -> thread_ok t ->
  rate_in (flit 128 1000) (p_errorRate (prev_of st)) -> rate_in (flit 128 1000) (p_errorRate (cur_of st)) -> ambe_stream (do_ambe r o a) cs st t = Ok (s, st', t') ->
  rate_in (flit 128 1000) (p_errorRate (prev_of st')) /\ rate_in (flit 128 1000) (p_errorRate (cur_of st')).
Proof. exact ambe_rate_stream. Qed.
Print Assumptions C29_ambe.
Example C29_ambe_case : rate_in (flit 128 1000) (p_errorRate (prev_of start_ambe)) /\ fgt (ambe_rate (flit 128 1000) 6) (flit 1279 10000) = true /\ fgt (ambe_rate (flit 128 1000) 7) (flit 128 1000) = true.
Proof. repeat split; vm_compute; reflexivity. Qed.

(* C54, AMBE: a call is defined and leaves an admissible state unless the history has 56 harmonics or the threshold is at the limit *)
Theorem C54_ambe : forall r o a cl st t, good_exp2 o r -> ambe_ok cl -> sane_state st -> thread_ok t -> threshold_room (enh_of (begin st)) ->
  (is_voice r cl -> usable_history (harmonics r (ac_bits cl)) (prev_of (begin st))) ->
  exists b str st' t', do_ambe r o a cl st t = Ok (b, str, st', t') /\ sane_state st' /\ thread_ok t' /\ length b = 160%nat.
Proof. exact ambe_defined. Qed.
Print Assumptions C54_ambe.
(* C54, AMBE: whole streams from either initialisation, about two hours, without the pitch codes of 56 harmonics *)
Theorem C54_ambe_stream : forall r o a cs st t, good_exp2 o r -> Forall ambe_ok cs -> Forall (few_bands r) cs -> thread_ok t -> st = start \/ st = start_ambe -> Z.of_nat (length cs) <= 357000 ->
  exists s st' t', ambe_stream (do_ambe r o a) cs st t = Ok (s, st', t').
Proof. exact ambe_start_total. Qed.
Print Assumptions C54_ambe_stream.
Example C54_ambe_case : Forall ambe_ok [lost; digit; erasing] /\ Forall (few_bands R2450) [lost; digit; erasing] /\ thread_ok thread0 /\ good_exp2 near_oracle R2400 /\ sane_state start_ambe.
Proof. exact ambe_case_ok. Qed.

(* C19, AMBE: refuted from initialisation, for both rates; and for every frame of 56 harmonics, state and buffer *)
Theorem C19_ambe_refuted : forall r, exists o a c t, good_exp2 o r /\ ambe_ok c /\ thread_ok t /\ ambe_stream (do_ambe r o a) [c; c] start_ambe t = UB OOB.
Proof. exact ambe_outside_witness. Qed.
Print Assumptions C19_ambe_refuted.
Theorem C19_ambe_every : forall r o a d uv buf st t, good_exp2 o r -> is_bits 49 d -> length buf = 160%nat ->
  let cl := mkambe_call d 0 0 true uv buf in
  is_voice r cl -> harmonics r d = 56 -> sane_state st -> thread_ok t -> foreign (prev_of st) = false -> p_L (prev_of st) <= 55 -> threshold_room (enh_of st) ->
  ambe_stream (do_ambe r o a) [cl; cl] st t = UB OOB.
Proof. exact ambe_outside. Qed.
Print Assumptions C19_ambe_every.

(* C26, AMBE: refuted; one error in every frame overflows the threshold in about two hours *)
Theorem C26_ambe_refuted : forall r, exists o a cs t, good_exp2 o r /\ Forall ambe_ok cs /\ thread_ok t /\ ambe_stream (do_ambe r o a) cs start_ambe t = UB Overflow.
Proof. exact ambe_overflow_witness. Qed.
Print Assumptions C26_ambe_refuted.
Theorem C26_ambe_every : forall r o a d uv buf k t, good_exp2 o r -> is_bits 49 d -> length buf = 160%nat -> is_voice r (mkambe_call d 1 0 true uv buf) -> harmonics r d <= 55 -> thread_ok t ->
  2147483647 < 20480 + 5700 * Z.of_nat k -> ambe_stream (do_ambe r o a) (repeat (mkambe_call d 1 0 true uv buf) (5 + k)) start_ambe t = UB Overflow.
Proof. exact ambe_overflow_start. Qed.
Print Assumptions C26_ambe_every.

(* C39 refuted: an error-free frame of tone 16 (500 Hz) does not give that tone, whatever the phases *)
Theorem C39_refuted : exists o a t b s st' t', do2400 o a tone16 start_ambe t = Ok (b, s, st', t') /\ forall p1 p2, b <> tone_frame o (3125 * 16, 0) p1 p2 0 103.
Proof. exact tone_lost. Qed.
Print Assumptions C39_refuted.
(* ... every frame of the tone class gives comfort noise and a reset, whatever tone synthesis wrote *)
Theorem C39_every : forall o a cl st t, ambe_ok cl -> sane_state st -> voice2400 cl = false ->
  do2400 o a cl st t = ('(b, t') <- mbe_synthesizeComfortNoisef (ac_buf cl) t ;; Ok (b, status (ac_errors cl) (marker2400 cl), start_ambe, t')).
Proof. exact tone_masked. Qed.
Print Assumptions C39_every.
Example C39_case : tone2400 (ac_bits tone16) = 16 /\ ac_errors tone16 = 0 /\ ac_c0 tone16 = 0 /\ voice2400 tone16 = false /\ tone_hz 16 = Some (50000, 0).
Proof. vm_compute. auto. Qed.

(* C40: a frame of a known tone gives the tone and leaves the voice history as it is *)
Theorem C40_history : forall o a aout n d st uvq c0 cv t c p e hz, is_bits 49 d -> length aout = 160%nat -> wf_parms (prev_of st) -> begin st = (c, p, e) -> kind2450 d n = Tone hz ->
  mbe_processAmbe2450Dataf_internal o a aout n d st uvq c0 cv t =
  Ok (tone_heard o hz (tone_amp d) c, status n [84], (tone_turned o hz c (no_repeats (with_errors n (ambe_rate (p_errorRate p) n) c)), p, e), t).
Proof. exact tone_process. Qed.
Print Assumptions C40_history.
Example C40_case : kind_of digit = Tone (133600, 77000) /\ ambe_ok digit.
Proof. exact (conj eq_refl digit_ok). Qed.

(* C41 refuted: an erasure frame and then a concealed frame leave NaN amplitudes (for a cosine with cos 0 = 1) *)
Theorem C41_refuted : exists o a cs t r st t', Forall ambe_ok cs /\ thread_ok t /\ ambe_stream (do2450 o a) cs start_ambe t = Ok (r, st, t') /\ rd (p_Ml (cur_of st)) 1 = Ok S754_nan.
Proof. exact amplitude_witness. Qed.
Print Assumptions C41_refuted.

(* C58 refuted: the local energy can become NaN *)
Theorem C58_refuted : exists o a cs t r st t', Forall ambe_ok cs /\ thread_ok t /\ ambe_stream (do2450 o a) cs start_ambe t = Ok (r, st, t') /\
  is_nan (p_localEnergy (enh_of st)) /\ foreign (prev_of st) = false /\ p_L (prev_of st) <= 55.
Proof. exact energy_witness. Qed.
Print Assumptions C58_refuted.
(* C58: then it stays NaN through any number of decoded voice frames *)
Theorem C58_stays : forall r o a cs st t s st' t', good_exp2 o r -> Forall (plain_voice r) cs -> sane_state st -> thread_ok t -> foreign (prev_of st) = false -> p_L (prev_of st) <= 55 ->
  is_nan (p_localEnergy (enh_of st)) -> ambe_stream (do_ambe r o a) cs st t = Ok (s, st', t') -> is_nan (p_localEnergy (enh_of st')).
Proof. exact nan_stays. Qed.
Print Assumptions C58_stays.
(* C58: and smoothing of frames with errors no longer changes the voicing *)
Theorem C58_blind : forall o a cur prev t cur' t', mbe_applyAdaptiveSmoothing o a cur prev t = Ok (cur', t') -> is_nan (p_localEnergy prev) ->
  fle (p_errorRate cur) (flit 5 1000) && (p_errorCountTotal cur <=? 4) = false -> p_Vl cur' = p_Vl cur /\ is_nan (p_localEnergy cur').
Proof. exact nan_blind. Qed.
Print Assumptions C58_blind.

(* C47: an AMBE call on foreign states is the call on AMBE-initialised ones; afterwards no call re-initialises *)
Theorem C47_begin : forall r o a cl st t, wf_parms (prev_of st) -> do_ambe r o a cl st t = do_ambe r o a cl (begin st) t.
Proof. exact begin_same. Qed.
Print Assumptions C47_begin.
Theorem C47_once : forall r o a cl st t b str st' t', good_exp2 o r -> ambe_ok cl -> sane_state st -> thread_ok t -> do_ambe r o a cl st t = Ok (b, str, st', t') ->
  begin st' = st' /\ (foreign (prev_of st) = true \/ ambe_threshold (prev_of st) -> ambe_threshold (prev_of st') /\ ambe_threshold (cur_of st')).
Proof. exact begin_once. Qed.
Print Assumptions C47_once.
(* C47: states in IMBE use count as foreign *)
Theorem C47_imbe : forall st, imbe_threshold st -> foreign (prev_of st) = true.
Proof. exact imbe_foreign. Qed.
Print Assumptions C47_imbe.
Example C47_case : foreign (prev_of start) = true /\ begin start = start_ambe /\ foreign (prev_of start_ambe) = false /\ start <> start_ambe.
Proof. exact begin_case. Qed.
(* C47 refuted in one case: AMBE use, then IMBE frames that are concealed, then AMBE again: the switch goes unnoticed *)
Theorem C47_refuted : exists o a ic ac t b s st t1 b1 s1 st1 t2 b2 s2 st2 t3, call_ok ic /\ ambe_ok ac /\ thread_ok t /\ imbe_do o a ic start_ambe t = Ok (b, s, st, t1) /\
  do2450 o a ac st t1 = Ok (b1, s1, st1, t2) /\ do2450 o a ac start_ambe t1 = Ok (b2, s2, st2, t3) /\ p_repeatCount (prev_of st1) = 2 /\ p_repeatCount (prev_of st2) = 1.
Proof. exact switch_missed. Qed.
Print Assumptions C47_refuted.

(* C51, process calls: none leaves a pending energy *)
Theorem C51_imbe : forall o a c st t b str st' t', call_ok c -> sane_state st -> thread_ok t -> imbe_do o a c st t = Ok (b, str, st', t') -> t_rm0_valid t' = false.
Proof. exact imbe_handoff. Qed.
Print Assumptions C51_imbe.
Theorem C51_ambe : forall r o a cs st t s st' t', good_exp2 o r -> Forall ambe_ok cs -> sane_state st -> thread_ok t -> t_rm0_valid t = false ->
  ambe_stream (do_ambe r o a) cs st t = Ok (s, st', t') -> t_rm0_valid t' = false.
Proof. exact ambe_handoff. Qed.
Print Assumptions C51_ambe.

(* C52: a 2450 voice frame is repeated exactly when three data bits were corrected in each of the two Golay words *)
Theorem C52_frame : forall o a aout fr d0 st uv t out, ambe_frame fr -> length d0 = 49%nat -> length aout = 160%nat -> sane_state st -> thread_ok t ->
  mbe_processAmbe3600x2450Framef o a aout fr d0 st uv t = Ok out ->
  exists r0 r1 r2 r3 cw0 cw1, fr = [r0; r1; r2; r3] /\ golay_word cw0 /\ hdist (skipn 1 r0) cw0 <= 3 /\
  let c1 := scramble (keybits (val (skipn 11 cw0)) 23) (firstn 23 r1) in golay_word cw1 /\ hdist c1 cw1 <= 3 /\
  fo_errs out <= 3 /\
  (kind2450 (fo_d out) (fo_errs2 out) = Voice ->
   (marked 82 (fo_str out) = true <-> hdist (skipn 12 r0) (skipn 11 cw0) = 3 /\ hdist (skipn 11 c1) (skipn 11 cw1) = 3)).
Proof. exact frame_repeats. Qed.
Print Assumptions C52_frame.
(* three data bits wrong in each word, and the same frame with one fewer *)
Definition flip (ps : list nat) (l : list Z) : list Z := map (fun p => if existsb (Nat.eqb (fst p)) ps then 1 - snd p else snd p) (combine (seq 0 (length l)) l).
Definition wrong (e0 e1 : list nat) : list (list Z) := [flip e0 (repeat 0 24); flip e1 (scramble (keybits 0 23) (repeat 0 23) ++ [0]); repeat 0 24; repeat 0 24].
Example C52_case : map (fun fr => match mbe_processAmbe3600x2450Framef zero_oracle 1 quiet fr (repeat 0 49) start_ambe 3 thread0 with
    Ok out => (kind2450 (fo_d out) (fo_errs2 out), fo_errs out, fo_errs2 out, marked 82 (fo_str out)) | UB _ => (UnknownTone, 0, 0, false) end)
  [wrong [12; 13; 14]%nat [11; 12; 13]%nat; wrong [12; 13; 14]%nat [11; 12]%nat] = [(Voice, 3, 6, true); (Voice, 3, 5, false)].
Proof. vm_compute. reflexivity. Qed.
