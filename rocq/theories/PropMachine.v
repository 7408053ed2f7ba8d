(* C19, C23, C25, C26, C29, C54, C57 for IMBE: streams of frames. *)
From Coq Require Import ZArith List Bool.
From Verif Require Import Res F32 MParms MAdaptive MImbe MUnvoiced MSynth SpecEcc SpecFrame SpecState SpecAdaptive SpecGen SpecWola SpecImbe SpecMachine PSpeech PMachine PStream PRange.
Import ListNotations.
Local Open Scope Z_scope.

Definition t0 : tls := mktls 0 0 false (S754_zero false) false None 0 false.
Definition silence : list f32 := repeat (S754_zero false) 160.
(* pitch code 0 (9 harmonics), no errors; pitch code 255 (invalid) *)
Definition good : imbe_call := mkimbe_call (repeat 0 88) 0 0 true 3 silence.
Definition bad : imbe_call := mkimbe_call (repeat 1 88) 0 0 true 3 silence.
Definition strings (r : res (list (list f32 * list Z) * dstate * tls)) : res (list (list Z) * Z) :=
  match r with Ok (r, st, _) => Ok (map snd r, p_repeatCount (prev_of st)) | UB w => UB w end.

(* C23: one call; the frame is marked R exactly when it needs concealment, the counter moves as specified, M exactly
   when the counter is 4 or the rate is over the threshold *)
Theorem C23_step : forall o a c st t b str st' t', call_ok c -> sane_state st -> thread_ok t -> imbe_do o a c st t = Ok (b, str, st', t') ->
  let prev := prev_of st in
  let need := imbe_needs (ic_bits c) (ic_errors c) (imbe_rate (p_errorRate prev) (ic_errors c)) (context (ic_c0 c) (ic_c0_known c)) in
  sane_state st' /\ thread_ok t' /\ marked 82 str = need /\ p_repeatCount (prev_of st') = next_count need (p_repeatCount prev) /\
  marked 77 str = (4 <=? p_repeatCount (prev_of st')) || fgt (p_errorRate (prev_of st')) (p_mutingThreshold (prev_of st')).
Proof.
  intros o a c st t b str st' t' Hc SS TH H. destruct (imbe_step _ _ _ _ _ _ _ _ _ Hc SS TH H) as (A & B & C & _ & _ & _ & _ & _ & _ & _ & _ & _ & D & E & _).
  exact (conj A (conj B (conj D (conj C E)))).
Qed.
Print Assumptions C23_step.
(* C23: with the IMBE threshold in place it stays, and a frame marked M is comfort noise *)
Theorem C23_muted : forall o a c st t b str st' t', call_ok c -> sane_state st -> thread_ok t -> imbe_threshold st -> imbe_do o a c st t = Ok (b, str, st', t') ->
  imbe_threshold st' /\ (marked 77 str = true -> exists t1, mbe_synthesizeComfortNoisef (ic_buf c) t = Ok (b, t1)).
Proof. exact imbe_noise. Qed.
Print Assumptions C23_muted.
(* C23: over a whole history the counter is the one its status strings tell, and stays in 0..4 *)
Theorem C23_history : forall o a cs st t r st' t', Forall call_ok cs -> sane_state st -> thread_ok t -> imbe_stream o a cs st t = Ok (r, st', t') ->
  sane_state st' /\ thread_ok t' /\ p_repeatCount (prev_of st') = count_after (p_repeatCount (prev_of st)) (map snd r) /\ length r = length cs.
Proof. exact imbe_stream_counts. Qed.
Print Assumptions C23_history.
Theorem C23_range : forall o a cs st t r st' t', Forall call_ok cs -> sane_state st -> thread_ok t -> imbe_stream o a cs st t = Ok (r, st', t') ->
  0 <= p_repeatCount (prev_of st') <= 4.
Proof. exact imbe_stream_range. Qed.
Print Assumptions C23_range.
(* C23: frames marked R throughout count modulo 5 *)
Theorem C23_cycle : forall o a cs st t r st' t', Forall call_ok cs -> sane_state st -> thread_ok t -> imbe_stream o a cs st t = Ok (r, st', t') ->
  Forall (fun x => marked 82 (snd x) = true) r -> p_repeatCount (prev_of st') = (p_repeatCount (prev_of st) + Z.of_nat (length cs)) mod 5.
Proof. exact imbe_stream_cycle. Qed.
Print Assumptions C23_cycle.
Example C23_case : strings (imbe_stream zero_oracle 1 [good; bad; bad; bad; bad; bad] start t0) = Ok ([[0]; [82; 0]; [82; 0]; [82; 0]; [82; 77; 0]; [82; 0]], 0).
Proof. vm_compute. reflexivity. Qed.

(* C54, IMBE: a call is defined and leaves an admissible state unless the history has 56 harmonics or the threshold is at the limit *)
Theorem C54_imbe : forall o a c st t, call_ok c -> sane_state st -> thread_ok t -> threshold_room (enh_of st) ->
  (pitch7200 (ic_bits c) <= 207 -> usable_history (imbe_harmonics (pitch7200 (ic_bits c))) (prev_of st)) ->
  exists b str st' t', imbe_do o a c st t = Ok (b, str, st', t') /\ sane_state st' /\ thread_ok t' /\ length b = 160%nat.
Proof. exact imbe_defined. Qed.
Print Assumptions C54_imbe.
(* C54, IMBE: whole streams from initialisation, about two hours, without the pitch codes of 56 harmonics *)
Theorem C54_imbe_stream : forall o a cs t, Forall call_ok cs -> Forall few_harmonics cs -> thread_ok t -> Z.of_nat (length cs) <= 357000 ->
  exists r st' t', imbe_stream o a cs start t = Ok (r, st', t').
Proof. exact imbe_start_total. Qed.
Print Assumptions C54_imbe_stream.
Example C54_case : Forall call_ok [good; bad] /\ Forall few_harmonics [good; bad] /\ thread_ok t0 /\ sane_state start.
Proof. exact case_ok. Qed.

(* C19 refuted: a frame of 56 harmonics twice in a row reads outside the amplitude history, straight after initialisation *)
Theorem C19_refuted : exists o a c t, call_ok c /\ thread_ok t /\ imbe_stream o a [c; c] start t = UB OOB.
Proof. exact outside_witness. Qed.
Print Assumptions C19_refuted.
(* ... and so for every state, sample buffer and oracle *)
Theorem C19_every : forall o a d buf st t, is_bits 88 d -> 204 <= pitch7200 d <= 207 -> length buf = 160%nat -> sane_state st -> thread_ok t -> p_L (prev_of st) <= 55 ->
  threshold_room (enh_of st) -> imbe_stream o a [mkimbe_call d 0 0 true 3 buf; mkimbe_call d 0 0 true 3 buf] st t = UB OOB.
Proof. exact outside_stream. Qed.
Print Assumptions C19_every.

(* C25 refuted: after AMBE use a concealed IMBE frame carries the AMBE threshold *)
Theorem C25_refuted : exists o a c t b str st' t', call_ok c /\ thread_ok t /\ imbe_do o a c start_ambe t = Ok (b, str, st', t') /\
  p_mutingThreshold (cur_of st') <> flit 875 10000 /\ p_mutingThreshold (cur_of st') = flit 96 1000.
Proof. exact threshold_witness. Qed.
Print Assumptions C25_refuted.
(* C25, what holds: the threshold is the IMBE one after every frame that is not concealed, and over every IMBE stream that starts with it.
   Missing: frames concealed from a state with another threshold keep that threshold. *)
Theorem C25_partial : forall o a c st t b str st' t', call_ok c -> sane_state st -> thread_ok t -> imbe_do o a c st t = Ok (b, str, st', t') ->
  marked 82 str = false \/ imbe_threshold st -> p_mutingThreshold (cur_of st') = flit 875 10000 /\ imbe_threshold st'.
Proof. exact threshold_partial. Qed.
Print Assumptions C25_partial.
Theorem C25_stream_partial : forall o a cs st t r st' t', Forall call_ok cs -> sane_state st -> thread_ok t -> imbe_threshold st ->
  imbe_stream o a cs st t = Ok (r, st', t') -> imbe_threshold st'.
Proof. exact threshold_stream. Qed.
Print Assumptions C25_stream_partial.
Example C25_case : imbe_threshold start /\ ~ imbe_threshold start_ambe.
Proof. split; [reflexivity|vm_compute; discriminate]. Qed.

(* C26 refuted: seven errors in every frame, none of them in the first code word, overflow the threshold in about three hours *)
Theorem C26_refuted : exists o a cs t, Forall call_ok cs /\ thread_ok t /\ imbe_stream o a cs start t = UB Overflow.
Proof. exact overflow_witness. Qed.
Print Assumptions C26_refuted.
(* ... for every frame content, state, buffer and oracle *)
Theorem C26_every : forall o a d buf k st t, is_bits 88 d -> pitch7200 d < 204 -> length buf = 160%nat -> sane_state st -> thread_ok t -> p_L (prev_of st) <= 55 ->
  0 < p_amplitudeThreshold (enh_of st) <= 2147483647 -> 2147483647 < p_amplitudeThreshold (enh_of st) + 3900 * Z.of_nat k ->
  imbe_stream o a (repeat (mkimbe_call d 7 0 true 3 buf) k) st t = UB Overflow.
Proof. exact overflow_stream. Qed.
Print Assumptions C26_every.

(* C29, IMBE: at most 15 errors a frame keep the filtered rate in [0, 0.11] *)
Theorem C29_imbe : forall o a cs st t r st' t', Forall call_ok cs -> Forall (fun c => ic_errors c <= 15) cs -> sane_state st -> thread_ok t ->
  rate_in (flit 11 100) (p_errorRate (prev_of st)) -> imbe_stream o a cs st t = Ok (r, st', t') -> rate_in (flit 11 100) (p_errorRate (prev_of st')).
Proof. exact imbe_rate_stream. Qed.
Print Assumptions C29_imbe.
Example C29_case : rate_in (flit 11 100) (p_errorRate (prev_of start)) /\ fgt (imbe_rate (flit 11 100) 15) (flit 1099 10000) = true /\ fgt (imbe_rate (flit 11 100) 16) (flit 11 100) = true.
Proof. repeat split; vm_compute; reflexivity. Qed.

(* C56: a concealed frame keeps the pitch, voicing and amplitudes of the frame before, also over a run of them *)
Theorem C56_frame : forall o a c st t b str st' t', call_ok c -> sane_state st -> imbe_do o a c st t = Ok (b, str, st', t') ->
  marked 82 str = true -> p_repeatCount (prev_of st) < 4 -> same_model (prev_of st) (prev_of st').
Proof. exact imbe_reuse. Qed.
Print Assumptions C56_frame.
Theorem C56_run : forall o a cs st t r st' t', Forall call_ok cs -> sane_state st -> thread_ok t -> imbe_stream o a cs st t = Ok (r, st', t') ->
  Forall (fun x => marked 82 (snd x) = true) r -> p_repeatCount (prev_of st) + Z.of_nat (length cs) <= 4 -> same_model (prev_of st) (prev_of st').
Proof. exact imbe_reuse_stream. Qed.
Print Assumptions C56_run.
(* a concealed first frame keeps the 39 harmonics of initialisation where a decoded one has 9 *)
Example C56_case : map (fun c => match imbe_do zero_oracle 1 c start t0 with Ok (_, s, st, _) => (s, p_L (prev_of st)) | UB _ => ([], 0) end) [bad; good] = [([82; 0], 39); ([0], 9)].
Proof. vm_compute. reflexivity. Qed.

(* C57, what holds: a synthesised frame advances the generator by 160 draws from the seed it starts with, which after a decoded frame is
   the one the frame before left.  Missing: a concealed frame starts from the seed the frame before started with. *)
Theorem C57_partial : forall o a c st t b str st' t', call_ok c -> sane_state st -> thread_ok t -> imbe_do o a c st t = Ok (b, str, st', t') ->
  speech_muted (prev_of st') = false ->
  (marked 82 str = false -> seed_after (p_noiseSeed (cur_of st)) t (p_noiseSeed (cur_of st'))) /\
  (marked 82 str = true -> p_repeatCount (prev_of st) < 4 -> seed_after (p_noiseSeed (prev_of st)) t (p_noiseSeed (cur_of st'))).
Proof. exact noise_partial. Qed.
Print Assumptions C57_partial.
(* C57 refuted: after two decoded frames a concealed one leaves the generator where it was *)
Theorem C57_refuted : exists o a cs c t r st t' b str st' t'', Forall call_ok cs /\ call_ok c /\ thread_ok t /\ imbe_stream o a cs start t = Ok (r, st, t') /\
  imbe_do o a c st t' = Ok (b, str, st', t'') /\ marked 77 str = false /\ p_noiseSeed (cur_of st') = p_noiseSeed (cur_of st) /\
  ~ seed_after (p_noiseSeed (cur_of st)) t' (p_noiseSeed (cur_of st')).
Proof. exact noise_witness. Qed.
Print Assumptions C57_refuted.
