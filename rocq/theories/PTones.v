(* A build without tone synthesis differs from one with it only in the samples of tone frames and in the tone phases. *)
From Coq Require Import ZArith List Bool Lia.
From Verif Require Import Res F32 MFrame MParms MAdaptive MUnvoiced MSynth MImbe MAmbe MApi SpecEcc SpecFrame SpecState SpecAdaptive SpecGen SpecOut SpecWola SpecImbe SpecAmbe SpecEnh SpecMachine SpecTone SpecAmbeMachine SpecTone2 SpecTones
  PBase PRun PLoop PState PFloat PFloat2 PArr PAdapt PGen POut PWola PSpeech PConv PImbe PAmbeDec PAmbeDec2 PEnh PNyq PMachine PStream PTone PAmbeMachine PFrameAmbe PFrame7100 PAmbeStream PSim PSim2.
Import ListNotations.
Local Open Scope Z_scope.

Lemma decode_wt : forall o, mbe_decodeAmbe2450ParmsInternal (without_tones o) = mbe_decodeAmbe2450ParmsInternal o. Proof. reflexivity. Qed.
Lemma decode2400_wt : forall o, mbe_decodeAmbe2400Parms (without_tones o) = mbe_decodeAmbe2400Parms o. Proof. reflexivity. Qed.
Lemma enhance_wt : forall o, mbe_spectralAmpEnhance (without_tones o) = mbe_spectralAmpEnhance o. Proof. reflexivity. Qed.
Lemma unvoiced_wt : forall o, mbe_synthesizeUnvoicedFFTWithNoise (without_tones o) = mbe_synthesizeUnvoicedFFTWithNoise o. Proof. reflexivity. Qed.
Lemma speech_wt : forall o, mbe_synthesizeSpeechf (without_tones o) = mbe_synthesizeSpeechf o. Proof. reflexivity. Qed.
Lemma tone_off : forall o buf d cur, length buf = 160%nat -> mbe_synthesizeTonef (without_tones o) buf d cur = Ok (silent, cur).
Proof. intros o buf d cur L. apply synth_off; [reflexivity|exact L]. Qed.
Lemma dstar_silent : forall o buf cur id, length buf = 160%nat -> mbe_synthesizeTonefdstar (without_tones o) buf cur id = Ok (silent, cur).
Proof. intros o buf cur id L. apply dstar_off; [reflexivity|exact L]. Qed.

(* ---- calls that synthesise no tone ---- *)
Lemma imbe_wt : forall o, mbe_processImbe4400Dataf (without_tones o) = mbe_processImbe4400Dataf o. Proof. reflexivity. Qed.
Lemma imbes_wt : forall o, mbe_processImbe4400Data (without_tones o) = mbe_processImbe4400Data o. Proof. reflexivity. Qed.
Lemma f7200_wt : forall o, mbe_processImbe7200x4400Framef (without_tones o) = mbe_processImbe7200x4400Framef o. Proof. reflexivity. Qed.
Lemma f7100_wt : forall o, mbe_processImbe7100x4400Framef (without_tones o) = mbe_processImbe7100x4400Framef o. Proof. reflexivity. Qed.
Lemma s7200_wt : forall o, mbe_processImbe7200x4400Frame (without_tones o) = mbe_processImbe7200x4400Frame o. Proof. reflexivity. Qed.
Lemma s7100_wt : forall o, mbe_processImbe7100x4400Frame (without_tones o) = mbe_processImbe7100x4400Frame o. Proof. reflexivity. Qed.
Lemma decode_all_wt : forall f o, do_decode f (without_tones o) = do_decode f o. Proof. intros [] o; reflexivity. Qed.
Lemma smooth_wt : forall o, mbe_applyAdaptiveSmoothing (without_tones o) = mbe_applyAdaptiveSmoothing o. Proof. reflexivity. Qed.
Lemma speeches_wt : forall o, mbe_synthesizeSpeech (without_tones o) = mbe_synthesizeSpeech o. Proof. reflexivity. Qed.
Lemma short_wt : forall o, mbe_floattoshort (without_tones o) = mbe_floattoshort o. Proof. reflexivity. Qed.
Lemma noises_wt : forall o b t, mbe_synthesizeComfortNoise (without_tones o) b t = mbe_synthesizeComfortNoise o b t. Proof. intros. unfold mbe_synthesizeComfortNoise. now rewrite short_wt. Qed.
Lemma api_wt : forall o k h t, may_tone k = false -> api (without_tones o) k h t = api o k h t.
Proof.
  intros o k h t H. destruct k; cbn [may_tone] in H; try discriminate H; cbn [api].
  - reflexivity.
  - reflexivity.
  - reflexivity.
  - now rewrite enhance_wt.
  - now rewrite smooth_wt.
  - reflexivity.
  - reflexivity.
  - reflexivity.
  - now rewrite speech_wt.
  - now rewrite speeches_wt.
  - now rewrite decode_all_wt.
  - destruct f; try discriminate H. cbn [do_dataf]. now rewrite imbe_wt.
  - destruct f; try discriminate H. cbn [do_data]. now rewrite imbes_wt.
  - destruct f; try discriminate H; cbn [do_framef]; [now rewrite f7200_wt|now rewrite f7100_wt].
  - destruct f; try discriminate H; cbn [do_frame]; [now rewrite s7200_wt|now rewrite s7100_wt].
  - reflexivity.
  - reflexivity.
  - now rewrite noises_wt.
Qed.
Lemma run_wt : forall o s h T, Forall (fun x => may_tone (snd x) = false) s -> run (without_tones o) s h T = run o s h T.
Proof.
  intros o s. induction s as [|[i k] s IH]; intros h T H; [cbn [run]; reflexivity|]. apply Forall_cons_iff in H as [H HF]. cbn [run snd] in *. rewrite api_wt by exact H.
  destruct (api o k h (T i)) as [[[x h'] t]|w]; [|cbn [bind]; reflexivity]. cbn [bind]. rewrite IH by exact HF. reflexivity.
Qed.

(* ---- a 2450 call that is no tone ---- *)
Lemma call_wt : forall o a cl st t, ambe_ok cl -> sane_state st -> is_tone cl = false -> do2450 (without_tones o) a cl st t = do2450 o a cl st t.
Proof.
  intros o a cl st t (Hd & Hn & LB) SS NT. destruct (begin st) as [[c p] e] eqn:B. pose proof (sane_begin st SS) as SB. rewrite B in SB. destruct SB as (SC & SP & SE).
  assert (W : wf_parms (prev_of st)) by (destruct st as [[x y] z]; apply SS). unfold do2450.
  unfold is_tone, kind_of in NT. destruct (kind2450 (ac_bits cl) (ac_errors cl)) as [| |hz|] eqn:K; [| |discriminate NT|].
  - destruct (kind_cases (ac_bits cl) (ac_errors cl) Hd) as [(_ & _ & E)|[(_ & _ & E)|(NK & NE & _)]]; [destruct (tone_hz (tone_id (ac_bits cl))); congruence|congruence|].
    destruct st as [[x y] z]. cbn [prev_of] in W. unfold mbe_processAmbe2450Dataf_internal. rewrite !ensure_ok by exact W. cbn [bind]. rewrite B. cbn [bind]. rewrite entry_eq, decode_wt.
    pose proof (not_tone o (ac_bits cl) (with_errors (ac_errors cl) (ambe_rate (p_errorRate p) (ac_errors cl)) c) p (ac_errors cl)) as NB.
    destruct (mbe_decodeAmbe2450ParmsInternal o (ac_bits cl) _ p (ac_errors cl)) as [[[bad c1] p1]|u]; [|cbn [bind]; reflexivity]. pose proof (NB _ _ Hd NK NE _ eq_refl) as ->. cbn [bind].
    change (0 =? 2) with false. change ((0 =? 3) || (0 =? 7)) with false. change (0 =? 0) with true. cbv iota. unfold ambe_speak. rewrite enhance_wt, speech_wt. reflexivity.
  - rewrite !(erasure_process _ _ _ _ _ _ _ _ _ _ _ _ _ Hd W B (proj1 SP) (proj1 SC) K). reflexivity.
  - rewrite !(unknown_process _ _ _ _ _ _ _ _ _ _ _ _ _ Hd W B (proj1 SP) K). rewrite speech_wt. reflexivity.
Qed.
(* ---- any 2400 call ---- *)
Lemma not_tone2400 : forall o d cur prev c p, is_bits 49 d -> pitch2400 d < 126 -> forall bad, mbe_decodeAmbe2400Parms o d cur prev = Ok (bad, c, p) -> bad = 0.
Proof.
  intros o d cur prev c p Hd HB bad. unfold mbe_decodeAmbe2400Parms. cbv zeta. rewrite (bits_msb_ok 49) by (exact Hd || (cbn; lia) || positions). cbn [bind]. fold (pitch2400 d).
  rewrite land126 by (pose proof (pitch2400_range d Hd); lia). replace (126 <=? pitch2400 d) with false by lia.
  intro H. apply bind_inv in H as ([c1 u] & _ & H). do 7 (apply bind_inv in H as (? & _ & H)). apply bind_inv in H as ([c2 p2] & _ & H). injection H. auto.
Qed.
Lemma call2400_wt : forall o a cl st t, ambe_ok cl -> sane_state st -> do2400 (without_tones o) a cl st t = do2400 o a cl st t.
Proof.
  intros o a cl st t HC SS. destruct (voice2400 cl) eqn:V; [|rewrite !tone_masked by assumption; reflexivity].
  destruct HC as (Hd & Hn & LB). unfold voice2400 in V. destruct (begin st) as [[c p] e] eqn:B. pose proof (sane_begin st SS) as SB. rewrite B in SB. destruct SB as (SC & SP & SE).
  assert (W : wf_parms (prev_of st)) by (destruct st as [[x y] z]; apply SS). unfold do2400.
  destruct st as [[x y] z]. cbn [prev_of] in W. unfold mbe_processAmbe2400Dataf. rewrite !ensure_ok by exact W. cbn [bind]. rewrite B. cbn [bind]. rewrite entry_eq, decode2400_wt.
  destruct (mbe_decodeAmbe2400Parms o (ac_bits cl) _ p) as [[[bad c1] p1]|u] eqn:HD; [|cbn [bind]; reflexivity].
  apply not_tone2400 in HD; [|exact Hd|lia]. subst bad. cbn [bind]. change (0 =? 2) with false. change (0 =? 3) with false. change (7 <=? 0) with false. change (0 =? 0) with true. cbn [andb]. cbv iota.
  unfold ambe_speak. rewrite enhance_wt, speech_wt. reflexivity.
Qed.

(* ---- a stream of 2450 calls ---- *)
Definition off_one (cl : ambe_call) (x y : list f32 * list Z * dstate * tls) : Prop :=
  let '(b, s, st, t) := x in let '(b', s', st', t') := y in b' = (if is_tone cl then silent else b) /\ s' = s /\ sane_pair st st' /\ thread_ok t /\ t = t'.
Lemma one_off : forall o a cl st st' t, ambe_ok cl -> thread_ok t -> sane_pair st st' -> both (off_one cl) (do2450 o a cl st t) (do2450 (without_tones o) a cl st' t).
Proof.
  intros o a cl st st' t HC TH (S1 & S2 & FO & SS).
  assert (FO' : foreign (prev_of st') = false). { destruct st as [[c p] e], st' as [[c' p'] e']. destruct SS as (_ & HP & _). cbn [prev_of] in *. rewrite <- (foreign_sim _ _ HP). exact FO. }
  assert (KEEP : forall o st b s x t1, sane_state st -> do2450 o a cl st t = Ok (b, s, x, t1) -> sane_state x /\ thread_ok t1 /\ foreign (prev_of x) = false).
  { clear - HC TH. intros o st b s x t1 S1 H. assert (H' : do_ambe R2450 o a cl st t = Ok (b, s, x, t1)) by exact H.
    destruct (ambe_step R2450 _ _ _ _ _ _ _ _ _ I HC S1 TH H') as (Q1 & Q2 & _). split; [exact Q1|]. split; [exact Q2|].
    destruct (begin_once R2450 _ _ _ _ _ _ _ _ _ I HC S1 TH H') as [Q3 _]. rewrite <- Q3. apply begin_ours. }
  destruct (is_tone cl) eqn:T.
  - pose proof T as T'. unfold is_tone in T. destruct (kind_of cl) as [| |hz|] eqn:K; try discriminate T. destruct HC as (Hd & Hn & LB).
    destruct st as [[c p] e], st' as [[c' p'] e']. destruct SS as (HC & HP & HE).
    pose proof (tone_process o a (ac_buf cl) (ac_errors cl) (ac_bits cl) (c, p, e) (ac_uv cl) (ac_c0 cl) (ac_known cl) t c p e hz Hd LB (proj1 (proj1 (proj2 S1))) (begin_own _ FO) K) as E1.
    pose proof (tone_process (without_tones o) a (ac_buf cl) (ac_errors cl) (ac_bits cl) (c', p', e') (ac_uv cl) (ac_c0 cl) (ac_known cl) t c' p' e' hz Hd LB (proj1 (proj1 (proj2 S2))) (begin_own _ FO') K) as E2.
    fold (do2450 o a cl (c, p, e) t) in E1. fold (do2450 (without_tones o) a cl (c', p', e') t) in E2. rewrite E1, E2. constructor. unfold off_one. rewrite T'. split; [reflexivity|]. split; [reflexivity|].
    destruct (KEEP _ _ _ _ _ _ S1 E1) as (Q1 & Q2 & Q3). destruct (KEEP _ _ _ _ _ _ S2 E2) as (Q4 & _). split; [|auto]. split; [exact Q1|]. split; [exact Q4|]. split; [exact Q3|]. cbn [sim_state]. split; [|auto].
    eapply before_trans; [apply before_turned|]. eapply before_trans; [apply before_idle|]. eapply before_trans; [apply before_errors|]. apply before_sym.
    eapply before_trans; [apply before_turned|]. eapply before_trans; [apply before_idle|]. eapply before_trans; [apply before_errors|]. apply before_sym, HC.
  - rewrite call_wt by assumption. pose proof (KEEP o st) as KA. pose proof (KEEP o st') as KB. unfold off_one. rewrite T.
    destruct (call_sim o a cl st st' t HC S1 S2 FO SS T) as [[[[b s] x] t1] [[[b' s'] x'] t1'] (Q1 & Q2 & Q3 & Q4)|w]; [|constructor]. constructor. split; [congruence|]. split; [congruence|].
    destruct (KA _ _ _ _ S1 eq_refl) as (R1 & R2 & R3). destruct (KB _ _ _ _ S2 eq_refl) as (R4 & _). split; [|auto]. split; [exact R1|]. auto.
Qed.
Definition off_all (cs : list ambe_call) (x y : list (list f32 * list Z) * dstate * tls) : Prop :=
  let '(r, st, t) := x in let '(r', st', t') := y in Forall silenced (combine cs (combine r r')) /\ length r = length cs /\ length r' = length cs /\ sane_pair st st' /\ thread_ok t /\ t = t'.
Lemma stream_off : forall o a cs st st' t, Forall ambe_ok cs -> thread_ok t -> sane_pair st st' -> both (off_all cs) (ambe_stream (do2450 o a) cs st t) (ambe_stream (do2450 (without_tones o) a) cs st' t).
Proof.
  intros o a. induction cs as [|c cs IH]; intros st st' t HF TH SP; cbn [ambe_stream].
  - constructor. unfold off_all. cbn [combine length]. split; [constructor|]. split; [reflexivity|]. split; [reflexivity|]. auto.
  - inversion HF as [|x xs Hc HF']; subst. eapply both_bind; [apply one_off; assumption|]. intros [[[b s] x] t1] [[[b' s'] x'] t1'] (A1 & A2 & A3 & A4 & <-).
    eapply both_bind; [apply IH; assumption|]. intros [[r y] t2] [[r' y'] t2'] (B1 & B2 & B3 & B4 & B5 & <-). constructor. unfold off_all. cbn [combine length]. split; [constructor; [split; assumption|exact B1]|].
    split; [congruence|]. split; [congruence|]. auto.
Qed.
Lemma same_voice_refl : forall st, same_voice st st.
Proof. intros st. repeat split. Qed.
Lemma tones_off : forall o a cs st t, Forall ambe_ok cs -> sane_state st -> thread_ok t ->
  match ambe_stream (do2450 o a) cs st t, ambe_stream (do2450 (without_tones o) a) cs st t with
  | Ok (r, st1, t1), Ok (r', st2, t2) => Forall silenced (combine cs (combine r r')) /\ length r = length cs /\ length r' = length cs /\ same_voice st1 st2 /\ t1 = t2
  | UB w, UB w' => w = w'
  | _, _ => False
  end.
Proof.
  intros o a cs st t HF SS TH. destruct cs as [|c cs]. { cbn [ambe_stream]. repeat split; constructor. }
  assert (E : forall o, ambe_stream (do2450 o a) (c :: cs) st t = ambe_stream (do2450 o a) (c :: cs) (begin st) t).
  { intros o'. cbn [ambe_stream]. pose proof (begin_same R2450 o' a c st t) as Q. cbn [do_ambe] in Q. rewrite Q; [reflexivity|]. destruct st as [[x y] z]. apply SS. }
  rewrite !E. destruct (stream_off o a (c :: cs) _ _ t HF TH (sane_begin_pair st SS)) as [[[r st1] t1] [[r' st2] t2] (A1 & A2 & A3 & (_ & _ & _ & A4) & _ & A6)|w]; [|reflexivity].
  split; [exact A1|]. split; [exact A2|]. split; [exact A3|]. split; [apply sim_voice, A4|exact A6].
Qed.
Lemma stream2400_wt : forall o a cs st t, good_exp2 o R2400 -> Forall ambe_ok cs -> sane_state st -> thread_ok t -> ambe_stream (do2400 (without_tones o) a) cs st t = ambe_stream (do2400 o a) cs st t.
Proof.
  intros o a cs. induction cs as [|c cs IH]; intros st t GX HF SS TH; [cbn [ambe_stream]; reflexivity|]. inversion HF as [|x xs Hc HF']; subst. cbn [ambe_stream]. rewrite call2400_wt by assumption.
  destruct (do2400 o a c st t) as [[[[b s] x] t1]|w] eqn:H; [|cbn [bind]; reflexivity]. cbn [bind]. destruct (ambe_step R2400 _ _ _ _ _ _ _ _ _ GX Hc SS TH H) as (Q1 & Q2 & _). rewrite IH by assumption. reflexivity.
Qed.
