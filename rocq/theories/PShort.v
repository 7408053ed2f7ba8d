(* The 16-bit entry points: the float entry points overwrite their whole buffer, so the contents of the caller's (or
   the stack's) buffer never matter. *)
From Coq Require Import ZArith List Bool Lia.
From Verif Require Import Res F32 MFrame MParms MAdaptive MUnvoiced MSynth MImbe MAmbe PRun.
Import ListNotations.
Local Open Scope Z_scope.

Definition frame_buffer {A} (b : list A) : Prop := length b = 160%nat.

Lemma comfort_buffer : forall b c t, frame_buffer b -> frame_buffer c ->
  mbe_synthesizeComfortNoisef b t = mbe_synthesizeComfortNoisef c t.
Proof.
  intros b c t Hb Hc. apply res_rel_eq. unfold mbe_synthesizeComfortNoisef.
  apply (res_rel_mono (fun x y => agree 160 160 (fst x) (fst y) /\ snd x = snd y)).
  - intros [x u] [y v] [H1 H2]. cbn [fst snd] in *. apply (agree_end 160) in H1. congruence.
  - apply (for_up_rel (fun k x y => agree 160 k (fst x) (fst y) /\ snd x = snd y)); [lia| |].
    + intros k [x u] [y v] Hk [H1 H2]. cbn [fst snd] in *. subst v. destruct (mbe_java_random_next_bits 24 u) as [u' s].
      apply (bind_rel (agree 160 (k + 1))); [apply agree_wr; [exact H1|lia]|]. intros p q Hpq. split; [exact Hpq|reflexivity].
    + split; [apply agree_start; assumption|reflexivity].
Qed.

Lemma silence_buffer : forall b c, frame_buffer b -> frame_buffer c -> mbe_synthesizeSilencef b = mbe_synthesizeSilencef c.
Proof.
  intros b c Hb Hc. apply res_rel_eq. unfold mbe_synthesizeSilencef.
  apply (res_rel_mono (agree 160 160)); [intros x y H; exact (agree_end 160 _ _ H)|].
  apply (for_up_rel (agree 160)); [lia| |apply agree_start; assumption].
  intros k x y Hk H. apply agree_wr; [exact H|lia].
Qed.

Lemma render_buffer : forall o b c cur f1 f2 ad, frame_buffer b -> frame_buffer c ->
  mbe_renderTonef o b cur f1 f2 ad = mbe_renderTonef o c cur f1 f2 ad.
Proof.
  intros o b c cur f1 f2 ad Hb Hc. unfold mbe_renderTonef. destruct (fle f1 fzero).
  - now rewrite (silence_buffer b c Hb Hc).
  - destruct (mbe_tonePhaseStep (f2d f1)) as [s1|w]; [|reflexivity]. cbn [bind].
    destruct (if is_dual f1 f2 then mbe_tonePhaseStep (f2d f2) else Ok 0) as [s2|w]; [|reflexivity]. cbn [bind].
    apply res_rel_eq. eapply bind_rel.
    + apply (for_up_rel (fun k x y => agree 160 k (fst (fst x)) (fst (fst y)) /\ snd (fst x) = snd (fst y) /\ snd x = snd y));
        [lia| |].
      * intros k [[x p] q] [[y r] s] Hk (H1 & H2 & H3). cbn [fst snd] in *. subst r s. cbv zeta. destruct (is_dual f1 f2).
        -- eapply bind_rel; [apply agree_wr; [exact H1|lia]|]. intros u v Huv. cbn. repeat split; try reflexivity; apply Huv.
        -- eapply bind_rel; [apply agree_wr; [exact H1|lia]|]. intros u v Huv. cbn. repeat split; try reflexivity; apply Huv.
      * cbn [fst snd]. repeat split; try assumption. intros i Hi. lia.
    + intros [[x p] q] [[y r] s] (H1 & H2 & H3). cbn [fst snd] in *. apply (agree_end 160) in H1. subst. reflexivity.
Qed.

Lemma tone_buffer : forall o b c d cur, frame_buffer b -> frame_buffer c ->
  mbe_synthesizeTonef o b d cur = mbe_synthesizeTonef o c d cur.
Proof.
  intros o b c d cur Hb Hc. unfold mbe_synthesizeTonef. destruct (negb (o_tones o)); [now rewrite (silence_buffer b c Hb Hc)|].
  destruct (load_field d 0 12) as [u0|w]; [|reflexivity]. cbn [bind].
  destruct (load_field d 12 24) as [u1|w]; [|reflexivity]. cbn [bind].
  destruct (load_field d 24 35) as [u2|w]; [|reflexivity]. cbn [bind].
  destruct (load_field d 35 49) as [u3|w]; [|reflexivity]. cbn [bind]. cbv zeta.
  destruct (mbe_lookupToneFreqs (Z.shiftr (Z.land u1 4095) 4)) as [[f1 f2]|].
  - apply render_buffer; assumption.
  - now rewrite (silence_buffer b c Hb Hc).
Qed.

Lemma dstar_buffer : forall o b c cur id, frame_buffer b -> frame_buffer c ->
  mbe_synthesizeTonefdstar o b cur id = mbe_synthesizeTonefdstar o c cur id.
Proof.
  intros o b c cur id Hb Hc. unfold mbe_synthesizeTonefdstar. destruct (negb (o_tones o)); [now rewrite (silence_buffer b c Hb Hc)|]. cbv zeta. destruct (fle (dstar_freq id) fzero).
  - now rewrite (silence_buffer b c Hb Hc).
  - apply render_buffer; assumption.
Qed.

Lemma bind_eq : forall {A B} (x : res A) (f g : A -> res B), (forall a, f a = g a) -> bind x f = bind x g.
Proof. intros A B [a|w] f g H; [apply H|reflexivity]. Qed.

Lemma zero_fill_buffer : forall b c, frame_buffer b -> frame_buffer c ->
  for_up 0 160 (fun i a => wr a i fzero) b = for_up 0 160 (fun i a => wr a i fzero) c.
Proof. exact silence_buffer. Qed.

Lemma speech_buffer : forall o b c a cur prev uv t, frame_buffer b -> frame_buffer c ->
  mbe_synthesizeSpeechf o b a cur prev uv t = mbe_synthesizeSpeechf o c a cur prev uv t.
Proof.
  intros o b c a cur prev uv t Hb Hc. unfold mbe_synthesizeSpeechf. apply bind_eq. intros [cur1 t1].
  destruct (speech_muted cur1).
  - now rewrite (comfort_buffer b c t1 Hb Hc).
  - apply bind_eq. intros [[[noise seed] ov] t2]. cbv zeta. apply bind_eq. intros n.
    rewrite (zero_fill_buffer b c Hb Hc). reflexivity.
Qed.

Lemma imbe_buffer : forall o a b c errs2 d st uv c0 cv t, frame_buffer b -> frame_buffer c ->
  mbe_processImbe4400Dataf_withC0 o a b errs2 d st uv c0 cv t = mbe_processImbe4400Dataf_withC0 o a c errs2 d st uv c0 cv t.
Proof.
  intros o a b c errs2 d [[cur prev] enh] uv c0 cv t Hb Hc. unfold mbe_processImbe4400Dataf_withC0.
  apply bind_eq. intros [[[cur1 prev1] rep] mut]. cbv zeta. apply bind_eq. intros [cur2 t2].
  rewrite (speech_buffer o b c _ _ _ _ _ Hb Hc). reflexivity.
Qed.

Lemma speak_buffer : forall o a b c cur enh uv t, frame_buffer b -> frame_buffer c ->
  ambe_speak o a b cur enh uv t = ambe_speak o a c cur enh uv t.
Proof.
  intros o a b c cur enh uv t Hb Hc. unfold ambe_speak. cbv zeta. apply bind_eq. intros [cur2 t2].
  rewrite (speech_buffer o b c _ _ _ _ _ Hb Hc). reflexivity.
Qed.

Lemma noise_reset_buffer : forall b c st t, frame_buffer b -> frame_buffer c ->
  ambe_noise_reset b st t = ambe_noise_reset c st t.
Proof.
  intros b c [[cur prev] enh] t Hb Hc. unfold ambe_noise_reset. rewrite (comfort_buffer b c t Hb Hc). reflexivity.
Qed.

Lemma ambe2450_buffer : forall o a b c errs2 d st uv c0 cv t, frame_buffer b -> frame_buffer c ->
  mbe_processAmbe2450Dataf_internal o a b errs2 d st uv c0 cv t = mbe_processAmbe2450Dataf_internal o a c errs2 d st uv c0 cv t.
Proof.
  intros o a b c errs2 d [[cur prev] enh] uv c0 cv t Hb Hc. unfold mbe_processAmbe2450Dataf_internal.
  apply bind_eq. intros [[cur1 prev1] enh1]. cbv zeta. apply bind_eq. intros [[bad cur2] prev2].
  apply bind_eq. intros [cur3 mark]. f_equal.
  destruct (bad =? 0).
  - destruct (p_repeat cur3 <=? 3).
    + rewrite (speak_buffer o a b c _ _ _ _ Hb Hc). reflexivity.
    + rewrite (noise_reset_buffer b c _ _ Hb Hc). reflexivity.
  - destruct (bad =? 7).
    + apply bind_eq. intros valid. destruct valid.
      * rewrite (tone_buffer o b c _ _ Hb Hc). reflexivity.
      * destruct (negb (mbe_isMaxFrameRepeat prev2)).
        -- rewrite (speech_buffer o b c _ _ _ _ _ Hb Hc). reflexivity.
        -- rewrite (noise_reset_buffer b c _ _ Hb Hc). reflexivity.
    + destruct (bad =? 2).
      * rewrite (comfort_buffer b c _ Hb Hc). reflexivity.
      * rewrite (noise_reset_buffer b c _ _ Hb Hc). reflexivity.
Qed.

(* the tone synthesis keeps the buffer length *)
Lemma silence_length : forall b b', mbe_synthesizeSilencef b = Ok b' -> length b' = length b.
Proof.
  intros b b' H. unfold mbe_synthesizeSilencef in H.
  apply (for_up_inv0 (fun x => length x = length b) _ _ _ _ _) in H; [exact H| |reflexivity].
  intros k s1 s2 _ H1 H2. apply wr_length in H2. congruence.
Qed.

Lemma render_length : forall o b cur f1 f2 ad b' cur', mbe_renderTonef o b cur f1 f2 ad = Ok (b', cur') -> length b' = length b.
Proof.
  intros o b cur f1 f2 ad b' cur' H. unfold mbe_renderTonef in H. destruct (fle f1 fzero).
  - apply bind_inv in H as (x & Hx & H). injection H as <- _. exact (silence_length _ _ Hx).
  - cbv zeta in H. apply bind_inv in H as (s1 & _ & H). apply bind_inv in H as (s2 & _ & H).
    apply bind_inv in H as ([[x p] q] & Hx & H). injection H as <- _.
    apply (for_up_inv0 (fun z => length (fst (fst z)) = length b) _ _ _ _ _) in Hx; [exact Hx| |reflexivity].
    intros k [[y r] s] [[z u] v] _ H1 H2. cbn [fst] in *. destruct (is_dual f1 f2).
    + apply bind_inv in H2 as (w & Hw & H2). injection H2 as <- _ _. apply wr_length in Hw. congruence.
    + apply bind_inv in H2 as (w & Hw & H2). injection H2 as <- _ _. apply wr_length in Hw. congruence.
Qed.

Lemma dstar_length : forall o b cur id b' cur', mbe_synthesizeTonefdstar o b cur id = Ok (b', cur') -> length b' = length b.
Proof.
  intros o b cur id b' cur' H. unfold mbe_synthesizeTonefdstar in H. destruct (negb (o_tones o)).
  { apply bind_inv in H as (x & Hx & H). injection H as <- _. exact (silence_length _ _ Hx). }
  cbv zeta in H. destruct (fle (dstar_freq id) fzero).
  - apply bind_inv in H as (x & Hx & H). injection H as <- _. exact (silence_length _ _ Hx).
  - exact (render_length _ _ _ _ _ _ _ _ H).
Qed.

Lemma ambe2400_buffer : forall o a b c errs errs2 d st uv t, frame_buffer b -> frame_buffer c ->
  mbe_processAmbe2400Dataf o a b errs errs2 d st uv t = mbe_processAmbe2400Dataf o a c errs errs2 d st uv t.
Proof.
  intros o a b c errs errs2 d [[cur prev] enh] uv t Hb Hc. unfold mbe_processAmbe2400Dataf.
  apply bind_eq. intros [[cur1 prev1] enh1]. cbv zeta. apply bind_eq. intros [[bad cur2] prev2].
  apply res_rel_eq.
  apply (bind_rel (fun x y => frame_buffer (fst (fst (fst x))) /\ frame_buffer (fst (fst (fst y)))
    /\ snd (fst (fst x)) = snd (fst (fst y)) /\ snd (fst x) = snd (fst y) /\ snd x = snd y)).
  - destruct (bad =? 2).
    { destruct (mbe_setAmbeErasureParms_common (clear_repeat cur2) prev2) as [x|w]; cbn; [tauto|reflexivity]. }
    destruct (bad =? 3); [cbn; tauto|].
    destruct ((7 <=? bad) && (bad <=? 122) && (errs <? 2) && (errs2 <? 3)).
    + pose proof (dstar_buffer o b c cur2 bad Hb Hc) as E. pose proof (dstar_length o b cur2 bad) as L.
      rewrite <- E. clear E. destruct (mbe_synthesizeTonefdstar o b cur2 bad) as [[x cu]|w]; [|reflexivity].
      cbn. specialize (L x cu eq_refl). unfold frame_buffer in *. repeat split; congruence.
    + destruct (3 <? errs2); [|cbn; tauto].
      destruct (repeat_last prev2) as [x|w]; cbn; [tauto|reflexivity].
  - intros [[[x cu] pr] mk] [[[y cu'] pr'] mk'] (Hx & Hy & H1 & H2 & H3). cbn [fst snd] in *. subst cu' pr' mk'.
    match goal with |- res_rel eq ?l ?r => assert (l = r); [|now apply res_rel_refl with (x := l) || (rewrite H; apply res_rel_refl)] end.
    f_equal. destruct (bad =? 0).
    + destruct (p_repeat cu <=? 3).
      * rewrite (speak_buffer o a x y _ _ _ _ Hx Hy). reflexivity.
      * rewrite (noise_reset_buffer x y _ _ Hx Hy). reflexivity.
    + destruct (bad =? 2).
      * rewrite (comfort_buffer x y _ Hx Hy). reflexivity.
      * rewrite (noise_reset_buffer x y _ _ Hx Hy). reflexivity.
Qed.

(* ---- the 16-bit versions ---- *)
Lemma zeros_buffer : frame_buffer (repeat fzero 160). Proof. reflexivity. Qed.

(* run a float entry point on any 160-sample buffer, then convert *)
Definition then_short {X} (o : oracle) (aout : list Z) (r : res (list f32 * X)) : res (list Z * X) :=
  match r with
  | Ok (f, x) => match mbe_floattoshort o f aout with Ok s => Ok (s, x) | UB w => UB w end
  | UB w => UB w
  end.

(* regroup the result so that the samples come first *)
Definition assoc4 {A B C D} (r : res (A * B * C * D)) : res (A * (B * C * D)) :=
  match r with Ok (a, b, c, d) => Ok (a, (b, c, d)) | UB w => UB w end.

Lemma short_imbe_data : forall o a aout errs errs2 d st uv t b, frame_buffer b ->
  assoc4 (mbe_processImbe4400Data o a aout errs errs2 d st uv t)
  = then_short o aout (assoc4 (mbe_processImbe4400Dataf o a b errs errs2 d st uv t)).
Proof.
  intros o a aout errs errs2 d st uv t b Hb. unfold mbe_processImbe4400Data, mbe_processImbe4400Dataf.
  rewrite (imbe_buffer o a (repeat fzero 160) b _ _ _ _ _ _ _ zeros_buffer Hb).
  destruct (mbe_processImbe4400Dataf_withC0 o a b errs2 d st uv 0 false t) as [[[[f s] st'] t']|w]; [|reflexivity].
  cbn [bind assoc4 then_short]. destruct (mbe_floattoshort o f aout) as [x|w]; reflexivity.
Qed.
Lemma short_ambe2450_data : forall o a aout errs errs2 d st uv t b, frame_buffer b ->
  assoc4 (mbe_processAmbe2450Data o a aout errs errs2 d st uv t)
  = then_short o aout (assoc4 (mbe_processAmbe2450Dataf o a b errs errs2 d st uv t)).
Proof.
  intros o a aout errs errs2 d st uv t b Hb. unfold mbe_processAmbe2450Data, mbe_processAmbe2450Dataf.
  rewrite (ambe2450_buffer o a (repeat fzero 160) b _ _ _ _ _ _ _ zeros_buffer Hb).
  destruct (mbe_processAmbe2450Dataf_internal o a b errs2 d st uv 0 false t) as [[[[f s] st'] t']|w]; [|reflexivity].
  cbn [bind assoc4 then_short]. destruct (mbe_floattoshort o f aout) as [x|w]; reflexivity.
Qed.
Lemma short_ambe2400_data : forall o a aout errs errs2 d st uv t b, frame_buffer b ->
  assoc4 (mbe_processAmbe2400Data o a aout errs errs2 d st uv t)
  = then_short o aout (assoc4 (mbe_processAmbe2400Dataf o a b errs errs2 d st uv t)).
Proof.
  intros o a aout errs errs2 d st uv t b Hb. unfold mbe_processAmbe2400Data.
  rewrite (ambe2400_buffer o a (repeat fzero 160) b _ _ _ _ _ _ zeros_buffer Hb).
  destruct (mbe_processAmbe2400Dataf o a b errs errs2 d st uv t) as [[[[f s] st'] t']|w]; [|reflexivity].
  cbn [bind assoc4 then_short]. destruct (mbe_floattoshort o f aout) as [x|w]; reflexivity.
Qed.
Lemma short_speech : forall o aout a cur prev uv t b, frame_buffer b ->
  assoc4 (mbe_synthesizeSpeech o aout a cur prev uv t)
  = then_short o aout (assoc4 (mbe_synthesizeSpeechf o b a cur prev uv t)).
Proof.
  intros o aout a cur prev uv t b Hb. unfold mbe_synthesizeSpeech.
  rewrite (speech_buffer o (repeat fzero 160) b _ _ _ _ _ zeros_buffer Hb).
  destruct (mbe_synthesizeSpeechf o b a cur prev uv t) as [[[[f s] st'] t']|w]; [|reflexivity].
  cbn [bind assoc4 then_short]. destruct (mbe_floattoshort o f aout) as [x|w]; reflexivity.
Qed.
Lemma short_comfort : forall o aout t b, frame_buffer b ->
  mbe_synthesizeComfortNoise o aout t = then_short o aout (mbe_synthesizeComfortNoisef b t).
Proof.
  intros o aout t b Hb. unfold mbe_synthesizeComfortNoise.
  rewrite (comfort_buffer (repeat fzero 160) b t zeros_buffer Hb).
  destruct (mbe_synthesizeComfortNoisef b t) as [[f t']|w]; [|reflexivity].
  cbn [bind then_short]. destruct (mbe_floattoshort o f aout) as [x|w]; reflexivity.
Qed.

(* frames: everything but the samples *)
Definition frame_rest {S} (r : frame_out S) := (fo_errs r, fo_errs2 r, fo_str r, fo_fr r, fo_d r, fo_st r, fo_tls r).
Definition frame_pair {S} (r : res (frame_out S)) :=
  match r with Ok f => Ok (fo_aout f, frame_rest f) | UB w => UB w end.

Lemma short_out_pair : forall o aout r, frame_pair (to_short_out o aout r) = then_short o aout (frame_pair r).
Proof.
  intros o aout [r|w]; [|reflexivity]. unfold to_short_out. cbn [bind frame_pair then_short].
  destruct (mbe_floattoshort o (fo_aout r) aout) as [x|w]; reflexivity.
Qed.

Lemma imbe7200_buffer : forall o a b c fr d st uv t, frame_buffer b -> frame_buffer c ->
  mbe_processImbe7200x4400Framef o a b fr d st uv t = mbe_processImbe7200x4400Framef o a c fr d st uv t.
Proof.
  intros o a b c fr d st uv t Hb Hc. unfold mbe_processImbe7200x4400Framef. apply bind_eq.
  intros [[[[fr1 e1] e2] c4] d1]. now rewrite (imbe_buffer o a b c _ _ _ _ _ _ _ Hb Hc).
Qed.
Lemma imbe7100_buffer : forall o a b c fr d st uv t, frame_buffer b -> frame_buffer c ->
  mbe_processImbe7100x4400Framef o a b fr d st uv t = mbe_processImbe7100x4400Framef o a c fr d st uv t.
Proof.
  intros o a b c fr d st uv t Hb Hc. unfold mbe_processImbe7100x4400Framef. apply bind_eq.
  intros [[[[fr1 e1] e2] c4] d1]. now rewrite (imbe_buffer o a b c _ _ _ _ _ _ _ Hb Hc).
Qed.
Lemma ambe3600x2450_buffer : forall o a b c fr d st uv t, frame_buffer b -> frame_buffer c ->
  mbe_processAmbe3600x2450Framef o a b fr d st uv t = mbe_processAmbe3600x2450Framef o a c fr d st uv t.
Proof.
  intros o a b c fr d st uv t Hb Hc. unfold mbe_processAmbe3600x2450Framef. apply bind_eq.
  intros [[[fr1 e1] e2] d1]. now rewrite (ambe2450_buffer o a b c _ _ _ _ _ _ _ Hb Hc).
Qed.
Lemma ambe3600x2400_buffer : forall o a b c fr d st uv t, frame_buffer b -> frame_buffer c ->
  mbe_processAmbe3600x2400Framef o a b fr d st uv t = mbe_processAmbe3600x2400Framef o a c fr d st uv t.
Proof.
  intros o a b c fr d st uv t Hb Hc. unfold mbe_processAmbe3600x2400Framef. apply bind_eq.
  intros [[[fr1 e1] e2] d1]. now rewrite (ambe2400_buffer o a b c _ _ _ _ _ _ Hb Hc).
Qed.

Lemma short_imbe7200 : forall o a aout fr d st uv t b, frame_buffer b ->
  frame_pair (mbe_processImbe7200x4400Frame o a aout fr d st uv t)
  = then_short o aout (frame_pair (mbe_processImbe7200x4400Framef o a b fr d st uv t)).
Proof.
  intros o a aout fr d st uv t b Hb. unfold mbe_processImbe7200x4400Frame. rewrite short_out_pair.
  now rewrite (imbe7200_buffer o a (repeat fzero 160) b _ _ _ _ _ zeros_buffer Hb).
Qed.
Lemma short_imbe7100 : forall o a aout fr d st uv t b, frame_buffer b ->
  frame_pair (mbe_processImbe7100x4400Frame o a aout fr d st uv t)
  = then_short o aout (frame_pair (mbe_processImbe7100x4400Framef o a b fr d st uv t)).
Proof.
  intros o a aout fr d st uv t b Hb. unfold mbe_processImbe7100x4400Frame. rewrite short_out_pair.
  now rewrite (imbe7100_buffer o a (repeat fzero 160) b _ _ _ _ _ zeros_buffer Hb).
Qed.
Lemma short_ambe3600x2450 : forall o a aout fr d st uv t b, frame_buffer b ->
  frame_pair (mbe_processAmbe3600x2450Frame o a aout fr d st uv t)
  = then_short o aout (frame_pair (mbe_processAmbe3600x2450Framef o a b fr d st uv t)).
Proof.
  intros o a aout fr d st uv t b Hb. unfold mbe_processAmbe3600x2450Frame. rewrite short_out_pair.
  now rewrite (ambe3600x2450_buffer o a (repeat fzero 160) b _ _ _ _ _ zeros_buffer Hb).
Qed.
Lemma short_ambe3600x2400 : forall o a aout fr d st uv t b, frame_buffer b ->
  frame_pair (mbe_processAmbe3600x2400Frame o a aout fr d st uv t)
  = then_short o aout (frame_pair (mbe_processAmbe3600x2400Framef o a b fr d st uv t)).
Proof.
  intros o a aout fr d st uv t b Hb. unfold mbe_processAmbe3600x2400Frame. rewrite short_out_pair.
  now rewrite (ambe3600x2400_buffer o a (repeat fzero 160) b _ _ _ _ _ zeros_buffer Hb).
Qed.

(* the quality knob *)
Lemma speech_uv : forall o b a cur prev u1 u2 t,
  mbe_synthesizeSpeechf o b a cur prev u1 t = mbe_synthesizeSpeechf o b a cur prev u2 t.
Proof. reflexivity. Qed.
Lemma speak_uv : forall o a b cur enh u1 u2 t, ambe_speak o a b cur enh u1 t = ambe_speak o a b cur enh u2 t.
Proof.
  intros. unfold ambe_speak. cbv zeta. apply bind_eq. intros [cu t2]. now rewrite (speech_uv o b a cu enh u1 u2 t2).
Qed.
Lemma imbe_uv : forall o a b errs2 d st u1 u2 c0 cv t,
  mbe_processImbe4400Dataf_withC0 o a b errs2 d st u1 c0 cv t = mbe_processImbe4400Dataf_withC0 o a b errs2 d st u2 c0 cv t.
Proof.
  intros o a b errs2 d [[cur prev] enh] u1 u2 c0 cv t. unfold mbe_processImbe4400Dataf_withC0.
  apply bind_eq. intros [[[cur1 prev1] rep] mut]. cbv zeta. apply bind_eq. intros [cur2 t2].
  now rewrite (speech_uv o b a cur2 enh u1 u2 t2).
Qed.
Lemma ambe2450_uv : forall o a b errs2 d st u1 u2 c0 cv t,
  mbe_processAmbe2450Dataf_internal o a b errs2 d st u1 c0 cv t = mbe_processAmbe2450Dataf_internal o a b errs2 d st u2 c0 cv t.
Proof.
  intros o a b errs2 d [[cur prev] enh] u1 u2 c0 cv t. unfold mbe_processAmbe2450Dataf_internal.
  apply bind_eq. intros [[cur1 prev1] enh1]. cbv zeta. apply bind_eq. intros [[bad cur2] prev2].
  apply bind_eq. intros [cur3 mark]. reflexivity.
Qed.
Lemma ambe2400_uv : forall o a b errs errs2 d st u1 u2 t,
  mbe_processAmbe2400Dataf o a b errs errs2 d st u1 t = mbe_processAmbe2400Dataf o a b errs errs2 d st u2 t.
Proof.
  intros o a b errs errs2 d [[cur prev] enh] u1 u2 t. unfold mbe_processAmbe2400Dataf.
  apply bind_eq. intros [[cur1 prev1] enh1]. cbv zeta. apply bind_eq. intros [[bad cur2] prev2].
  apply bind_eq. intros [[[a3 cur3] prev3] mark]. reflexivity.
Qed.
