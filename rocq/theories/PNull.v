(* Proofs for C89. *)
From Coq Require Import ZArith List Bool Lia.
From Verif Require Import Res F32 MParms MAdaptive MSynth MAmbe SpecEcc SpecFrame SpecTone SpecWola PAmbeDec PTone PSpeech MNull SpecNull.
From Flocq Require Import IEEE754.BinarySingleNaN.
Import ListNotations.
Local Open Scope Z_scope.

Lemma quiet_null : forall o a v t cur prev,
  n_requiresAdaptiveSmoothing None = false /\ n_requiresMuting None = false /\ n_isMaxFrameRepeat None = false /\
  n_comfortNoisef None t = Ok (None, t) /\ n_comfortNoise o None t = Ok (None, t) /\
  n_silencef None = Ok None /\ n_silence None = Ok None /\ n_printVersion v None = Ok None /\
  n_applyAdaptiveSmoothing o a None prev t = Ok (None, t) /\ n_applyAdaptiveSmoothing o a cur None t = Ok (cur, t).
Proof. intros. repeat split; try reflexivity. destruct cur; reflexivity. Qed.

Lemma silencef_null : forall aout, frame_or_null aout -> n_silencef aout = Ok (silenced aout).
Proof. intros [b|] H; [|reflexivity]. cbn [n_silencef]. rewrite (silence_ok b (H b eq_refl)). reflexivity. Qed.

Lemma render_null : forall o aout cur f1 f2 ad, frame_or_null aout -> is_null aout || is_null cur = true ->
  n_renderTonef o aout cur f1 f2 ad = Ok (silenced aout, cur).
Proof.
  intros o aout cur f1 f2 ad F N. pose proof (silencef_null aout F) as S.
  destruct aout as [b|], cur as [c|]; cbn [is_null orb] in N; try discriminate; unfold n_renderTonef; rewrite S; reflexivity.
Qed.

Lemma tone_null : forall o aout d cur, is_bits 49 d -> frame_or_null aout -> is_null aout || is_null cur = true ->
  n_synthesizeTonef o aout (Some d) cur = Ok (silenced aout, cur).
Proof.
  intros o aout d cur D F N. unfold n_synthesizeTonef. pose proof (silencef_null aout F) as S.
  destruct (o_tones o); cbn [negb]; [|rewrite S; reflexivity].
  cbn [deref bind]. pose proof (load_field_ok 49 d 0 12 D ltac:(lia) ltac:(lia)) as E0. pose proof (load_field_ok 49 d 12 12 D ltac:(lia) ltac:(lia)) as E1.
  pose proof (load_field_ok 49 d 24 11 D ltac:(lia) ltac:(lia)) as E2. pose proof (load_field_ok 49 d 35 14 D ltac:(lia) ltac:(lia)) as E3.
  change (load_field d 0 12 = Ok (num (slice 0 12 d))) in E0. change (load_field d 12 24 = Ok (num (slice 12 12 d))) in E1.
  change (load_field d 24 35 = Ok (num (slice 24 11 d))) in E2. change (load_field d 35 49 = Ok (num (slice 35 14 d))) in E3.
  rewrite E0. cbn [bind]. rewrite E1. cbn [bind]. rewrite E2. cbn [bind]. rewrite E3. cbn [bind]. cbv zeta.
  destruct (mbe_lookupToneFreqs _) as [[f1 f2]|]; [apply render_null; assumption|rewrite S; reflexivity].
Qed.

Lemma dstar_null : forall o aout d cur id, frame_or_null aout -> is_null aout || is_null cur = true ->
  n_synthesizeTonefdstar o aout d cur id = Ok (silenced aout, cur).
Proof.
  intros o aout d cur id F N. unfold n_synthesizeTonefdstar. pose proof (silencef_null aout F) as S.
  destruct (o_tones o); cbn [negb]; [|rewrite S; reflexivity].
  cbv zeta. destruct (fle (dstar_freq id) fzero); [rewrite S; reflexivity|apply render_null; assumption].
Qed.

Lemma tone_frame_null : forall o aout cur, (o_tones o = true -> undefined (n_synthesizeTonef o aout None cur)) /\
  (o_tones o = false -> frame_or_null aout -> n_synthesizeTonef o aout None cur = Ok (silenced aout, cur)) /\
  (forall b c id, frame_or_null aout -> aout = Some b -> cur = Some c ->
    n_synthesizeTonefdstar o aout None cur id = ('(b', c') <- mbe_synthesizeTonefdstar o b c id ;; Ok (Some b', Some c'))).
Proof.
  intros o aout cur. split; [|split].
  - intros T. exists OOB. unfold n_synthesizeTonef. rewrite T. reflexivity.
  - intros T F. unfold n_synthesizeTonef. rewrite T. cbn [negb]. rewrite (silencef_null aout F). reflexivity.
  - intros b c id F -> ->. unfold n_synthesizeTonefdstar, mbe_synthesizeTonefdstar.
    destruct (o_tones o); cbn [negb].
    2:{ cbn [n_silencef]. destruct (mbe_synthesizeSilencef b); reflexivity. }
    cbv zeta. destruct (fle (dstar_freq id) fzero).
    + cbn [n_silencef]. destruct (mbe_synthesizeSilencef b); reflexivity.
    + reflexivity.
Qed.

Lemma speech_null : forall o a uv t,
  (forall aout prev, undefined (n_synthesizeSpeechf o aout a None prev uv t)) /\
  (forall b c, muted c = true -> n_synthesizeSpeechf o (Some b) a (Some c) None uv t =
     ('(b', t') <- mbe_synthesizeComfortNoisef b t ;; Ok (Some b', Some c, None, t'))) /\
  (forall c, muted c = true -> n_synthesizeSpeechf o None a (Some c) None uv t = Ok (None, Some c, None, t)) /\
  (forall aout c, muted c = false -> undefined (n_synthesizeSpeechf o aout a (Some c) None uv t)) /\
  (forall c p c' t', mbe_applyAdaptiveSmoothing o a c p t = Ok (c', t') -> muted c' = true ->
     n_synthesizeSpeechf o None a (Some c) (Some p) uv t = Ok (None, Some c', Some p, t')) /\
  (forall c p c' t', mbe_applyAdaptiveSmoothing o a c p t = Ok (c', t') -> muted c' = false ->
     undefined (n_synthesizeSpeechf o None a (Some c) (Some p) uv t)).
Proof.
  intros o a uv t. repeat split.
  - intros aout prev. exists OOB. destruct aout, prev; reflexivity.
  - intros b c M. unfold n_synthesizeSpeechf. cbn [n_applyAdaptiveSmoothing bind deref n_comfortNoisef]. rewrite muted_eq, M.
    destruct (mbe_synthesizeComfortNoisef b t) as [[b' t']|]; reflexivity.
  - intros c M. unfold n_synthesizeSpeechf. cbn [n_applyAdaptiveSmoothing bind deref n_comfortNoisef]. rewrite muted_eq, M. reflexivity.
  - intros aout c M. exists OOB. unfold n_synthesizeSpeechf. cbn [n_applyAdaptiveSmoothing bind deref]. rewrite muted_eq, M. destruct aout; reflexivity.
  - intros c p c' t' S M. unfold n_synthesizeSpeechf. cbn [n_applyAdaptiveSmoothing]. rewrite S. cbn [bind deref]. rewrite muted_eq, M. reflexivity.
  - intros c p c' t' S M. exists OOB. unfold n_synthesizeSpeechf. cbn [n_applyAdaptiveSmoothing]. rewrite S. cbn [bind deref]. rewrite muted_eq, M. reflexivity.
Qed.

Lemma short_null : forall o a uv t,
  (forall cur prev, undefined (n_synthesizeSpeech o None a cur prev uv t)) /\
  (forall aout prev, undefined (n_synthesizeSpeech o aout a None prev uv t)) /\
  (forall aout c, muted c = false -> undefined (n_synthesizeSpeech o aout a (Some c) None uv t)) /\
  (forall b c, muted c = true -> n_synthesizeSpeech o (Some b) a (Some c) None uv t =
     ('(b', t') <- mbe_synthesizeComfortNoise o b t ;; Ok (Some b', Some c, None, t'))).
Proof.
  intros o a uv t. destruct (speech_null o a uv t) as (S1 & S2 & _ & S4 & _). repeat split.
  - intros cur prev. unfold n_synthesizeSpeech. destruct (n_synthesizeSpeechf _ _ _ _ _ _ _) as [[[[f c] p] t']|u]; cbn [bind]; [|exists u; reflexivity].
    destruct f; cbn [deref bind]; exists OOB; reflexivity.
  - intros aout prev. destruct (S1 (Some (repeat fzero 160)) prev) as [u E]. exists u. unfold n_synthesizeSpeech. rewrite E. reflexivity.
  - intros aout c M. destruct (S4 (Some (repeat fzero 160)) c M) as [u E]. exists u. unfold n_synthesizeSpeech. rewrite E. reflexivity.
  - intros b c M. unfold n_synthesizeSpeech. rewrite (S2 _ c M). unfold mbe_synthesizeComfortNoise.
    destruct (mbe_synthesizeComfortNoisef _ t) as [[f t']|]; cbn [bind deref]; [|reflexivity].
    destruct (mbe_floattoshort o f b); reflexivity.
Qed.

Lemma rest_null : forall o a t cur prev enh fb aout,
  (is_null cur || is_null prev || is_null enh = true -> undefined (n_initMbeParms cur prev enh)) /\
  (is_null cur || is_null prev = true -> undefined (n_moveMbeParms cur prev)) /\
  (is_null cur = true -> undefined (n_spectralAmpEnhance o a cur t)) /\
  (is_null fb || is_null aout = true -> undefined (n_floattoshort o fb aout)).
Proof.
  intros. repeat split; intros N.
  - destruct cur, prev, enh; cbn in N; try discriminate; exists OOB; reflexivity.
  - destruct cur, prev; cbn in N; try discriminate; exists OOB; reflexivity.
  - destruct cur; cbn in N; try discriminate; exists OOB; reflexivity.
  - destruct fb, aout; cbn in N; try discriminate; exists OOB; reflexivity.
Qed.

Lemma ordinary_null : forall o a uv t c p e b s d v id f,
  n_requiresAdaptiveSmoothing (Some c) = mbe_requiresAdaptiveSmoothing c /\ n_requiresMuting (Some c) = mbe_requiresMuting c /\
  n_isMaxFrameRepeat (Some c) = mbe_isMaxFrameRepeat c /\
  n_comfortNoisef (Some b) t = ('(x, t) <- mbe_synthesizeComfortNoisef b t ;; Ok (Some x, t)) /\
  n_comfortNoise o (Some s) t = ('(x, t) <- mbe_synthesizeComfortNoise o s t ;; Ok (Some x, t)) /\
  n_applyAdaptiveSmoothing o a (Some c) (Some p) t = ('(x, t) <- mbe_applyAdaptiveSmoothing o a c p t ;; Ok (Some x, t)) /\
  n_printVersion v (Some s) = (x <- mbe_printVersion v s ;; Ok (Some x)) /\
  n_moveMbeParms (Some c) (Some p) = Ok (Some c, Some (mbe_moveMbeParms c)) /\
  n_initMbeParms (Some c) (Some p) (Some e) = ('(x, y, z) <- mbe_initMbeParms c p e ;; Ok (Some x, Some y, Some z)) /\
  n_spectralAmpEnhance o a (Some c) t = ('(x, t) <- mbe_spectralAmpEnhance o a c t ;; Ok (Some x, t)) /\
  n_silencef (Some b) = (x <- mbe_synthesizeSilencef b ;; Ok (Some x)) /\
  n_silence (Some s) = (x <- mbe_synthesizeSilence s ;; Ok (Some x)) /\
  n_synthesizeTonef o (Some b) (Some d) (Some c) = ('(x, y) <- mbe_synthesizeTonef o b d c ;; Ok (Some x, Some y)) /\
  n_synthesizeTonefdstar o (Some b) (Some d) (Some c) id = ('(x, y) <- mbe_synthesizeTonefdstar o b c id ;; Ok (Some x, Some y)) /\
  n_synthesizeSpeechf o (Some b) a (Some c) (Some p) uv t = ('(x, y, z, t) <- mbe_synthesizeSpeechf o b a c p uv t ;; Ok (Some x, Some y, Some z, t)) /\
  n_synthesizeSpeech o (Some s) a (Some c) (Some p) uv t = ('(x, y, z, t) <- mbe_synthesizeSpeech o s a c p uv t ;; Ok (Some x, Some y, Some z, t)) /\
  n_floattoshort o (Some f) (Some s) = (x <- mbe_floattoshort o f s ;; Ok (Some x)).
Proof.
  intros. do 12 (split; [reflexivity|]). split; [|split; [|split; [|split]]].
  - unfold n_synthesizeTonef, mbe_synthesizeTonef. destruct (o_tones o); cbn [negb].
    2:{ cbn [n_silencef]. destruct (mbe_synthesizeSilencef b); reflexivity. }
    cbn [deref bind]. destruct (load_field d 0 12); [|reflexivity]. cbn [bind]. destruct (load_field d 12 24); [|reflexivity]. cbn [bind].
    destruct (load_field d 24 35); [|reflexivity]. cbn [bind]. destruct (load_field d 35 49); [|reflexivity]. cbn [bind]. cbv zeta.
    destruct (mbe_lookupToneFreqs _) as [[f1 f2]|]; [reflexivity|]. cbn [n_silencef]. destruct (mbe_synthesizeSilencef b); reflexivity.
  - unfold n_synthesizeTonefdstar, mbe_synthesizeTonefdstar. destruct (o_tones o); cbn [negb].
    2:{ cbn [n_silencef]. destruct (mbe_synthesizeSilencef b); reflexivity. }
    cbv zeta. destruct (fle (dstar_freq id) fzero); [|reflexivity]. cbn [n_silencef]. destruct (mbe_synthesizeSilencef b); reflexivity.
  - reflexivity.
  - unfold n_synthesizeSpeech, mbe_synthesizeSpeech, n_synthesizeSpeechf.
    destruct (mbe_synthesizeSpeechf _ _ _ _ _ _ _) as [[[[x y] z] t']|]; [|reflexivity]. cbn [bind deref].
    destruct (mbe_floattoshort o x s); reflexivity.
  - reflexivity.
Qed.
