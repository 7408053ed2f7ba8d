(* Speech synthesis: which fields it changes, when it is defined, and the phases it stores. *)
From Coq Require Import ZArith List Bool Lia Reals Lra.
From Verif Require Import Res F32 TabSynth MParms MAdaptive MUnvoiced MSynth SpecAdaptive SpecGen SpecWola PBase PRun PArr PFloat PFloat2 PAdapt PGen POut PSse PPower PWola.
From Flocq Require Import Core.Core IEEE754.BinarySingleNaN.
Import ListNotations.
Local Open Scope Z_scope.

Ltac fields := cbn [p_w0 p_L p_K p_Vl p_Ml p_log2Ml p_PHIl p_PSIl p_gamma p_un p_repeat p_swn p_localEnergy p_amplitudeThreshold
  p_errorRate p_errorCountTotal p_errorCount4 p_repeatCount p_mutingThreshold p_previousUw p_noiseSeed p_noiseOverlap
  set_w0 set_L set_K set_Vl set_Ml set_log2Ml set_PHIl set_PSIl set_gamma set_un set_repeat set_swn set_localEnergy
  set_amplitudeThreshold set_errorRate set_errorCountTotal set_errorCount4 set_repeatCount set_mutingThreshold
  set_previousUw set_noiseSeed set_noiseOverlap] in *.

(* m' is m except in the listed fields *)
Definition but_bands (m m' : parms) : Prop := m' = set_Vl (p_Vl m') (set_Ml (p_Ml m') m).
Definition but_smoothing (m m' : parms) : Prop :=
  m' = set_Ml (p_Ml m') (set_amplitudeThreshold (p_amplitudeThreshold m') (set_Vl (p_Vl m') (set_localEnergy (p_localEnergy m') m))).
Definition but_prev (m m' : parms) : Prop := m' = set_PSIl (p_PSIl m') (set_Vl (p_Vl m') (set_Ml (p_Ml m') m)).
Definition but_speech (m m' : parms) : Prop :=
  m' = set_previousUw (p_previousUw m') (set_noiseOverlap (p_noiseOverlap m') (set_noiseSeed (p_noiseSeed m')
       (set_PHIl (p_PHIl m') (set_PSIl (p_PSIl m')
       (set_Ml (p_Ml m') (set_amplitudeThreshold (p_amplitudeThreshold m') (set_Vl (p_Vl m') (set_localEnergy (p_localEnergy m') m)))))))).
Ltac pfields := unfold but_bands, but_smoothing, but_prev, but_speech in *;
  repeat match goal with m : parms |- _ => destruct m end; fields; try congruence.

Lemma smoothing_but : forall o a cur prev t cur' t', mbe_applyAdaptiveSmoothing o a cur prev t = Ok (cur', t') -> but_smoothing cur cur'.
Proof. intros o a cur prev t cur' t' H. apply smoothing_inv in H as (rm0 & V & Am & T & M & _ & _ & _ & _ & _ & ->). reflexivity. Qed.
Lemma wf_smoothing : forall o a cur prev t cur' t', mbe_applyAdaptiveSmoothing o a cur prev t = Ok (cur', t') -> wf_parms cur -> wf_parms cur'.
Proof.
  intros o a cur prev t cur' t' H W. destruct (smoothing_fields _ _ _ _ _ _ _ H) as (_ & A & B & _). apply smoothing_but in H.
  unfold wf_parms in *. rewrite A, B. rewrite H. fields. tauto.
Qed.

Definition same_bands_len (m m' : parms) : Prop := length (p_Ml m') = length (p_Ml m) /\ length (p_Vl m') = length (p_Vl m).
Lemma extend_inv : forall f g m m', extend_bands f g m = Ok m' -> but_bands m m' /\ same_bands_len m m'.
Proof.
  intros f g m m' H. unfold extend_bands in H.
  refine (for_up_inv0 (fun x => but_bands m x /\ same_bands_len m x) _ _ _ _ _ _ _ H).
  - intros k x y _ [A B] K. apply bind_inv in K as (a & Ha & K). apply bind_inv in K as (b & Hb & K). injection K as <-.
    apply wr_length in Ha. apply wr_length in Hb. unfold same_bands_len in *. fields. split; [|lia].
    unfold but_bands in *. rewrite A. reflexivity.
  - split; [now destruct m|split; reflexivity].
Qed.
Lemma extend_total : forall f g m, 0 <= f -> g <= 56 -> length (p_Ml m) = 57%nat -> length (p_Vl m) = 57%nat -> exists m', extend_bands f g m = Ok m'.
Proof.
  intros f g m Hf Hg LM LV. unfold extend_bands.
  destruct (for_up_ok0 (fun x => length (p_Ml x) = 57%nat /\ length (p_Vl x) = 57%nat) (fun l m =>
    a <- wr (p_Ml m) l fzero ;; b <- wr (p_Vl m) l 1 ;; Ok (set_Vl b (set_Ml a m))) (f + 1) (g + 1) m) as (m' & E & _); [|auto|eauto].
  intros k x Hk [A B]. rewrite wr_ok by lia. cbn [bind]. rewrite wr_ok by lia. cbn [bind]. eexists. split; [reflexivity|]. fields.
  rewrite !set_nth_length. auto.
Qed.

(* the phase loop *)
Definition next_phase (cw0 pw0 : f32) (l : Z) (w : f32) : f32 := fadd w (fmul (fadd pw0 cw0) (fdiv (f_of_Z (l * 160)) f_two)).
Definition phases_done (cw0 pw0 : f32) (cur prev : parms) (k : Z) (s : parms * parms) : Prop :=
  fst s = set_PHIl (p_PHIl (fst s)) (set_PSIl (p_PSIl (fst s)) cur) /\ snd s = set_PSIl (p_PSIl (snd s)) prev /\
  length (p_PHIl (fst s)) = length (p_PHIl cur) /\ length (p_PSIl (fst s)) = length (p_PSIl cur) /\ length (p_PSIl (snd s)) = length (p_PSIl prev) /\
  (forall l, 1 <= l < k -> exists psi, rd (p_PSIl prev) l = Ok psi /\ rd (p_PSIl (snd s)) l = Ok (wrap_phase psi) /\
     rd (p_PSIl (fst s)) l = Ok (next_phase cw0 pw0 l (wrap_phase psi))) /\
  (forall l, k <= l \/ l < 1 -> rd (p_PSIl (snd s)) l = rd (p_PSIl prev) l /\ rd (p_PSIl (fst s)) l = rd (p_PSIl cur) l).
Lemma phases_start : forall cw0 pw0 cur prev, phases_done cw0 pw0 cur prev 1 (cur, prev).
Proof.
  intros cw0 pw0 cur prev. unfold phases_done. cbn [fst snd]. split; [now destruct cur|]. split; [now destruct prev|].
  repeat (split; [reflexivity|]). split; [intros; lia|]. auto.
Qed.
Lemma phases_step : forall cw0 pw0 nu noise cur prev k s s', 1 <= k -> phases_done cw0 pw0 cur prev k s ->
  update_phase cw0 pw0 nu noise k s = Ok s' -> phases_done cw0 pw0 cur prev (k + 1) s'.
Proof.
  intros cw0 pw0 nu noise cur prev k [c p] s' Hk (A & B & C & D & E & F & G) H. cbn [fst snd] in *. unfold update_phase in H. cbv zeta in H.
  apply bind_inv in H as (psi & Hp & H). apply bind_inv in H as (pp & Hpp & H). apply bind_inv in H as (cp & Hcp & H).
  apply bind_inv in H as (phi & _ & H). apply bind_inv in H as (ph & Hph & H). injection H as <-.
  unfold phases_done. cbn [fst snd]. fields. split; [rewrite A; reflexivity|]. split; [rewrite B; reflexivity|].
  pose proof (wr_length _ _ _ _ Hpp). pose proof (wr_length _ _ _ _ Hcp). pose proof (wr_length _ _ _ _ Hph).
  split; [congruence|]. split; [congruence|]. split; [congruence|]. split.
  - intros l Hl. destruct (Z.eq_dec l k) as [->|N].
    + exists psi. rewrite (rd_wr_same _ _ _ _ Hpp), (rd_wr_same _ _ _ _ Hcp). destruct (G k) as [G1 _]; [lia|]. rewrite <- G1. auto.
    + destruct (F l) as (q & F1 & F2 & F3); [lia|]. exists q. rewrite (rd_wr_other _ _ l _ _ Hpp), (rd_wr_other _ _ l _ _ Hcp) by lia. auto.
  - intros l Hl. rewrite (rd_wr_other _ _ l _ _ Hpp), (rd_wr_other _ _ l _ _ Hcp) by lia. apply G. lia.
Qed.
Lemma phases_loop : forall cw0 pw0 nu noise cur prev s', for_up 1 57 (update_phase cw0 pw0 nu noise) (cur, prev) = Ok s' ->
  phases_done cw0 pw0 cur prev 57 s'.
Proof.
  intros cw0 pw0 nu noise cur prev s' H.
  refine (for_up_inv (phases_done cw0 pw0 cur prev) _ 1 57 _ s' _ _ _ H); [lia| |apply phases_start].
  intros k a b Hk Ha Hb. apply (phases_step cw0 pw0 nu noise cur prev k a b); [lia|exact Ha|exact Hb].
Qed.
Lemma phases_total : forall cw0 pw0 nu noise cur prev, length (p_PSIl prev) = 57%nat -> length (p_PSIl cur) = 57%nat -> length (p_PHIl cur) = 57%nat ->
  length noise = 256%nat -> exists s', for_up 1 57 (update_phase cw0 pw0 nu noise) (cur, prev) = Ok s'.
Proof.
  intros cw0 pw0 nu noise cur prev L1 L2 L3 Ln.
  destruct (for_up_ok0 (fun s : parms * parms => length (p_PSIl (snd s)) = 57%nat /\ length (p_PSIl (fst s)) = 57%nat /\ length (p_PHIl (fst s)) = 57%nat)
    (update_phase cw0 pw0 nu noise) 1 57 (cur, prev)) as (s' & E & _); [|cbn; auto|eauto].
  intros k [c p] Hk (A & B & C). cbn [fst snd] in *. unfold update_phase. cbv zeta.
  destruct (rd_ok (p_PSIl p) k) as [psi Hp]; [lia|]. rewrite Hp. cbn [bind]. rewrite wr_ok by lia. cbn [bind]. rewrite wr_ok by lia. cbn [bind].
  assert (K : forall (x : f32) (y : f32 -> f32), exists phi, (if k <=? Z.quot (p_L c) 4 then Ok x else u <- rd noise k ;; Ok (y u)) = Ok phi).
  { intros x y. destruct (k <=? Z.quot (p_L c) 4); [eauto|]. destruct (rd_ok noise k) as [u Hu]; [lia|]. rewrite Hu. cbn [bind]. eauto. }
  match goal with |- context [if k <=? Z.quot (p_L c) 4 then Ok ?x else u <- rd noise k ;; Ok (@?y u)] => destruct (K x y) as [phi Hphi] end.
  cbv beta in Hphi. rewrite Hphi. cbn [bind]. rewrite wr_ok by lia. cbn [bind]. eexists. split; [reflexivity|]. cbn [fst snd]. fields. rewrite !set_nth_length. auto.
Qed.

(* harmonics *)
Lemma block4_total : forall sm aout n w amp c s sd cd, 0 <= n -> n + 4 <= Z.of_nat (length aout) -> 0 <= w -> w + 4 <= Z.of_nat (length Ws) ->
  exists r, mbe_add_voiced_block4 sm aout n w amp c s sd cd = Ok r /\ length (fst (fst r)) = length aout.
Proof.
  intros sm aout n w amp c s sd cd H1 H2 H3 H4. unfold mbe_add_voiced_block4.
  match goal with |- exists r, for_up _ _ ?b ?s0 = _ /\ _ =>
    destruct (for_up_ok0 (fun z : list f32 * f32 * f32 => length (fst (fst z)) = length aout) b 0 4 s0) as (r & E & L) end; [|reflexivity|eauto].
  intros k [[a c1] s1] Hk L. cbn [fst snd] in *. destruct (rd_ok a (n + k)) as [x Hx]; [lia|]. rewrite Hx. cbn [bind].
  destruct (rd_ok Ws (w + k)) as [y Hy]; [lia|]. rewrite Hy. cbn [bind]. rewrite wr_ok by lia. cbn [bind].
  destruct (osc_step c1 s1 sd cd). eexists. split; [reflexivity|]. cbn [fst]. now rewrite set_nth_length.
Qed.
Lemma osc_total : forall sm aout off amp c s sd cd, length aout = 160%nat -> off = 0 \/ off = 160 ->
  exists r, add_oscillator sm aout off amp c s sd cd = Ok r /\ length r = 160%nat.
Proof.
  intros sm aout off amp c s sd cd L Ho. unfold add_oscillator.
  destruct (loop_ok (fun n (z : list f32 * f32 * f32) => length (fst (fst z)) = 160%nat) (fun n '(aout, c, s) => mbe_add_voiced_block4 sm aout n (n + off) amp c s sd cd) 4 40 0 (aout, c, s))
    as ([[r c1] s1] & E & Lr).
  - intros k [[a c1] s1] Hk La. cbn [fst] in La.
    destruct (block4_total sm a (0 + k * 4) (0 + k * 4 + off) amp c1 s1 sd cd) as (r & E & Lr); [lia|lia|lia|change (Z.of_nat (length Ws)) with 321; lia|].
    exists r. split; [exact E|congruence].
  - exact L.
  - rewrite E. cbn [bind]. eexists. split; [reflexivity|exact Lr].
Qed.
Lemma interp_total : forall o aout l cw0 pw0 pc pp mc mp, length aout = 160%nat ->
  exists r, add_interpolated o aout l cw0 pw0 pc pp mc mp = Ok r /\ length r = 160%nat.
Proof.
  intros o aout l cw0 pw0 pc pp mc mp L. unfold add_interpolated. cbv zeta.
  match goal with |- exists r, for_up _ _ ?b ?s0 = _ /\ _ =>
    destruct (for_up_ok0 (fun z : list f32 => length z = 160%nat) b 0 160 s0) as (r & E & Lr) end; [|exact L|eauto].
  intros k a Hk La. destruct (rd_ok a k) as [x Hx]; [lia|]. rewrite Hx. cbn [bind]. rewrite wr_ok by lia. eexists. split; [reflexivity|]. now rewrite set_nth_length.
Qed.
Lemma harmonic_total : forall o cw0 pw0 cur prev l aout, wf_parms cur -> wf_parms prev -> 0 <= l <= 56 -> length aout = 160%nat ->
  exists r, add_harmonic o cw0 pw0 cur prev l aout = Ok r /\ length r = 160%nat.
Proof.
  intros o cw0 pw0 cur prev l aout (C1 & C2 & C3 & C4 & C5 & _) (P1 & P2 & P3 & P4 & P5 & _) Hl La. unfold add_harmonic. cbv zeta.
  destruct (rd_ok (p_Vl cur) l) as [vc Hvc]; [lia|]. destruct (rd_ok (p_Vl prev) l) as [vp Hvp]; [lia|].
  destruct (rd_ok (p_PHIl cur) l) as [fc Hfc]; [lia|]. destruct (rd_ok (p_PHIl prev) l) as [fp Hfp]; [lia|].
  destruct (rd_ok (p_Ml cur) l) as [mc Hmc]; [lia|]. destruct (rd_ok (p_Ml prev) l) as [mp Hmp]; [lia|].
  rewrite Hvc, Hvp. cbn [bind]. destruct ((vc =? 1) || (vp =? 1)); [|eauto].
  destruct ((l <? 8) && (vc =? 1) && (vp =? 1) && flt (fabs (fsub cw0 pw0)) (fmul f_0p1 cw0)).
  - rewrite Hfc, Hfp, Hmc, Hmp. cbn [bind]. now apply interp_total.
  - assert (K : exists b, (if vp =? 1 then amp <- rd (p_Ml prev) l ;; phi <- rd (p_PHIl prev) l ;;
        add_oscillator (o_simd o) aout 160 amp (cosf o phi) (sinf o phi) (sinf o (fmul pw0 (f_of_Z l))) (cosf o (fmul pw0 (f_of_Z l))) else Ok aout) = Ok b /\ length b = 160%nat).
    { destruct (vp =? 1); [|eauto]. rewrite Hmp, Hfp. cbn [bind]. apply osc_total; auto. }
    destruct K as (b & -> & Lb). cbn [bind]. destruct (vc =? 1); [|eauto]. rewrite Hmc, Hfc. cbn [bind]. apply osc_total; auto.
Qed.
Lemma count_total : forall L V, 0 <= L <= 56 -> length V = 57%nat -> exists n, count_unvoiced L V = Ok n.
Proof.
  intros L V HL LV. unfold count_unvoiced.
  match goal with |- exists r, for_up _ _ ?b ?s0 = _ => destruct (for_up_ok0 (fun _ : Z => True) b 0 (L + 1) s0) as (r & E & _) end; [|exact I|eauto].
  intros k n Hk _. destruct (rd_ok V k) as [v Hv]; [lia|]. rewrite Hv. cbn [bind]. eauto.
Qed.
Lemma clip_total : forall s, length s = 160%nat -> exists s', mbe_clipFloatBuffer s 160 = Ok s'.
Proof.
  intros s L. unfold mbe_clipFloatBuffer.
  match goal with |- exists r, for_up _ _ ?b ?s0 = _ => destruct (for_up_ok0 (fun z : list f32 => length z = 160%nat) b 0 160 s0) as (r & E & _) end; [|exact L|eauto].
  intros k a Hk La. destruct (rd_ok a k) as [x Hx]; [lia|]. rewrite Hx. cbn [bind]. rewrite wr_ok by lia. eexists. split; [reflexivity|]. now rewrite set_nth_length.
Qed.

(* decomposition of a speech frame that is not muted *)
Definition clear_rm0 (t t' : tls) : Prop := t_rm0_valid t' = true -> t_rm0_valid t = true.
Lemma smoothing_tls : forall o a cur prev t cur' t', mbe_applyAdaptiveSmoothing o a cur prev t = Ok (cur', t') ->
  t' = if pending t a then clear_pending t else t.
Proof.
  intros o a cur prev t cur' t' H. destruct (pending t a) eqn:P; [eapply handoff_used; eauto|].
  now destruct (handoff_other _ _ _ _ _ t _ _ P H).
Qed.
Lemma Ok4 : forall {A B C D} (a a' : A) (b b' : B) (c c' : C) (d d' : D), Ok (a, b, c, d) = Ok (a', b', c', d') -> a = a' /\ b = b' /\ c = c' /\ d = d'.
Proof. intros A B C D a a' b b' c c' d d' H. injection H as -> -> -> ->. auto. Qed.
Lemma noise_effect : forall seed ov t b s o t', mbe_generate_noise_with_overlap seed ov t = Ok (b, s, o, t') -> length ov = 96%nat ->
  length o = 96%nat /\ (length b = 256%nat) /\
  t' = mktls (t_rng t) (t_seed48 t) (t_seeded t) (t_rm0 t) (t_rm0_valid t) (t_rm0_owner t) (t_uv_seed t) (t_uv_override t').
Proof.
  intros seed ov t b s o t' H L. destruct (cold seed) eqn:C.
  - rewrite noise_cold in H by exact C. apply Ok4 in H as (<- & _ & <- & <-). rewrite !repeat_length. auto.
  - pose proof (noise_warm_tls _ _ _ _ _ _ _ C H) as ->. unfold mbe_generate_noise_with_overlap in H. change (flt seed fzero = false) in C. rewrite C in H.
    apply bind_inv in H as (b1 & H1 & H). apply bind_inv in H as (s0 & _ & H). apply bind_inv in H as ([b2 st] & H2 & H).
    apply bind_inv in H as (b3 & H3 & H). apply bind_inv in H as (o1 & H4 & H). injection H as <- <- <-.
    split; [|split; [|now destruct t]].
    + assert (P : length o1 = length ov); [|lia].
      refine (for_up_inv0 (fun x => length x = length ov) _ _ _ _ _ _ _ H4); [|reflexivity].
      intros k x y _ Q K. apply bind_inv in K as (z & _ & K). apply wr_length in K. congruence.
    + assert (L1 : length b1 = 256%nat).
      { refine (for_up_inv0 (fun x => length x = 256%nat) _ _ _ _ _ _ _ H1); [|reflexivity].
        intros k x y _ Q K. apply bind_inv in K as (z & _ & K). apply wr_length in K. congruence. }
      assert (L2 : length b2 = 256%nat).
      { refine (for_up_inv0 (fun x => length (fst x) = 256%nat) _ _ _ _ (b2, st) _ _ H2); [|exact L1].
        intros k [x1 x2] [y1 y2] _ Q K. cbn [fst] in *. apply bind_inv in K as (z & K1 & K). injection K as <- _. apply wr_length in K1. congruence. }
      clear - L2 H3. revert L2 H3. generalize 256%nat as n. revert b3. induction b2 as [|x b2 IH]; intros b3 n L H.
      * cbn in H. injection H as <-. exact L.
      * cbn [all_init] in H. apply bind_inv in H as (v & Hv & H). apply bind_inv in H as (r & Hr & H). injection H as <-.
        destruct n; [discriminate|]. injection L as L. cbn [length]. f_equal. eapply IH; eauto.
Qed.

Definition speech_frame (o : oracle) (aout : list f32) (cur prev : parms) (t : tls) (aout' : list f32) (cur' prev' : parms) (t' : tls) : Prop :=
  exists noise seed overlap numUv c p,
    mbe_generate_noise_with_overlap (p_noiseSeed cur) (p_noiseOverlap cur) t = Ok (noise, seed, overlap, t') /\
    but_bands (set_noiseOverlap overlap (set_noiseSeed seed cur)) c /\ same_bands_len cur c /\ but_bands prev p /\ same_bands_len prev p /\
    phases_done (p_w0 cur) (p_w0 prev) c p 57 (set_previousUw (p_previousUw c) cur', prev') /\
    count_unvoiced (p_L cur) (p_Vl cur) = Ok numUv /\
    (o_plan o = true /\ length (p_previousUw cur') = 256%nat \/ p_previousUw cur' = p_previousUw cur).

Lemma unvoiced_uw : forall o a cur prev noise a' uw, mbe_synthesizeUnvoicedFFTWithNoise o a cur prev noise = Ok (a', uw) -> length uw = 256%nat.
Proof.
  intros o a cur prev noise a' uw H. unfold mbe_synthesizeUnvoicedFFTWithNoise in H. cbv zeta in H.
  apply bind_inv in H as (u & _ & H). apply bind_inv in H as ([lo hi] & _ & H). apply bind_inv in H as (sc & _ & H).
  apply bind_inv in H as (f & _ & H). apply bind_inv in H as (w & Hw & H). apply bind_inv in H as (out & _ & H). injection H as _ <-.
  rewrite normalize_scalar in Hw by apply fft_bwd_length.
  refine (for_up_inv0 (fun x => length x = 256%nat) _ _ _ _ _ _ _ Hw); [|apply fft_bwd_length].
  intros k x y _ Q K. apply bind_inv in K as (z & _ & K). apply wr_length in K. congruence.
Qed.
Lemma speech_inv : forall o aout a cur prev uvq t aout' cur' prev' t',
  mbe_synthesizeSpeechf o aout a cur prev uvq t = Ok (aout', cur', prev', t') ->
  exists c1 t1, mbe_applyAdaptiveSmoothing o a cur prev t = Ok (c1, t1) /\
  ((speech_muted c1 = true /\ cur' = c1 /\ prev' = prev /\ mbe_synthesizeComfortNoisef aout t1 = Ok (aout', t')) \/
   (speech_muted c1 = false /\ speech_frame o aout c1 prev t1 aout' cur' prev' t')).
Proof.
  intros o aout a cur prev uvq t aout' cur' prev' t' H. unfold mbe_synthesizeSpeechf in H.
  apply bind_inv in H as ([c1 t1] & HA & H). exists c1, t1. split; [exact HA|]. clear HA.
  destruct (speech_muted c1) eqn:M.
  - left. apply bind_inv in H as ([a1 t2] & HC & H). injection H as <- <- <- <-. auto.
  - right. split; [reflexivity|]. cbv zeta in H.
    apply bind_inv in H as ([[[noise seed] ov] t2] & HN & H). apply bind_inv in H as (nu & HU & H). apply bind_inv in H as (z & _ & H).
    apply bind_inv in H as ([[c p] maxl] & HB & H). apply bind_inv in H as ([c2 p2] & HP & H). apply bind_inv in H as (b & _ & H).
    apply bind_inv in H as ([b2 c3] & HW & H). apply bind_inv in H as (b3 & _ & H). injection H as <- <- <- <-.
    fields. exists noise, seed, ov, nu, c, p. split; [exact HN|].
    assert (HB' : but_bands (set_noiseOverlap ov (set_noiseSeed seed c1)) c /\ same_bands_len c1 c /\ but_bands prev p /\ same_bands_len prev p).
    { destruct (p_L prev <? p_L c1).
      - apply bind_inv in HB as (q & HE & HB). injection HB as <- <- <-. apply extend_inv in HE as [E1 E2].
        repeat split; auto; apply E2.
      - apply bind_inv in HB as (q & HE & HB). injection HB as <- <- <-. apply extend_inv in HE as [E1 E2].
        split; [exact E1|]. split; [exact E2|]. split; [now destruct prev|]. split; reflexivity. }
    destruct HB' as (B1 & B2 & B3 & B4). repeat (split; [assumption|]).
    pose proof (phases_loop _ _ _ _ _ _ _ HP) as PD. pose proof PD as (F1 & _). cbn [fst] in F1.
    assert (E : p_previousUw c2 = p_previousUw c1). { rewrite F1. fields. rewrite B1. reflexivity. }
    assert (E' : p_previousUw c = p_previousUw c1). { rewrite B1. reflexivity. }
    destruct (o_plan o).
    + apply bind_inv in HW as ([b4 uw] & HX & HW). injection HW as <- <-. pose proof (unvoiced_uw _ _ _ _ _ _ _ HX) as LU.
      split; [|auto]. rewrite E', <- E. replace (set_previousUw (p_previousUw c2) (set_previousUw uw c2)) with c2 by (now destruct c2). exact PD.
    + injection HW as <- <-. split; [|auto]. rewrite E', <- E. replace (set_previousUw (p_previousUw c2) c2) with c2 by (now destruct c2). exact PD.
Qed.

(* what a speech frame changes *)
Lemma speech_effect : forall o aout a cur prev uvq t aout' cur' prev' t', wf_parms cur -> wf_parms prev ->
  mbe_synthesizeSpeechf o aout a cur prev uvq t = Ok (aout', cur', prev', t') ->
  but_speech cur cur' /\ but_prev prev prev' /\ wf_parms cur' /\ wf_parms prev'.
Proof.
  intros o aout a cur prev uvq t aout' cur' prev' t' WC WP H. apply speech_inv in H as (c1 & t1 & HA & H).
  pose proof (wf_smoothing _ _ _ _ _ _ _ HA WC) as W1. apply smoothing_but in HA. destruct H as [(M & -> & -> & _)|(M & F)].
  - split; [|split; [now destruct prev|auto]]. unfold but_speech, but_smoothing in *. rewrite HA. reflexivity.
  - destruct F as (noise & seed & ov & nu & c & p & HN & B1 & B2 & B3 & B4 & PD & _ & U).
    destruct PD as (F1 & F2 & F3 & F4 & F5 & _). cbn [fst snd] in *. fields.
    unfold wf_parms in *. destruct W1 as (V1 & V2 & V3 & V4 & V5 & V6 & V7). destruct WP as (P1 & P2 & P3 & P4 & P5 & P6 & P7).
    pose proof (noise_effect _ _ _ _ _ _ _ HN V7) as (N1 & _). destruct B2 as [Q1 Q2]. destruct B4 as [Q3 Q4].
    assert (G : but_speech c1 cur').
    { unfold but_speech, but_bands in *. clear - F1 B1. destruct cur', c1, c. fields. injection B1; injection F1; intros; subst; reflexivity. }
    split; [|split; [|split]].
    + unfold but_speech, but_smoothing in *. rewrite HA in G. rewrite G. reflexivity.
    + unfold but_prev, but_bands in *. rewrite F2, B3. reflexivity.
    + assert (KM : p_Ml cur' = p_Ml c) by (apply (f_equal p_Ml) in F1; exact F1).
      assert (KV : p_Vl cur' = p_Vl c) by (apply (f_equal p_Vl) in F1; exact F1).
      assert (KO : p_noiseOverlap cur' = ov). { apply (f_equal p_noiseOverlap) in F1. fields. rewrite F1, B1. reflexivity. }
      assert (KL : p_log2Ml cur' = p_log2Ml c1). { rewrite G. reflexivity. }
      assert (KPH : p_PHIl c = p_PHIl c1) by (rewrite B1; reflexivity).
      assert (KPS : p_PSIl c = p_PSIl c1) by (rewrite B1; reflexivity).
      rewrite KM, KV, KO, KL, F3, F4, KPH, KPS, Q1, Q2. destruct U as [[_ U]|U]; [|rewrite U]; tauto.
    + assert (KP : p_PSIl p = p_PSIl prev) by (rewrite B3; reflexivity). rewrite KP in F5.
      rewrite F2. fields. rewrite F5, Q3, Q4. replace (p_log2Ml p) with (p_log2Ml prev) by (rewrite B3; reflexivity).
      replace (p_PHIl p) with (p_PHIl prev) by (rewrite B3; reflexivity). replace (p_previousUw p) with (p_previousUw prev) by (rewrite B3; reflexivity).
      replace (p_noiseOverlap p) with (p_noiseOverlap prev) by (rewrite B3; reflexivity). tauto.
Qed.

(* when a speech frame is defined *)
Definition seed_ok (seed : f32) : Prop := cold seed = true \/ exists z, 0 <= z < 53125 /\ seed = f_of_Z z.
Definition tls_ok (t : tls) : Prop := 0 <= cold_seed t < 53125.
Lemma noise_total : forall seed ov t, seed_ok seed -> length ov = 96%nat -> tls_ok t ->
  exists b s o t', mbe_generate_noise_with_overlap seed ov t = Ok (b, s, o, t') /\ length b = 256%nat /\ length o = 96%nat /\ seed_ok s /\ tls_ok t'.
Proof.
  intros seed ov t S L T. destruct S as [C|(z & Hz & ->)].
  - rewrite noise_cold by exact C. do 4 eexists. split; [reflexivity|]. rewrite !repeat_length. split; [auto|]. split; [auto|]. split.
    + right. eauto.
    + unfold tls_ok, cold_seed. cbn [t_uv_override]. lia.
  - rewrite noise_warm by auto. do 4 eexists. split; [reflexivity|]. rewrite app_length, !map_length, !seq_length, L. split; [auto|]. split; [auto|]. split; [|exact T].
    right. eexists. split; [apply lcg_state_range; exact Hz|reflexivity].
Qed.
Lemma smoothing_total : forall o a cur prev t T, wf_parms cur -> 0 <= p_L cur <= 56 ->
  smoothing_Tm (p_errorRate cur) (p_errorCountTotal cur) (p_amplitudeThreshold prev) = Ok T ->
  exists cur' t', mbe_applyAdaptiveSmoothing o a cur prev t = Ok (cur', t').
Proof.
  intros o a cur prev t T (LV & LM & _) HL HT. unfold mbe_applyAdaptiveSmoothing. cbv zeta. fields.
  assert (K : exists rm0 t', smoothing_rm0 a cur t = Ok (rm0, t')).
  { unfold smoothing_rm0. destruct (t_rm0_valid t && _); [eauto|]. rewrite sum_bands_ok by lia. cbn [bind]. eauto. }
  destruct K as (rm0 & t' & ->). cbn [bind].
  match goal with |- context [for_up _ _ ?b (p_Vl cur)] => destruct (for_up_ok0 (fun x : list Z => length x = 57%nat) b 1 (p_L cur + 1) (p_Vl cur)) as (V & HV & LV') end.
  { intros k s Hk Ls. destruct (rd_ok (p_Ml cur) k) as [x Hx]; [lia|]. rewrite Hx. cbn [bind]. destruct (fgt x _); [|eauto].
    rewrite wr_ok by lia. eexists. split; [reflexivity|]. now rewrite set_nth_length. }
  { exact LV. }
  rewrite HV. cbn [bind]. rewrite sum_bands_ok by lia. cbn [bind]. rewrite HT. cbn [bind].
  match goal with |- context [if ?c then _ else _] => destruct c end; [|eauto].
  match goal with |- context [for_up _ _ ?b (p_Ml cur)] => destruct (for_up_ok0 (fun x : list f32 => length x = 57%nat) b 1 (p_L cur + 1) (p_Ml cur)) as (M & HM & LM') end.
  { intros k s Hk Ls. destruct (rd_ok s k) as [x Hx]; [lia|]. rewrite Hx. cbn [bind]. rewrite wr_ok by lia. eexists. split; [reflexivity|]. now rewrite set_nth_length. }
  { exact LM. }
  rewrite HM. cbn [bind]. eauto.
Qed.
Lemma tls_ok_smoothing : forall o a cur prev t cur' t', mbe_applyAdaptiveSmoothing o a cur prev t = Ok (cur', t') -> tls_ok t -> tls_ok t'.
Proof. intros o a cur prev t cur' t' H T. apply smoothing_tls in H. subst t'. destruct (pending t a); exact T. Qed.
Lemma tls_ok_java : forall x t, tls_ok t -> tls_ok (with_java x t).
Proof. intros x t H. exact H. Qed.
Lemma but_bands_fields : forall m m', but_bands m m' -> wf_parms m -> same_bands_len m m' -> wf_parms m' /\ p_L m' = p_L m /\ p_w0 m' = p_w0 m.
Proof.
  intros m m' B W [S1 S2]. unfold but_bands in B. rewrite B. unfold wf_parms in *. fields. rewrite S1, S2. tauto.
Qed.
Lemma speech_total : forall o aout a cur prev uvq t T, wf_parms cur -> wf_parms prev -> 0 <= p_L cur <= 56 -> 0 <= p_L prev <= 56 ->
  ok_pitch (p_w0 cur) -> seed_ok (p_noiseSeed cur) -> tls_ok t -> length aout = 160%nat ->
  smoothing_Tm (p_errorRate cur) (p_errorCountTotal cur) (p_amplitudeThreshold prev) = Ok T ->
  exists aout' cur' prev' t', mbe_synthesizeSpeechf o aout a cur prev uvq t = Ok (aout', cur', prev', t') /\ seed_ok (p_noiseSeed cur') /\ tls_ok t'.
Proof.
  intros o aout a cur prev uvq t T WC WP LC LP PW SD TL LA HT. unfold mbe_synthesizeSpeechf.
  destruct (smoothing_total o a cur prev t T WC LC HT) as (c1 & t1 & HA). rewrite HA. cbn [bind].
  pose proof (wf_smoothing _ _ _ _ _ _ _ HA WC) as W1. pose proof (tls_ok_smoothing _ _ _ _ _ _ _ HA TL) as T1.
  apply smoothing_but in HA.
  assert (E1 : p_L c1 = p_L cur) by (rewrite HA; reflexivity). assert (E2 : p_w0 c1 = p_w0 cur) by (rewrite HA; reflexivity).
  assert (E3 : p_noiseSeed c1 = p_noiseSeed cur) by (rewrite HA; reflexivity).
  destruct (speech_muted c1).
  { rewrite comfort_frame by exact LA. cbn [bind]. do 4 eexists. split; [reflexivity|]. rewrite E3. split; [exact SD|exact T1]. }
  destruct (noise_total (p_noiseSeed c1) (p_noiseOverlap c1) t1) as (noise & s & ov & t2 & HN & LN & LO & SS & T2); [congruence|apply W1|exact T1|].
  rewrite HN. cbn [bind]. fields. destruct (count_total (p_L c1) (p_Vl c1)) as [nu HU]; [lia|apply W1|]. rewrite HU. cbn [bind].
  match goal with |- context [for_up 0 160 ?b aout] => destruct (for_up_ok0 (fun x : list f32 => length x = 160%nat) b 0 160 aout) as (z & HZ & LZ) end.
  { intros k x Hk Lx. rewrite wr_ok by lia. eexists. split; [reflexivity|]. now rewrite set_nth_length. }
  { exact LA. }
  rewrite HZ. cbn [bind].
  set (c2 := set_noiseOverlap ov (set_noiseSeed s c1)).
  assert (W2 : wf_parms c2). { unfold c2, wf_parms in *. fields. rewrite LO. tauto. }
  assert (K : exists c p maxl, (if p_L prev <? p_L c1 then p <- extend_bands (p_L prev) (p_L c1) prev ;; Ok (c2, p, p_L c1)
       else c <- extend_bands (p_L c1) (p_L prev) c2 ;; Ok (c, prev, p_L prev)) = Ok (c, p, maxl) /\ maxl <= 56 /\
       wf_parms c /\ wf_parms p /\ p_L c = p_L c1 /\ p_w0 c = p_w0 c1 /\ p_noiseSeed c = s).
  { destruct (p_L prev <? p_L c1).
    - destruct (extend_total (p_L prev) (p_L c1) prev) as [p HP]; [lia|lia|apply WP|apply WP|]. rewrite HP. cbn [bind].
      apply extend_inv in HP as [B1 B2]. destruct (but_bands_fields _ _ B1 WP B2) as (X1 & X2 & X3).
      do 3 eexists. split; [reflexivity|]. split; [lia|]. repeat split; auto; apply X1 || apply W2.
    - destruct (extend_total (p_L c1) (p_L prev) c2) as [p HP]; [lia|lia|apply W2|apply W2|]. rewrite HP. cbn [bind].
      apply extend_inv in HP as [B1 B2]. destruct (but_bands_fields _ _ B1 W2 B2) as (X1 & X2 & X3).
      do 3 eexists. split; [reflexivity|]. split; [lia|]. split; [exact X1|]. split; [exact WP|]. split; [exact X2|]. split; [exact X3|]. rewrite B1. reflexivity. }
  destruct K as (c & p & maxl & HK & HM & WC' & WP' & LC' & LW' & SC'). rewrite HK. cbn [bind]. clear HK.
  destruct (phases_total (p_w0 c1) (p_w0 prev) nu noise c p) as [[c3 p3] HP]; [apply WP'|apply WC'|apply WC'|exact LN|]. rewrite HP. cbn [bind].
  pose proof (phases_loop _ _ _ _ _ _ _ HP) as (F1 & F2 & F3 & F4 & F5 & _). cbn [fst snd] in *.
  assert (W3 : wf_parms c3). { rewrite F1. unfold wf_parms in *. fields. rewrite F3, F4. tauto. }
  assert (W4 : wf_parms p3). { rewrite F2. unfold wf_parms in *. fields. rewrite F5. tauto. }
  match goal with |- context [for_up 1 (maxl + 1) ?b z] => destruct (for_up_ok0 (fun x : list f32 => length x = 160%nat) b 1 (maxl + 1) z) as (h & HH & LH) end.
  { intros k x Hk Lx. apply harmonic_total; auto; lia. }
  { exact LZ. }
  rewrite HH. cbn [bind].
  assert (S3 : p_noiseSeed c3 = s) by (rewrite F1; exact SC').
  assert (K : exists b c4, (if o_plan o then '(aout, uw) <- mbe_synthesizeUnvoicedFFTWithNoise o h c3 p3 noise ;; Ok (aout, set_previousUw uw c3)
                     else Ok (h, c3)) = Ok (b, c4) /\ length b = 160%nat /\ p_noiseSeed c4 = s).
  { destruct (o_plan o); [|do 2 eexists; split; [reflexivity|auto]].
    destruct (unvoiced_total o h c3 p3 noise) as (b & uw & HU' & LB & _); auto.
    - rewrite F1. fields. lia.
    - rewrite F1. fields. rewrite LW', E2. exact PW.
    - rewrite HU'. cbn [bind]. do 2 eexists. split; [reflexivity|]. auto. }
  destruct K as (b & c4 & -> & LB & S4). cbn [bind]. destruct (clip_total b LB) as [b' ->]. cbn [bind].
  do 4 eexists. split; [reflexivity|]. rewrite S4. auto.
Qed.
Lemma speech_overflow : forall o aout a cur prev uvq t w, wf_parms cur -> 0 <= p_L cur <= 56 ->
  smoothing_Tm (p_errorRate cur) (p_errorCountTotal cur) (p_amplitudeThreshold prev) = UB w ->
  mbe_synthesizeSpeechf o aout a cur prev uvq t = UB w.
Proof.
  intros o aout a cur prev uvq t w (LV & LM & _) HL HT. unfold mbe_synthesizeSpeechf, mbe_applyAdaptiveSmoothing. cbv zeta. fields.
  assert (K : exists rm0 t', smoothing_rm0 a cur t = Ok (rm0, t')).
  { unfold smoothing_rm0. destruct (t_rm0_valid t && _); [eauto|]. rewrite sum_bands_ok by lia. cbn [bind]. eauto. }
  destruct K as (rm0 & t' & ->). cbn [bind].
  match goal with |- context [for_up _ _ ?b (p_Vl cur)] => destruct (for_up_ok0 (fun x : list Z => length x = 57%nat) b 1 (p_L cur + 1) (p_Vl cur)) as (V & HV & LV') end.
  { intros k s Hk Ls. destruct (rd_ok (p_Ml cur) k) as [x Hx]; [lia|]. rewrite Hx. cbn [bind]. destruct (fgt x _); [|eauto].
    rewrite wr_ok by lia. eexists. split; [reflexivity|]. now rewrite set_nth_length. }
  { exact LV. }
  rewrite HV. cbn [bind]. rewrite sum_bands_ok by lia. cbn [bind]. rewrite HT. reflexivity.
Qed.

(* the stored phases *)
Lemma two_pi_eq : TWO_PI_F = two_pi.
Proof. reflexivity. Qed.
Lemma two_pi_ff : ff TWO_PI_F.
Proof. apply ff_const. vm_compute. reflexivity. Qed.
Lemma two_pi_R : (6 < R_of TWO_PI_F < 7)%R.
Proof. R_val TWO_PI_F. lra. Qed.
Lemma eight_ff : ff (f_of_Z 8) /\ ff (f_of_Z (-8)) /\ R_of (f_of_Z 8) = 8%R /\ R_of (f_of_Z (-8)) = (-8)%R.
Proof. destruct (of_Z_R 8); [lia|]. destruct (of_Z_R (-8)); [lia|]. auto. Qed.
Lemma rnd_err : forall r, (Rabs r <= 8)%R -> (Rabs (rndf r - r) <= / 2097152)%R.
Proof.
  intros r H. unfold rndf, rnd.
  assert (VE : Valid_exp (SpecFloat.fexp 24 128)). { apply (fexp_correct 24 128). reflexivity. }
  pose proof (error_le_half_ulp radix2 (SpecFloat.fexp 24 128) (fun x => negb (Z.even x)) r) as E.
  eapply Rle_trans; [exact E|].
  assert (U : (ulp radix2 (SpecFloat.fexp 24 128) r <= bpow radix2 (-20))%R).
  { apply (Rle_trans _ (ulp radix2 (SpecFloat.fexp 24 128) (bpow radix2 3))).
    - apply ulp_le. + exact VE. + apply (fexp_monotone 24 128). + rewrite (Rabs_pos_eq (bpow radix2 3)) by (apply bpow_ge_0). cbn. lra.
    - rewrite ulp_bpow. apply bpow_le. vm_compute. discriminate. }
  cbn in U. lra.
Qed.
Lemma fin_ff : forall x, binary32 x -> finite x -> ff x.
Proof. intros x B F. split; [exact B|]. destruct x; auto; contradiction. Qed.
Lemma ff_fin : forall x, ff x -> binary32 x /\ finite x.
Proof. intros x [B F]. split; [exact B|]. destruct x; try discriminate; exact I. Qed.
Lemma wrap_R : forall x, ff x -> ff (wrap_phase x) /\ (0 <= R_of (wrap_phase x) <= R_of TWO_PI_F)%R /\
  exists k : Z, (Rabs (R_of (wrap_phase x) - (R_of x - IZR k * R_of TWO_PI_F)) <= / 2097152)%R.
Proof.
  intros x X. unfold wrap_phase. pose proof two_pi_R as TP.
  assert (E : exists m e, TWO_PI_F = S754_finite false m e) by (vm_compute; eauto). destruct E as (m & e & E).
  assert (V : vf (S754_finite false m e)). { rewrite <- E. apply two_pi_ff. }
  pose proof (ffmod_R x m e X V) as H. cbv zeta in H. rewrite <- E in H. destruct H as (F1 & F2 & F3 & F4 & k & F5).
  set (w := ffmod x TWO_PI_F) in *. cbv zeta. pose proof (Rabs_le_inv _ _ F2) as F2'.
  assert (Z0 : ff fzero) by (apply ff_const; reflexivity). change (R_of fzero) with 0%R in *.
  destruct (flt w fzero) eqn:C.
  - apply (proj1 (flt_true _ _ F1 Z0)) in C. change (R_of fzero) with 0%R in C.
    destruct (fadd_b w TWO_PI_F fzero TWO_PI_F F1 two_pi_ff Z0 two_pi_ff) as (A1 & A2 & A3); [change (R_of fzero) with 0%R; lra|].
    change (R_of fzero) with 0%R in A2. split; [exact A1|]. split; [exact A2|]. exists (k - 1)%Z. rewrite A3, minus_IZR.
    replace (R_of x - (IZR k - 1) * R_of TWO_PI_F)%R with (R_of w + R_of TWO_PI_F)%R by (rewrite F5; ring).
    apply rnd_err. apply Rabs_le. lra.
  - apply (proj1 (flt_false _ _ F1 Z0)) in C. change (R_of fzero) with 0%R in C. split; [exact F1|]. split; [lra|]. exists k. rewrite F5.
    replace (_ - _)%R with 0%R by ring. rewrite Rabs_R0. lra.
Qed.
Lemma wrap_ok : forall x, binary32 x -> finite x -> wrapped (wrap_phase x).
Proof.
  intros x B F. destruct (wrap_R x (fin_ff x B F)) as (A & [L U] & _). assert (Z0 : ff (S754_zero false)) by (apply ff_const; reflexivity).
  split; [now apply ff_fin|]. rewrite <- two_pi_eq. split.
  - apply fle_true; [exact Z0|exact A|exact L].
  - apply fle_true; [exact A|exact two_pi_ff|exact U].
Qed.

Lemma muted_eq : forall m, speech_muted m = muted m.
Proof. reflexivity. Qed.
Lemma muted_smoothing : forall m m', but_smoothing m m' -> speech_muted m' = speech_muted m.
Proof. intros m m' H. rewrite H. reflexivity. Qed.
Lemma speech_phases : forall o aout a cur prev uvq t aout' cur' prev' t',
  mbe_synthesizeSpeechf o aout a cur prev uvq t = Ok (aout', cur', prev', t') -> speech_muted cur = false ->
  forall l x, 1 <= l <= 56 -> rd (p_PSIl prev) l = Ok x ->
    rd (p_PSIl prev') l = Ok (wrap_phase x) /\ rd (p_PSIl cur') l = Ok (next_phase (p_w0 cur) (p_w0 prev) l (wrap_phase x)).
Proof.
  intros o aout a cur prev uvq t aout' cur' prev' t' H M l x Hl Hx. apply speech_inv in H as (c1 & t1 & HA & H).
  apply smoothing_but in HA. pose proof (muted_smoothing _ _ HA) as MM. assert (EW : p_w0 c1 = p_w0 cur) by (rewrite HA; reflexivity).
  destruct H as [(M' & _)|(_ & F)]; [congruence|].
  destruct F as (noise & seed & ov & nu & c & p & HN & B1 & B2 & B3 & B4 & PD & _). destruct PD as (_ & _ & _ & _ & _ & G & _).
  destruct (G l) as (psi & G1 & G2 & G3); [lia|]. cbn [fst snd] in *. fields. rewrite EW in G3.
  replace (p_PSIl p) with (p_PSIl prev) in G1 by (rewrite B3; reflexivity). rewrite Hx in G1. injection G1 as <-. auto.
Qed.
Lemma speech_muted_prev : forall o aout a cur prev uvq t aout' cur' prev' t',
  mbe_synthesizeSpeechf o aout a cur prev uvq t = Ok (aout', cur', prev', t') -> speech_muted cur = true ->
  prev' = prev /\ p_PSIl cur' = p_PSIl cur /\ p_PHIl cur' = p_PHIl cur /\ p_noiseSeed cur' = p_noiseSeed cur.
Proof.
  intros o aout a cur prev uvq t aout' cur' prev' t' H M. apply speech_inv in H as (c1 & t1 & HA & H).
  apply smoothing_but in HA. pose proof (muted_smoothing _ _ HA) as MM.
  destruct H as [(_ & -> & -> & _)|(M' & _)]; [|congruence]. split; [reflexivity|]. rewrite HA. auto.
Qed.

(* phases stay finite *)
Lemma next_phase_ff : forall cw0 pw0 l w, ok_pitch cw0 -> ok_pitch pw0 -> 1 <= l <= 56 -> ff w -> (0 <= R_of w <= 7)%R ->
  ff (next_phase cw0 pw0 l w).
Proof.
  intros cw0 pw0 l w [C1 C2] [P1 P2] Hl W WB. unfold next_phase.
  destruct (of_Z_R 2000) as [K1 K2]; [lia|]. assert (Z0 : ff fzero) by (apply ff_const; reflexivity). change (R_of fzero) with 0%R in *.
  destruct (fadd_b pw0 cw0 fzero (f_of_Z 2000) P1 C1 Z0 K1) as (A1 & A2 & _); [change (R_of fzero) with 0%R; rewrite K2; lra|].
  rewrite K2 in A2. change (R_of fzero) with 0%R in A2.
  destruct (of_Z_R (l * 160)) as [L1 L2]; [lia|]. destruct (of_Z_R 10000) as [T1 T2]; [lia|].
  assert (F2 : ff f_two) by (apply ff_const; reflexivity). assert (R2 : R_of f_two = 2%R) by (R_val f_two; lra).
  assert (LB : (160 <= IZR (l * 160) <= 8960)%R) by (split; apply IZR_le; lia).
  destruct (fdiv_b (f_of_Z (l * 160)) f_two fzero (f_of_Z 10000) L1 F2) as (D1 & D2 & _); [rewrite R2; lra|exact Z0|exact T1| |].
  { rewrite R2, L2, T2. change (R_of fzero) with 0%R. lra. }
  rewrite T2 in D2. change (R_of fzero) with 0%R in D2.
  assert (B1 : ff (flit 20000000 1) /\ R_of (flit 20000000 1) = 20000000%R). { split; [apply ff_const; vm_compute; reflexivity|]. R_val (flit 20000000 1). lra. }
  destruct B1 as [B1 B2].
  destruct (fmul_b (fadd pw0 cw0) (fdiv (f_of_Z (l * 160)) f_two) fzero (flit 20000000 1) A1 D1 Z0 B1) as (M1 & M2 & _).
  { rewrite B2. change (R_of fzero) with 0%R. generalize dependent (R_of (fadd pw0 cw0)). generalize dependent (R_of (fdiv (f_of_Z (l * 160)) f_two)).
    intros r [D3 D4] q [A3 A4]. nra. }
  rewrite B2 in M2. change (R_of fzero) with 0%R in M2.
  assert (B3 : ff (flit 40000000 1) /\ R_of (flit 40000000 1) = 40000000%R). { split; [apply ff_const; vm_compute; reflexivity|]. R_val (flit 40000000 1). lra. }
  destruct B3 as [B3 B4].
  apply (fadd_b w _ fzero (flit 40000000 1) W M1 Z0 B3). rewrite B4. change (R_of fzero) with 0%R. lra.
Qed.
Lemma pitch_ok : forall w0, pitch_in_range w0 -> ok_pitch w0.
Proof.
  intros w0 (B & F & L & U). pose proof (fin_ff _ B F) as X. split; [exact X|]. assert (Z0 : ff (S754_zero false)) by (apply ff_const; reflexivity).
  destruct (of_Z_R 1000) as [K1 K2]; [lia|]. apply (proj1 (fle_true _ _ Z0 X)) in L. apply (proj1 (fle_true _ _ X K1)) in U. rewrite K2 in U.
  change (R_of (S754_zero false)) with 0%R in L. lra.
Qed.
Lemma speech_phases_finite : forall o aout a cur prev uvq t aout' cur' prev' t',
  mbe_synthesizeSpeechf o aout a cur prev uvq t = Ok (aout', cur', prev', t') -> speech_muted cur = false ->
  ok_pitch (p_w0 cur) -> ok_pitch (p_w0 prev) ->
  (forall l x, 1 <= l <= 56 -> rd (p_PSIl prev) l = Ok x -> ff x) -> 
  forall l x, 1 <= l <= 56 -> rd (p_PSIl prev) l = Ok x -> exists y, rd (p_PSIl cur') l = Ok y /\ ff y.
Proof.
  intros o aout a cur prev uvq t aout' cur' prev' t' H M PC PP F l x Hl Hx.
  destruct (speech_phases _ _ _ _ _ _ _ _ _ _ _ H M l x Hl Hx) as [_ E]. eexists. split; [exact E|].
  destruct (wrap_R x (F l x Hl Hx)) as (W1 & W2 & _). pose proof two_pi_R. apply next_phase_ff; auto. lra.
Qed.

Lemma phases_wrapped : forall o aout a cur prev uvq t aout' cur' prev' t',
  mbe_synthesizeSpeechf o aout a cur prev uvq t = Ok (aout', cur', prev', t') -> muted cur = false ->
  forall l x, 1 <= l <= 56 -> rd (p_PSIl prev) l = Ok x -> binary32 x -> finite x ->
  exists y, rd (p_PSIl prev') l = Ok y /\ wrapped y /\ rd (p_PSIl cur') l = Ok (advance (p_w0 cur) (p_w0 prev) l y) /\
    exists k : Z, (Rabs (SF2R radix2 y - (SF2R radix2 x - IZR k * SF2R radix2 two_pi)) <= / 2097152)%R.
Proof.
  intros o aout a cur prev uvq t aout' cur' prev' t' H M l x Hl Hx B F. rewrite <- muted_eq in M.
  destruct (speech_phases _ _ _ _ _ _ _ _ _ _ _ H M l x Hl Hx) as [E1 E2]. exists (wrap_phase x). split; [exact E1|].
  split; [now apply wrap_ok|]. split; [exact E2|]. exact (proj2 (proj2 (wrap_R x (fin_ff x B F)))).
Qed.
Lemma phases_muted : forall o aout a cur prev uvq t aout' cur' prev' t',
  mbe_synthesizeSpeechf o aout a cur prev uvq t = Ok (aout', cur', prev', t') -> muted cur = true -> prev' = prev /\ p_PSIl cur' = p_PSIl cur.
Proof.
  intros o aout a cur prev uvq t aout' cur' prev' t' H M. rewrite <- muted_eq in M.
  destruct (speech_muted_prev _ _ _ _ _ _ _ _ _ _ _ H M) as (A & B & _). auto.
Qed.
Lemma phases_finite : forall o aout a cur prev uvq t aout' cur' prev' t',
  mbe_synthesizeSpeechf o aout a cur prev uvq t = Ok (aout', cur', prev', t') -> muted cur = false ->
  pitch_in_range (p_w0 cur) -> pitch_in_range (p_w0 prev) ->
  forall l x, 1 <= l <= 56 -> rd (p_PSIl prev) l = Ok x -> binary32 x -> finite x -> exists y, rd (p_PSIl cur') l = Ok y /\ binary32 y /\ finite y.
Proof.
  intros o aout a cur prev uvq t aout' cur' prev' t' H M PC PP l x Hl Hx B F. rewrite <- muted_eq in M.
  destruct (speech_phases _ _ _ _ _ _ _ _ _ _ _ H M l x Hl Hx) as [_ E]. eexists. split; [exact E|].
  destruct (wrap_R x (fin_ff x B F)) as (W1 & W2 & _). pose proof two_pi_R. apply ff_fin. apply next_phase_ff; auto using pitch_ok. lra.
Qed.
Lemma edges_spec : forall L w0, 0 <= L <= 56 -> pitch_in_range w0 -> exists lo hi, band_edges L w0 = Ok (lo, hi) /\
  forall l, 1 <= l <= L -> nth_error lo (Z.to_nat l) = Some (Some (band_edge w0 (l - 1))) /\
                           nth_error hi (Z.to_nat l) = Some (Some (Z.min 128 (band_edge w0 l))).
Proof.
  intros L w0 HL P. destruct (edges_ok L w0 HL (pitch_ok _ P)) as (lo & hi & E & _ & _ & H). exists lo, hi. split; [exact E|].
  intros l Hl. destruct (H l Hl) as [A B]. split; [apply rd_inv in A as [_ A]; exact A|apply rd_inv in B as [_ B]; exact B].
Qed.
Lemma edges_tile : forall L w0 lo hi, 0 <= L <= 56 -> pitch_in_range w0 -> band_edges L w0 = Ok (lo, hi) ->
  0 <= band_edge w0 0 /\
  (forall bin, (exists l, 1 <= l <= L /\ in_band lo hi l bin) <-> band_edge w0 0 <= bin < Z.min 128 (band_edge w0 L)) /\
  (forall bin l l', 1 <= l <= L -> 1 <= l' <= L -> in_band lo hi l bin -> in_band lo hi l' bin -> l = l').
Proof.
  intros L w0 lo hi HL P E. apply pitch_ok in P. destruct (edges_ok L w0 HL P) as (lo' & hi' & E' & _ & _ & H). rewrite E in E'. injection E' as <- <-.
  split; [apply (edge_R w0 0 P); lia|]. split; [apply tile; auto|]. eapply tile_unique; eauto.
Qed.
Lemma unvoiced_defined : forall o out cur prev noise, wf_parms cur -> wf_parms prev -> 0 <= p_L cur <= 56 -> pitch_in_range (p_w0 cur) ->
  length noise = 256%nat -> length out = 160%nat ->
  exists out' uw, mbe_synthesizeUnvoicedFFTWithNoise o out cur prev noise = Ok (out', uw) /\ length out' = 160%nat /\ length uw = 256%nat.
Proof. intros. apply unvoiced_total; auto using pitch_ok. Qed.
