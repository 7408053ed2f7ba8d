(* Process calls: speaking one frame, and the IMBE state machine. *)
From Coq Require Import ZArith List Bool Lia Reals Lra.
From Verif Require Import Res F32 MFrame MParms MAdaptive MUnvoiced MSynth MImbe MAmbe SpecEcc SpecFrame SpecState SpecAdaptive SpecSum SpecGen SpecOut SpecWola SpecImbe SpecEnh SpecMachine
  PBase PRun PLoop PState PFloat PFloat2 PArr PAdapt PGen POut PWola PSpeech PConv PImbe PEnh PNyq.
From Flocq Require Import Core.Core IEEE754.BinarySingleNaN.
Import ListNotations.
Local Open Scope Z_scope.

Lemma pitch_back : forall w, ok_pitch w -> pitch_in_range w.
Proof.
  intros w [F H]. assert (Z0 : ff (S754_zero false)) by (apply ff_const; reflexivity). destruct (of_Z_R 1000) as [K1 K2]; [lia|].
  repeat split.
  - apply F.
  - destruct F as [_ F]. destruct w; try discriminate F; exact I.
  - apply fle_true; auto. change (R_of (S754_zero false)) with 0%R. lra.
  - apply fle_true; auto. rewrite K2. lra.
Qed.

(* ---- smoothing threshold ---- *)
Lemma Tm_total : forall rate total T, 0 <= total <= 100 -> T <= 2147483647 - 6000 ->
  exists T', smoothing_Tm rate total T = Ok T' /\ -24000 <= T' <= Z.max 20480 T + 6000.
Proof.
  intros rate total T Ht HT. unfold smoothing_Tm. cbv zeta. change DEFAULT_AMPLITUDE_THRESHOLD with 20480. change AMPLITUDE_PENALTY with 300. change AMPLITUDE_BASE with 6000.
  destruct (fle rate LOW && (total <=? 6)); [eexists; split; [reflexivity|lia]|].
  assert (TI : forall z, -1000000 <= z <= 2147483647 -> to_int z = Ok z) by (intros; apply to_int_ok; lia).
  rewrite TI by lia. cbn [bind]. rewrite TI by lia. cbn [bind]. rewrite TI by (destruct (T <=? 0) eqn:E; lia).
  eexists. split; [reflexivity|]. destruct (T <=? 0) eqn:E; lia.
Qed.
Lemma Tm_bound : forall rate total T T', 0 <= total <= 100 -> smoothing_Tm rate total T = Ok T' -> -24000 <= T' <= Z.max 20480 T + 6000.
Proof.
  intros rate total T T' Ht H. unfold smoothing_Tm in H. cbv zeta in H. change DEFAULT_AMPLITUDE_THRESHOLD with 20480 in H. change AMPLITUDE_PENALTY with 300 in H. change AMPLITUDE_BASE with 6000 in H.
  assert (TI : forall z z', to_int z = Ok z' -> z' = z) by (intros z z' Hz; apply to_int_inv in Hz; tauto).
  destruct (fle rate LOW && (total <=? 6)); [injection H as <-; lia|].
  apply bind_inv in H as (p & Hp & H). apply TI in Hp. apply bind_inv in H as (q & Hq & H). apply TI in Hq. apply TI in H. subst. destruct (T <=? 0) eqn:E; lia.
Qed.

Lemma speech_threshold : forall o aout a cur prev uvq t aout' cur' prev' t',
  mbe_synthesizeSpeechf o aout a cur prev uvq t = Ok (aout', cur', prev', t') ->
  smoothing_Tm (p_errorRate cur) (p_errorCountTotal cur) (p_amplitudeThreshold prev) = Ok (p_amplitudeThreshold cur').
Proof.
  intros o aout a cur prev uvq t aout' cur' prev' t' H. apply speech_inv in H as (c1 & t1 & HA & H).
  assert (E : p_amplitudeThreshold cur' = p_amplitudeThreshold c1).
  { destruct H as [(_ & -> & _)|(_ & F)]; [reflexivity|]. destruct F as (noise & seed & ov & nu & c & p & HN & B1 & B2 & B3 & B4 & PD & _ & U).
    destruct PD as (F1 & _). cbn [fst snd] in *. apply (f_equal p_amplitudeThreshold) in F1. fields. rewrite F1, B1. reflexivity. }
  apply smoothing_inv in HA as (rm0 & V & Am & T & M & _ & _ & _ & HT & _ & ->). rewrite E. exact HT.
Qed.

(* ---- one spoken frame ---- *)
(* the samples comfort noise produces do not depend on the handoff *)
Lemma comfort_handoff : forall aout t u, length aout = 160%nat -> java_pre t = java_pre u -> exists x u1 t1,
  mbe_synthesizeComfortNoisef aout u = Ok (x, u1) /\ mbe_synthesizeComfortNoisef aout t = Ok (x, t1).
Proof. intros aout t u L E. rewrite !comfort_frame by exact L. rewrite E. eauto. Qed.

Lemma speak_inv : forall o a aout cur enh uvq t aout' st' t', wf_parms cur -> wf_parms enh -> 0 <= p_L cur <= 56 -> length aout = 160%nat ->
  ambe_speak o a aout cur enh uvq t = Ok (aout', st', t') ->
  exists c', st' = (c', cur, c') /\ but_speech cur c' /\ wf_parms c' /\ length aout' = 160%nat /\ Forall bounded_sample aout'
    /\ smoothing_Tm (p_errorRate cur) (p_errorCountTotal cur) (p_amplitudeThreshold enh) = Ok (p_amplitudeThreshold c')
    /\ (speech_muted cur = true -> p_noiseSeed c' = p_noiseSeed cur /\ exists t1, mbe_synthesizeComfortNoisef aout t = Ok (aout', t1))
    /\ t_rm0_valid t' = false.
Proof.
  intros o a aout cur enh uvq t aout' st' t' WC WE HL LA H. unfold ambe_speak in H. cbv zeta in H. unfold mbe_moveMbeParms in H.
  destruct (enhance_ok o a cur t) as (c1 & xs & HE & EN); [apply WC|exact HL|]. rewrite HE in H. cbn [bind] in H.
  apply bind_inv in H as ([[[b c2] e2] t2] & HS & H).
  assert (Q : st' = (c2, cur, c2) /\ aout' = b /\ t' = t2) by (injection H as <- <- <-; auto). destruct Q as (-> & -> & ->). clear H.
  exists c2. split; [reflexivity|]. destruct EN as (E1 & (E2 & _) & _).
  assert (W1 : wf_parms c1). { unfold wf_parms in *. rewrite E1. fields. rewrite E2. exact WC. }
  destruct (speech_effect _ _ _ _ _ _ _ _ _ _ _ W1 WE HS) as (B & _ & W2 & _).
  destruct (speech_bounded _ _ _ _ _ _ _ _ _ _ _ LA HS) as [LB FB].
  pose proof (speech_threshold _ _ _ _ _ _ _ _ _ _ _ HS) as TT.
  assert (MU : speech_muted c1 = speech_muted cur) by (rewrite E1; reflexivity).
  split; [unfold but_speech in *; rewrite B, E1; reflexivity|]. split; [exact W2|]. split; [exact LB|]. split; [exact FB|].
  split; [rewrite E1 in TT; exact TT|]. 
  apply speech_inv in HS as (c3 & t3 & HA & HS). pose proof (smoothing_but _ _ _ _ _ _ _ HA) as BS. pose proof (muted_smoothing _ _ BS) as MM.
  pose proof (smoothing_tls _ _ _ _ _ _ _ HA) as TL.
  assert (T3 : t_rm0_valid t3 = false /\ java_pre t3 = java_pre t).
  { rewrite TL. unfold pending, mbe_setPreEnhRm0. destruct (fge (energy_total (o_simd o) (bands (p_Ml cur) (p_L cur))) fzero); cbn [t_rm0_valid t_rm0_owner set_handoff andb]; [rewrite Z.eqb_refl|]; (split; [reflexivity|]); unfold java_pre; reflexivity. }
  destruct T3 as [T3 T4].
  split.
  - intros M. destruct HS as [(_ & -> & _ & HC)|(M' & _)]; [|congruence]. split; [rewrite BS, E1; reflexivity|].
    destruct (comfort_handoff aout t t3 LA) as (x & u1 & t1 & C1 & C2); [symmetry; exact T4|].
    exists t1. rewrite HC in C1. injection C1 as -> _. exact C2.
  - destruct HS as [(_ & _ & _ & HC)|(_ & F)].
    + rewrite comfort_frame in HC by exact LA. apply (f_equal (fun r => match r with Ok (_, x) => t_rm0_valid x | UB _ => true end)) in HC.
      unfold with_java in HC. cbn [t_rm0_valid] in HC. congruence.
    + destruct F as (noise & seed & ov & nu & c & p & HN & _). apply noise_effect in HN as (_ & _ & HN); [rewrite HN; exact T3|].
      rewrite BS, E1. destruct WC as (_ & _ & _ & _ & _ & _ & WO). exact WO.
Qed.
Lemma speak_defined : forall o a aout cur enh uvq t T, sane cur -> sane enh -> smoothing_Tm (p_errorRate cur) (p_errorCountTotal cur) (p_amplitudeThreshold enh) = Ok T -> thread_ok t -> length aout = 160%nat ->
  exists aout' c' t', ambe_speak o a aout cur enh uvq t = Ok (aout', (c', cur, c'), t') /\ sane c' /\ thread_ok t'.
Proof.
  intros o a aout cur enh uvq t T (WC & LC & PC & SC & TC & RC & RR) (WE & LE & PE & SE & TE & RE & _) HT TH LA.
  destruct (enhance_ok o a cur t) as (c1 & xs & HE & EN); [apply WC|exact LC|]. destruct EN as (E1 & (E2 & _) & _).
  assert (W1 : wf_parms c1). { unfold wf_parms in *. rewrite E1. fields. rewrite E2. exact WC. }
  assert (TH1 : tls_ok (mbe_setPreEnhRm0 a (energy_total (o_simd o) (bands (p_Ml cur) (p_L cur))) t)) by (unfold mbe_setPreEnhRm0; destruct (fge _ _); exact TH).
  destruct (speech_total o aout a c1 enh uvq (mbe_setPreEnhRm0 a (energy_total (o_simd o) (bands (p_Ml cur) (p_L cur))) t) T W1 WE) as (b & c' & e' & t' & HS & SS & TS).
  { rewrite E1; exact LC. } { exact LE. } { rewrite E1; apply pitch_ok, PC. } { rewrite E1; exact SC. } { exact TH1. } { exact LA. } { rewrite E1; exact HT. }
  exists b, c', t'. split.
  - unfold ambe_speak, mbe_moveMbeParms. cbv zeta. rewrite HE. cbn [bind]. rewrite HS. reflexivity.
  - split; [|exact TS]. destruct (speech_effect _ _ _ _ _ _ _ _ _ _ _ W1 WE HS) as (B & _ & W2 & _).
    assert (B' : but_speech cur c') by (unfold but_speech in *; rewrite B, E1; reflexivity). clear B.
    unfold sane. split; [exact W2|]. split; [rewrite B'; exact LC|]. split; [rewrite B'; exact PC|]. split; [exact SS|].
    split; [rewrite B'; exact TC|]. split; rewrite B'; [exact RC|exact RR].
Qed.
Lemma speak_total : forall o a aout cur enh uvq t, sane cur -> sane enh -> threshold_room enh -> thread_ok t -> length aout = 160%nat ->
  exists aout' c' t', ambe_speak o a aout cur enh uvq t = Ok (aout', (c', cur, c'), t') /\ sane c' /\ thread_ok t'.
Proof.
  intros o a aout cur enh uvq t SC SE TR TH LA. destruct (Tm_total (p_errorRate cur) (p_errorCountTotal cur) (p_amplitudeThreshold enh)) as (T & HT & _); [apply SC|exact TR|].
  eapply speak_defined; eassumption.
Qed.
Lemma speak_sane : forall o a aout cur enh uvq t aout' c' p' e' t', sane cur -> sane enh -> thread_ok t -> length aout = 160%nat ->
  ambe_speak o a aout cur enh uvq t = Ok (aout', (c', p', e'), t') -> sane c' /\ thread_ok t'.
Proof.
  intros o a aout cur enh uvq t aout' c' p' e' t' SC SE TH LA H.
  destruct (speak_inv _ _ _ _ _ _ _ _ _ _ (proj1 SC) (proj1 SE) (proj1 (proj2 SC)) LA H) as (k & E & _ & _ & _ & _ & HT & _).
  destruct (speak_defined o a aout cur enh uvq t _ SC SE HT TH LA) as (b & c & t2 & E2 & S & T). rewrite E2 in H. injection H as <- <- _ _ <-. auto.
Qed.

(* ---- IMBE parameters of a frame ---- *)
Lemma imbe_pitch_range : forall b, 0 <= b <= 207 -> pitch_in_range (imbe_w0_of_b0 b).
Proof.
  intros b Hb. destruct (imbe_w0_near b Hb) as (F & N & _). apply pitch_back. split; [exact F|]. pose proof PI_bounds as P.
  apply Rabs_le_inv in N. assert (K : (0 <= IZR b)%R) by (apply IZR_le; lia). generalize dependent (R_of (imbe_w0_of_b0 b)). intros x N. split; nra.
Qed.
(* the reset of a parameter set after prolonged repetition *)
Definition headroom (m : parms) : parms :=
  set_mutingThreshold MUTING_IMBE (set_amplitudeThreshold 20480 (set_localEnergy (f_of_Z 75000) (set_repeatCount 0 (set_repeat 0
    (set_log2Ml (repeat fzero 57) (set_Ml (repeat fone 57) (set_Vl (repeat 0 57) (set_gamma fzero (set_K 12 (set_L 39 (set_w0 (p_w0 imbe_initial) (set_un 0 (set_swn 0 m))))))))))))).
Lemma headroom_ok : forall m, wf_parms m -> imbe_reset_headroom_defaults m = Ok (headroom m).
Proof.
  intros m (LV & LM & LG & _). unfold imbe_reset_headroom_defaults. cbv zeta. cbn [p_w0 set_w0]. rewrite default_w0_val, default_L_val. cbn [bind].
  set (m0 := set_gamma _ _).
  match goal with |- context [for_up 0 57 ?b m0] => 
    destruct (for_up_ok (fun k m' => exists a v c, m' = set_log2Ml c (set_Ml a (set_Vl v m0)) /\ filled 57 k 0 v /\ filled 57 k fone a /\ filled 57 k fzero c) b 0 57 m0) as (m' & Hm' & HP) end; [lia| | |].
  - intros k m' Hk (a & v & c & -> & Fv & Fa & Fc).
    destruct (filled_step _ _ _ _ Fv) as (v' & Wv & Fv'); [lia|]. destruct (filled_step _ _ _ _ Fa) as (a' & Wa & Fa'); [lia|]. destruct (filled_step _ _ _ _ Fc) as (c' & Wc & Fc'); [lia|].
    exists (set_log2Ml c' (set_Ml a' (set_Vl v' m0))). split; [|exists a', v', c'; auto].
    cbn [p_Ml p_Vl p_log2Ml set_Ml set_Vl set_log2Ml]. rewrite Wv. cbn [bind]. rewrite Wa. cbn [bind]. rewrite Wc. reflexivity.
  - exists (p_Ml m0), (p_Vl m0), (p_log2Ml m0). split; [reflexivity|]. split; [|split]; (split; [assumption|intros; lia]).
  - rewrite Hm'. cbn [bind]. destruct HP as (a & v & c & -> & Fv & Fa & Fc). apply (filled_all 57) in Fv, Fa, Fc. subst. reflexivity.
Qed.

Definition reused (need : bool) (prev : parms) : bool := need && (p_repeatCount prev <? 4).
(* the parameter set of a frame: fresh, reset or the previous one *)
Definition picked {A} (need : bool) (prev : parms) (old reset fresh : A) : A :=
  if need then if p_repeatCount prev <? 4 then old else reset else fresh.
Lemma imbe_needs_eq : forall bad d n rate c0 cv, (bad = 1 <-> 207 < pitch7200 d) -> imbe_repeat_required bad n rate c0 cv = imbe_needs d n rate (context c0 cv).
Proof.
  intros bad d n rate c0 cv H. unfold imbe_repeat_required, imbe_needs, context. destruct (Z.eqb_spec bad 1) as [E|E].
  - apply H in E. destruct (Z.ltb_spec 207 (pitch7200 d)); [reflexivity|lia].
  - destruct (Z.ltb_spec 207 (pitch7200 d)); [tauto|]. destruct cv; reflexivity.
Qed.
Lemma imbe_conceal_inv : forall rep cur prev c', wf_parms cur -> imbe_conceal rep cur prev = Ok c' ->
  c' = picked rep prev (set_repeatCount (p_repeatCount prev + 1) (set_repeat (p_repeat prev + 1) prev)) (headroom cur) (set_repeatCount 0 (set_repeat 0 cur)).
Proof.
  intros rep cur prev c' W H. unfold imbe_conceal in H. unfold picked. change (MAX_FRAME_REPEATS - 1) with 3 in H.
  destruct rep; [|now injection H]. destruct (Z.ltb_spec 3 (p_repeatCount prev)); destruct (Z.ltb_spec (p_repeatCount prev) 4); try lia.
  - rewrite headroom_ok in H by exact W. now injection H.
  - apply bind_inv in H as (r & Hr & H). apply bind_inv in H as (rc & Hrc & H). apply to_int_inv in Hr as [-> _]. apply to_int_inv in Hrc as [-> _]. now injection H.
Qed.

(* the current set as the decoder gets it *)
Definition imbe_entry (n : Z) (cv : bool) (cur prev : parms) : parms :=
  let c := set_errorRate (imbe_rate (p_errorRate prev) n) (set_errorCountTotal n (set_mutingThreshold MUTING_IMBE cur)) in
  if cv then c else set_errorCount4 0 c.
Lemma imbe_decode_cases : forall o d n cv cur prev bad c1 p1, is_bits 88 d -> wf_parms cur -> wf_parms prev ->
  mbe_decodeImbe4400Parms o d (imbe_entry n cv cur prev) prev = Ok (bad, c1, p1) ->
  (bad = 1 <-> 207 < pitch7200 d) /\ wf_parms c1 /\ wf_parms p1 /\ p1 = set_log2Ml (p_log2Ml p1) (set_Ml (p_Ml p1) prev) /\
  c1 = set_log2Ml (p_log2Ml c1) (set_Ml (p_Ml c1) (set_Vl (p_Vl c1) (set_K (p_K c1) (set_L (p_L c1) (set_w0 (p_w0 c1) (set_repeat (p_repeat c1) (imbe_entry n cv cur prev))))))) /\
  (pitch7200 d <= 207 -> p_L c1 = imbe_harmonics (pitch7200 d) /\ p_w0 c1 = imbe_w0_of_b0 (pitch7200 d)).
Proof.
  intros o d n cv cur prev bad c1 p1 Hd WC WP H. set (e := imbe_entry n cv cur prev) in *.
  assert (WE : wf_parms e) by (unfold e, imbe_entry; destruct cv; exact WC).
  destruct (Z_lt_ge_dec 207 (pitch7200 d)) as [A|A].
  - rewrite imbe_decode_bad in H by assumption.
    assert (Q : bad = 1 /\ c1 = set_repeat (p_repeat prev) e /\ p1 = prev) by (injection H; auto). destruct Q as (-> & -> & ->).
    split; [tauto|]. split; [exact WE|]. split; [exact WP|]. split; [now destruct prev|]. split; [now destruct e|lia].
  - destruct (imbe_decode_inv _ _ _ _ _ _ _ Hd ltac:(lia) (proj1 WE) H) as (-> & AC & EW).
    destruct AC as (E1 & _ & _ & _ & [S1 _] & [S2 _] & [S3 _] & E2 & [X1 _] & [X2 _] & E3).
    split; [lia|]. split; [|split; [|split; [exact E3|split; [exact E2|auto]]]].
    + unfold wf_parms in *. rewrite S1, S2, S3. rewrite E2. fields. tauto.
    + unfold wf_parms in *. rewrite X1, X2. rewrite E3. fields. tauto.
Qed.
Lemma imbe_parameters_inv : forall o d n cur prev c0 cv c' p' rep mut, is_bits 88 d -> wf_parms cur -> wf_parms prev ->
  imbe_parameters o d n cur prev c0 cv = Ok (c', p', rep, mut) ->
  exists bad c1, mbe_decodeImbe4400Parms o d (imbe_entry n cv cur prev) prev = Ok (bad, c1, p') /\
  rep = imbe_needs d n (imbe_rate (p_errorRate prev) n) (context c0 cv) /\ mut = (4 <=? p_repeatCount c') || fgt (p_errorRate c') (p_mutingThreshold c') /\
  c' = picked rep prev (set_repeatCount (p_repeatCount prev + 1) (set_repeat (p_repeat prev + 1) p')) (headroom c1) (set_repeatCount 0 (set_repeat 0 c1)) /\ wf_parms c'.
Proof.
  intros o d n cur prev c0 cv c' p' rep mut Hd WC WP H. unfold imbe_parameters in H. cbv zeta in H.
  change (if cv then _ else _) with (imbe_entry n cv cur prev) in H.
  apply bind_inv in H as ([[bad c1] p1] & HD & H). apply bind_inv in H as (c2 & HC & H).
  destruct (imbe_decode_cases _ _ _ _ _ _ _ _ _ Hd WC WP HD) as (B & W1 & WP1 & EP & EC & _).
  assert (ER : p_errorRate c1 = imbe_rate (p_errorRate prev) n). { rewrite EC. fields. unfold imbe_entry. now destruct cv. }
  rewrite ER, (imbe_needs_eq bad d) in HC, H by exact B.
  set (need := imbe_needs d n (imbe_rate (p_errorRate prev) n) (context c0 cv)) in *.
  assert (Q : c' = c2 /\ p' = p1 /\ rep = need /\ mut = mbe_isMaxFrameRepeat c2 || mbe_requiresMuting c2) by (injection H as <- <- <- <-; auto).
  destruct Q as (-> & -> & -> & ->). clear H. exists bad, c1. split; [exact HD|]. split; [reflexivity|]. split; [reflexivity|].
  apply imbe_conceal_inv in HC; [|exact W1]. assert (RC : p_repeatCount p1 = p_repeatCount prev) by (rewrite EP; reflexivity).
  assert (RR : p_repeat p1 = p_repeat prev) by (rewrite EP; reflexivity). unfold picked in HC. rewrite RC, RR in HC. split; [exact HC|].
  rewrite HC. destruct need; [|exact W1]. destruct (p_repeatCount prev <? 4); [exact WP1|]. destruct W1 as (_ & _ & _ & U). unfold wf_parms, headroom. fields. repeat split; apply U.
Qed.

Lemma imbe_parameters_sane : forall o d n cur prev c0 cv c' p' rep mut, is_bits 88 d -> 0 <= n <= 100 -> sane cur -> sane prev ->
  imbe_parameters o d n cur prev c0 cv = Ok (c', p', rep, mut) -> sane c'.
Proof.
  intros o d n cur prev c0 cv c' p' rep mut Hd Hn SC SP H.
  destruct (imbe_parameters_inv _ _ _ _ _ _ _ _ _ _ _ Hd (proj1 SC) (proj1 SP) H) as (bad & c1 & HD & ER & _ & EC' & W').
  destruct (imbe_decode_cases _ _ _ _ _ _ _ _ _ Hd (proj1 SC) (proj1 SP) HD) as (B & W1 & WP1 & EP & EC & EL).
  destruct SC as (_ & LC & PC & NC & TC & RC & RR). destruct SP as (_ & LP & PP & NP & TP & RP & RQ).
  split; [exact W'|]. rewrite EC'. unfold picked. destruct rep.
  - destruct (Z.ltb_spec (p_repeatCount prev) 4).
    + rewrite EP. fields. repeat split; try assumption; try lia; apply PP.
    + unfold headroom. rewrite EC. fields. split; [lia|]. split; [vm_compute; repeat split|].
      split; [unfold imbe_entry; destruct cv; exact NC|]. split; [unfold imbe_entry; destruct cv; exact Hn|]. lia.
  - pose proof (pitch7200_range d Hd) as R.
    assert (L207 : pitch7200 d <= 207). { unfold imbe_needs in ER. symmetry in ER. apply orb_false_iff in ER as [ER _]. lia. }
    destruct (EL L207) as [E1 E2]. pose proof (harmonics_range (pitch7200 d) ltac:(lia)). rewrite EC. fields. rewrite E1, E2.
    split; [lia|]. split; [apply imbe_pitch_range; lia|]. split; [unfold imbe_entry; destruct cv; exact NC|]. split; [unfold imbe_entry; destruct cv; exact Hn|]. lia.
Qed.
(* the whole call *)
Lemma imbe_process_eq : forall o a aout n d cur prev enh uvq c0 cv t,
  mbe_processImbe4400Dataf_withC0 o a aout n d (cur, prev, enh) uvq c0 cv t =
  ('(c, p, rep, mut) <- imbe_parameters o d n cur prev c0 cv ;;
   '(b, st, t) <- ambe_speak o a aout c enh uvq t ;;
   Ok (b, eq_run n ++ (if rep then [ch_R] else []) ++ (if mut then [ch_M] else []) ++ [0], st, t)).
Proof.
  intros. unfold mbe_processImbe4400Dataf_withC0. destruct (imbe_parameters o d n cur prev c0 cv) as [[[[c p] rep] mut]|]; [|reflexivity]. cbn [bind]. unfold ambe_speak. cbv zeta. unfold mbe_moveMbeParms.
  destruct (mbe_spectralAmpEnhance o a c t) as [[c1 t1]|]; [|reflexivity]. cbn [bind]. destruct (mbe_synthesizeSpeechf o aout a c1 enh uvq t1) as [[[[b c2] e2] t2]|]; reflexivity.
Qed.
Lemma imbe_process_inv : forall o a aout n d cur prev enh uvq c0 cv t b str st' t', is_bits 88 d -> 0 <= n <= 100 -> sane_state (cur, prev, enh) -> length aout = 160%nat ->
  mbe_processImbe4400Dataf_withC0 o a aout n d (cur, prev, enh) uvq c0 cv t = Ok (b, str, st', t') ->
  exists bad c1 p1 c' k, 
  let need := imbe_needs d n (imbe_rate (p_errorRate prev) n) (context c0 cv) in
  mbe_decodeImbe4400Parms o d (imbe_entry n cv cur prev) prev = Ok (bad, c1, p1) /\
  c' = picked need prev (set_repeatCount (p_repeatCount prev + 1) (set_repeat (p_repeat prev + 1) p1)) (headroom c1) (set_repeatCount 0 (set_repeat 0 c1)) /\ 
  sane c' /\ st' = (k, c', k) /\ (thread_ok t -> sane k /\ thread_ok t') /\ but_speech c' k /\
  str = eq_run n ++ (if need then [82] else []) ++ (if (4 <=? p_repeatCount c') || fgt (p_errorRate c') (p_mutingThreshold c') then [77] else []) ++ [0] /\
  length b = 160%nat /\ Forall bounded_sample b /\ smoothing_Tm (p_errorRate c') (p_errorCountTotal c') (p_amplitudeThreshold enh) = Ok (p_amplitudeThreshold k) /\
  (speech_muted c' = true -> exists t1, mbe_synthesizeComfortNoisef aout t = Ok (b, t1)) /\ t_rm0_valid t' = false.
Proof.
  intros o a aout n d cur prev enh uvq c0 cv t b str st' t' Hd Hn (SC & SP & SE) LA H. rewrite imbe_process_eq in H.
  apply bind_inv in H as ([[[c' p'] rep] mut] & HI & H). apply bind_inv in H as ([[b1 st1] t1] & HS & H).
  apply Ok4 in H as (-> & <- & -> & ->).
  pose proof (imbe_parameters_sane _ _ _ _ _ _ _ _ _ _ _ Hd Hn SC SP HI) as SN.
  destruct (imbe_parameters_inv _ _ _ _ _ _ _ _ _ _ _ Hd (proj1 SC) (proj1 SP) HI) as (bad & c1 & HD & -> & -> & EC' & W').
  destruct (speak_inv _ _ _ _ _ _ _ _ _ _ W' (proj1 SE) (proj1 (proj2 SN)) LA HS) as (k & -> & B & WK & LB & FB & HT & HM & HV).
  exists bad, c1, p', c', k. cbv zeta. split; [exact HD|]. split; [exact EC'|]. split; [exact SN|]. split; [reflexivity|].
  split; [intros TH; exact (speak_sane _ _ _ _ _ _ _ _ _ _ _ _ SN SE TH LA HS)|]. split; [exact B|]. split; [reflexivity|]. split; [exact LB|]. split; [exact FB|]. split; [exact HT|].
  split; [intros M; apply HM in M; apply M|exact HV].
Qed.

Lemma imbe_parameters_total : forall o d n cur prev c0 cv, is_bits 88 d -> 0 <= n <= 100 -> sane cur -> sane prev ->
  (pitch7200 d <= 207 -> usable_history (imbe_harmonics (pitch7200 d)) prev) ->
  exists r, imbe_parameters o d n cur prev c0 cv = Ok r.
Proof.
  intros o d n cur prev c0 cv Hd Hn SC SP U.
  assert (WE : wf_parms (imbe_entry n cv cur prev)) by (unfold imbe_entry; destruct cv; exact (proj1 SC)).
  assert (D : exists bad c1 p1, mbe_decodeImbe4400Parms o d (imbe_entry n cv cur prev) prev = Ok (bad, c1, p1)).
  { destruct (Z_lt_ge_dec 207 (pitch7200 d)); [rewrite imbe_decode_bad by assumption; eauto|]. apply imbe_decode_defined; auto; try lia. apply U; lia. }
  destruct D as (bad & c1 & p1 & HD). destruct (imbe_decode_cases _ _ _ _ _ _ _ _ _ Hd (proj1 SC) (proj1 SP) HD) as (B & W1 & WP1 & EP & EC & _).
  unfold imbe_parameters. cbv zeta. change (if cv then _ else _) with (imbe_entry n cv cur prev). rewrite HD. cbn [bind].
  assert (K : forall rep, exists c2, imbe_conceal rep c1 p1 = Ok c2).
  { intros rep. unfold imbe_conceal. change (MAX_FRAME_REPEATS - 1) with 3. destruct rep; [|eauto]. destruct (3 <? p_repeatCount p1).
    - rewrite headroom_ok by exact W1. eauto.
    - destruct SP as (_ & _ & _ & _ & _ & R1 & R2). unfold mbe_useLastMbeParms. replace (p_repeat p1) with (p_repeat prev) by (rewrite EP; reflexivity).
      replace (p_repeatCount p1) with (p_repeatCount prev) by (rewrite EP; reflexivity). rewrite !to_int_ok by lia. cbn [bind]. eauto. }
  destruct (K (imbe_repeat_required bad n (p_errorRate c1) c0 cv)) as (c2 & ->). cbn [bind]. eauto.
Qed.
Lemma imbe_process_total : forall o a aout n d cur prev enh uvq c0 cv t, is_bits 88 d -> 0 <= n <= 100 -> sane_state (cur, prev, enh) -> length aout = 160%nat ->
  thread_ok t -> threshold_room enh -> (pitch7200 d <= 207 -> usable_history (imbe_harmonics (pitch7200 d)) prev) ->
  exists b str st' t', mbe_processImbe4400Dataf_withC0 o a aout n d (cur, prev, enh) uvq c0 cv t = Ok (b, str, st', t').
Proof.
  intros o a aout n d cur prev enh uvq c0 cv t Hd Hn (SC & SP & SE) LA TH TR U. rewrite imbe_process_eq.
  destruct (imbe_parameters_total o d n cur prev c0 cv Hd Hn SC SP U) as ([[[c' p'] rep] mut] & HI). rewrite HI. cbn [bind].
  pose proof (imbe_parameters_sane _ _ _ _ _ _ _ _ _ _ _ Hd Hn SC SP HI) as SN.
  destruct (speak_total o a aout c' enh uvq t SN SE TR TH LA) as (b & k & t' & -> & _). cbn [bind]. eauto.
Qed.

(* ---- markers ---- *)
Lemma marked_app : forall c a b, marked c (a ++ b) = marked c a || marked c b.
Proof. intros c a b. unfold marked. apply existsb_app. Qed.
Lemma marked_run : forall c n, c <> 61 -> marked c (eq_run n) = false.
Proof.
  intros c n H. unfold eq_run, marked. induction (Z.to_nat n) as [|k IH]; [reflexivity|]. cbn [repeat existsb]. rewrite IH, orb_false_r.
  change ch_eq with 61. apply Z.eqb_neq. exact H.
Qed.
Lemma marked_R : forall n (r m : bool), marked 82 (eq_run n ++ (if r then [82] else []) ++ (if m then [77] else []) ++ [0]) = r.
Proof. intros n r m. rewrite marked_app, marked_run by lia. destruct r, m; reflexivity. Qed.
Lemma marked_M : forall n (r m : bool), marked 77 (eq_run n ++ (if r then [82] else []) ++ (if m then [77] else []) ++ [0]) = m.
Proof. intros n r m. rewrite marked_app, marked_run by lia. destruct r, m; reflexivity. Qed.

(* ---- C23, C25: one IMBE call ---- *)
Lemma imbe_entry_rate : forall n cv cur prev, p_errorRate (imbe_entry n cv cur prev) = imbe_rate (p_errorRate prev) n /\ p_mutingThreshold (imbe_entry n cv cur prev) = flit 875 10000 /\ p_errorCountTotal (imbe_entry n cv cur prev) = n.
Proof. intros. unfold imbe_entry. destruct cv; repeat split; reflexivity. Qed.
Lemma imbe_step : forall o a c st t b str st' t', call_ok c -> sane_state st -> thread_ok t -> imbe_do o a c st t = Ok (b, str, st', t') ->
  let prev := prev_of st in let rate := imbe_rate (p_errorRate prev) (ic_errors c) in
  let need := imbe_needs (ic_bits c) (ic_errors c) rate (context (ic_c0 c) (ic_c0_known c)) in
  let keep := need && (p_repeatCount prev <? 4) in
  sane_state st' /\ thread_ok t' /\
  p_repeatCount (prev_of st') = next_count need (p_repeatCount prev) /\
  p_mutingThreshold (prev_of st') = (if keep then p_mutingThreshold prev else flit 875 10000) /\
  p_errorRate (prev_of st') = (if keep then p_errorRate prev else rate) /\
  p_L (prev_of st') = (if keep then p_L prev else if need then 39 else imbe_harmonics (pitch7200 (ic_bits c))) /\
  p_w0 (prev_of st') = (if keep then p_w0 prev else if need then p_w0 imbe_initial else imbe_w0_of_b0 (pitch7200 (ic_bits c))) /\
  p_noiseSeed (prev_of st') = (if keep then p_noiseSeed prev else p_noiseSeed (cur_of st)) /\
  p_previousUw (prev_of st') = (if keep then p_previousUw prev else p_previousUw (cur_of st)) /\
  p_noiseOverlap (prev_of st') = (if keep then p_noiseOverlap prev else p_noiseOverlap (cur_of st)) /\
  enh_of st' = cur_of st' /\ but_speech (prev_of st') (cur_of st') /\
  marked 82 str = need /\ marked 77 str = (4 <=? p_repeatCount (prev_of st')) || fgt (p_errorRate (prev_of st')) (p_mutingThreshold (prev_of st')) /\
  (speech_muted (prev_of st') = true -> exists t1, mbe_synthesizeComfortNoisef (ic_buf c) t = Ok (b, t1)) /\
  -24000 <= p_amplitudeThreshold (enh_of st') <= Z.max 20480 (p_amplitudeThreshold (enh_of st)) + 6000 /\
  smoothing_Tm (p_errorRate (prev_of st')) (p_errorCountTotal (prev_of st')) (p_amplitudeThreshold (enh_of st)) = Ok (p_amplitudeThreshold (enh_of st')) /\
  p_errorCountTotal (prev_of st') = (if keep then p_errorCountTotal prev else ic_errors c) /\
  t_rm0_valid t' = false /\ length b = 160%nat.
Proof.
  intros o a c [[cur prev] enh] t b str st' t' (Hd & Hn & LB) SS TH H. cbn [prev_of cur_of enh_of].
  unfold imbe_do in H. destruct (imbe_process_inv _ _ _ _ _ _ _ _ _ _ _ _ _ _ _ _ Hd Hn SS LB H) as (bad & c1 & p1 & c' & k & HD & EC' & SN & -> & SK & B & -> & Lb & _ & HT & HM & HV).
  destruct (SK TH) as [SK1 SK2]. destruct SS as (SC & SP & SE).
  destruct (imbe_decode_cases _ _ _ _ _ _ _ _ _ Hd (proj1 SC) (proj1 SP) HD) as (BB & W1 & WP1 & EP & EC & EL).
  cbn [prev_of cur_of enh_of]. cbv zeta.
  set (rate := imbe_rate (p_errorRate prev) (ic_errors c)) in *.
  set (need := imbe_needs (ic_bits c) (ic_errors c) rate (context (ic_c0 c) (ic_c0_known c))) in *.
  destruct (imbe_entry_rate (ic_errors c) (ic_c0_known c) cur prev) as (ER & EM & ET).
  assert (FR : p_errorRate c1 = rate) by (rewrite EC; exact ER). assert (FM : p_mutingThreshold c1 = flit 875 10000) by (rewrite EC; exact EM).
  assert (FT : p_errorCountTotal c1 = ic_errors c) by (rewrite EC; exact ET).
  assert (FS : p_noiseSeed c1 = p_noiseSeed cur /\ p_previousUw c1 = p_previousUw cur /\ p_noiseOverlap c1 = p_noiseOverlap cur).
  { rewrite EC. unfold imbe_entry. destruct (ic_c0_known c); repeat split; reflexivity. }
  destruct FS as (FS1 & FS2 & FS3).
  assert (FL : need = false -> p_L c1 = imbe_harmonics (pitch7200 (ic_bits c)) /\ p_w0 c1 = imbe_w0_of_b0 (pitch7200 (ic_bits c))).
  { intros Q. apply EL. unfold need, imbe_needs in Q. apply orb_false_iff in Q as [Q _]. lia. }
  clear EC HD.
  split; [exact (conj SK1 (conj SN SK1))|]. split; [exact SK2|].
  assert (PP : forall {X} (g : parms -> X), g c' = picked need prev (g (set_repeatCount (p_repeatCount prev + 1) (set_repeat (p_repeat prev + 1) p1))) (g (headroom c1)) (g (set_repeatCount 0 (set_repeat 0 c1)))).
  { intros X g. rewrite EC'. unfold picked. destruct need; [destruct (p_repeatCount prev <? 4)|]; reflexivity. }
  assert (HT2 := Tm_bound _ _ _ _ ltac:(apply SN) HT).
  split. { rewrite (PP _ p_repeatCount). unfold picked, next_count, headroom. fields. destruct need; [destruct (p_repeatCount prev <? 4)|]; reflexivity. }
  split. { rewrite (PP _ p_mutingThreshold). unfold picked, headroom. rewrite EP. fields. destruct need; [destruct (p_repeatCount prev <? 4)|]; cbn [andb]; try reflexivity. exact FM. }
  split. { rewrite (PP _ p_errorRate). unfold picked, headroom. rewrite EP. fields. destruct need; [destruct (p_repeatCount prev <? 4)|]; cbn [andb]; try reflexivity; exact FR. }
  split. { rewrite (PP _ p_L). unfold picked, headroom. rewrite EP. fields. destruct need; [destruct (p_repeatCount prev <? 4)|]; cbn [andb]; try reflexivity. now apply FL. }
  split. { rewrite (PP _ p_w0). unfold picked, headroom. rewrite EP. fields. destruct need; [destruct (p_repeatCount prev <? 4)|]; cbn [andb]; try reflexivity. now apply FL. }
  split. { rewrite (PP _ p_noiseSeed). unfold picked, headroom. rewrite EP. fields. destruct need; [destruct (p_repeatCount prev <? 4)|]; cbn [andb]; try reflexivity; exact FS1. }
  split. { rewrite (PP _ p_previousUw). unfold picked, headroom. rewrite EP. fields. destruct need; [destruct (p_repeatCount prev <? 4)|]; cbn [andb]; try reflexivity; exact FS2. }
  split. { rewrite (PP _ p_noiseOverlap). unfold picked, headroom. rewrite EP. fields. destruct need; [destruct (p_repeatCount prev <? 4)|]; cbn [andb]; try reflexivity; exact FS3. }
  split; [reflexivity|]. split; [exact B|]. split; [apply marked_R|]. split; [apply marked_M|]. split; [exact HM|]. split; [exact HT2|]. split; [exact HT|].
  split. { rewrite (PP _ p_errorCountTotal). unfold picked, headroom. rewrite EP. fields. destruct need; [destruct (p_repeatCount prev <? 4)|]; cbn [andb]; try reflexivity; exact FT. }
  split; [exact HV|exact Lb].
Qed.
