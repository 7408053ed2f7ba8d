(* AMBE decoder calls on moderate parameter sets give numbers. *)
From Coq Require Import ZArith Reals Lra Lia List Bool.
From Verif Require Import Res F32 MParms MSynth MFrame MImbe MAmbe SpecWola SpecEnh SpecGen SpecOut PRun PStream PConv SpecFrame SpecState SpecImbe SpecMachine SpecAmbe SpecAmbeMachine SpecTone SpecAdaptive SpecAmp SpecSynth SpecTrig SpecEnh2 SpecFftErr SpecWave SpecNum
  PFloat PFloat2 PReal PPredict PNyq PGen PAmp PTone PAmbeDec PAmbeDec2 PSynth POsc PEnh2 PEnh3 PSpeech PMachine PAmbeMachine PAmbeStream PNum PNum2 PNum3 PNum4 PNum5 PNum9 PWave PWave2.
From Flocq Require Import Core.Core.
From Flocq Require IEEE754.BinarySingleNaN.
Import ListNotations.
Local Open Scope R_scope.

Lemma limit_R : ff sample_limit /\ 0 <= R_of sample_limit <= 4447.
Proof. split; [apply ff_const; vm_compute; reflexivity|]. unfold sample_limit. R_val (fdiv (fmul (f_of_Z 32767) (flit 95 100)) (f_of_Z 7)). lra. Qed.
Lemma number_audible : forall x, number x -> audible x.
Proof.
  intros x [F H]. split; [exact F|]. destruct limit_R as [FL RL]. apply fle_true in H; [|apply fabs_ff, F|exact FL]. rewrite R_fabs in H. lra.
Qed.
Lemma fine_good : forall o r, fine_exp2 o r -> good_exp2 o r.
Proof.
  intros o [] H; [exact I|]. intros b Hb. destruct (H b Hb) as [A B]. split; [exact A|]. pose proof (exp_pos (R_of (exponent2400 b) * ln 2)) as P. change (0 < Rpower 2 (R_of (exponent2400 b))) in P. lra.
Qed.

(* what the calls preserve; the previous set has a pitch unless an erasure has cleared it *)
Definition alive (gone : bool) (st : dstate) : Prop :=
  sane_state st /\ foreign (prev_of st) = false /\ (p_repeatCount (prev_of st) <= 3)%Z /\ numeric (cur_of st) /\ numeric (prev_of st) /\ numeric (enh_of st) /\ amplitudes_to 1e9 (enh_of st) /\ (gone = false -> pitched (prev_of st)) /\
  (p_errorCountTotal (prev_of st) <= 20)%Z /\ (p_errorCountTotal (enh_of st) <= 20)%Z /\ (1 <= p_L (enh_of st))%Z.

Section Step.
Variable o : oracle.
Hypothesis AA : accurate_angles o.
Hypothesis BT : bounded_transforms o.

Lemma alive_start : alive false start_ambe.
Proof.
  assert (ZZ : forall b n, 0 <= b -> Forall (sized b) (repeat fzero n)) by (intros b n Hb; apply Forall_forall; intros x Hx; apply repeat_spec in Hx; rewrite Hx; apply s_zero, Hb).
  set (w := p_w0 ambe_initial). assert (W : ff w /\ 0.6168 <= R_of w <= 0.6170). { change w with (S754_finite false 10349030 (-24)). split; [apply ff_const; vm_compute; reflexivity|]. R_val (S754_finite false 10349030 (-24)). lra. }
  assert (LI : p_L ambe_initial = 15%Z) by reflexivity.
  assert (NI : numeric ambe_initial).
  { unfold numeric. fold w. unfold ambe_initial, initial_parms. cbn [p_PHIl p_PSIl p_previousUw p_noiseOverlap].
    split; [apply ZZ; lra|]. split; [apply ZZ; lra|]. split; [apply ZZ; lra|]. split; [apply ZZ; lra|]. split; [apply W|lra]. }
  assert (PI' : pitched ambe_initial). { unfold pitched. fold w. rewrite LI. split; [lia|]. split; [lra|]. apply silence_harmonics; [lra|lia]. }
  assert (AI : amplitudes_to 1e9 ambe_initial).
  { intros l Hl. rewrite LI in Hl. unfold ambe_initial, initial_parms. cbn [p_Ml].
    assert (E : cell zero (repeat (flit 1 1) 57) l = f_of_Z 1) by (unfold cell; apply (repeat_spec 57 (flit 1 1)); apply nth_In; rewrite repeat_length; lia).
    rewrite E. destruct (of_Z_R 1) as [O1 O2]; [lia|]. split; [exact O1|]. rewrite O2. lra. }
  unfold alive. split; [apply sane_start_ambe|]. split; [apply foreign_exact, start_exact|]. cbn [start_ambe cur_of prev_of enh_of].
  split; [vm_compute; discriminate|]. split; [exact NI|]. split; [exact NI|]. split; [exact NI|]. split; [exact AI|]. split; [intros _; exact PI'|]. split; [vm_compute; discriminate|]. split; [vm_compute; discriminate|]. rewrite LI. lia.
Qed.

Lemma voice_numbers : forall a aout need n L w0 g v c p c1 p1 enh uvq t b str st' t',
  ambe_accepted L w0 g v (with_errors n (ambe_rate (p_errorRate p) n) c) p c1 p1 -> (0 <= n <= 20)%Z -> sane c -> sane p -> sane enh -> (9 <= L <= 56)%Z -> thread_ok t -> length aout = 160%nat ->
  (forall m, p_L m = L -> p_w0 m = w0 -> pitched m /\ ff (p_w0 m)) -> pitch_in_range w0 ->
  numeric c -> numeric p -> numeric enh -> amplitudes_to 1e9 enh -> (p_amplitudeThreshold enh <= 2000000000)%Z -> (p_errorCountTotal p <= 20)%Z -> foreign p = false ->
  (need = true -> pitched p) -> voice_rest o a aout need n c1 p1 enh uvq t = Ok (b, str, st', t') -> moderate (prev_of st') -> alive false st' /\ Forall number b.
Proof.
  intros a aout need n L w0 g v c p c1 p1 enh uvq t b str st' t' AC Hn SC SP SE HL TH LA HP HW NC NP NE AE HT EP FO NG H MO.
  assert (Hn' : (0 <= n <= 100)%Z) by lia. destruct (accepted_sane _ _ _ _ _ _ _ _ AC (sane_with_errors _ _ _ Hn' SC) SP HL HW) as [S1 S2].
  pose proof (accepted_others _ _ _ _ _ _ _ _ AC) as (O1 & O2 & O3 & O4 & O5 & O6). pose proof (accepted_bands _ _ _ _ _ _ _ _ AC) as SB.
  assert (RP : p_repeat p = p_repeatCount p) by apply SP. unfold voice_rest in H. rewrite O2, RP in H.
  assert (SPK : forall m r, sane m -> pitched m -> numeric m -> (p_errorCountTotal m <= 20)%Z -> foreign m = false -> (p_repeatCount m <= 3)%Z -> '(b, st, t') <- ambe_speak o a aout m enh uvq t ;; Ok (b, r, st, t') = Ok (b, str, st', t') -> alive false st' /\ Forall number b).
  { intros m r SM PM NM EM FM RM HH. apply bind_inv in HH as ([[b0 s0] t0] & HS & HH). assert (Q : b0 = b /\ s0 = st' /\ t0 = t') by (injection HH as <- <- <- <-; auto). destruct Q as (-> & -> & ->).
    destruct (speak_inv _ _ _ _ _ _ _ _ _ _ (proj1 SM) (proj1 SE) (proj1 (proj2 SM)) LA HS) as (k & -> & B & _). cbn [prev_of] in MO.
    destruct (speak_numbers o AA BT _ _ _ _ _ _ _ _ _ SM SE PM MO NM NE AE EM HT LA HS) as (k2 & E2 & FB & NK & AK). assert (k2 = k) by congruence. subst k2.
    destruct (speak_sane _ _ _ _ _ _ _ _ _ _ _ _ SM SE TH LA HS) as [SK _]. split; [|exact FB]. unfold alive. cbn [cur_of prev_of enh_of].
    assert (KE : p_errorCountTotal k = p_errorCountTotal m /\ p_L k = p_L m) by (unfold but_speech in B; rewrite B; auto). destruct KE as [KE KL]. rewrite KE, KL.
    split; [split; [exact SK|split; [exact SM|exact SK]]|]. split; [exact FM|]. split; [exact RM|]. split; [exact NK|]. split; [exact NM|]. split; [exact NK|]. split; [exact AK|]. split; [intros _; exact PM|]. split; [exact EM|]. split; [exact EM|]. apply PM. }
  destruct AC as (AL & AW & _ & _ & _ & _ & _ & _ & EC & _ & _ & EQ). destruct need; cbn [andb] in H.
  - destruct (Z.leb_spec 3 (p_repeatCount p)) as [G|G].
    + apply bind_inv in H as ([b0 t0] & HC & H). assert (Q : b0 = b /\ start_ambe = st' /\ t0 = t') by (injection H as <- <- <- <-; auto). destruct Q as (-> & <- & ->).
      split; [apply alive_start|]. apply (comfort_numbers _ _ _ _ LA HC).
    + apply (SPK (one_more p1) (status n [82%Z])); [apply sane_one_more; [exact S2|lia]| | | | | |exact H]; unfold one_more.
      * destruct SB as (B1 & B2 & _). destruct (NG eq_refl) as (Q1 & Q2 & Q3). unfold pitched. fields. rewrite B1, B2. auto.
      * rewrite EQ. unfold numeric in *. fields. exact NP.
      * fields. rewrite O6. exact EP.
      * rewrite (same_foreign p) by (fields; exact O4). exact FO.
      * fields. lia.
  - apply (SPK (no_repeats c1) (status n [])); [exact S1| | | | | |exact H]; unfold no_repeats.
    + apply HP; fields; assumption.
    + destruct (HP c1 AL AW) as [(_ & W1 & _) W2]. rewrite EC. clear EC. set (w := p_w0 c1) in *. clearbody w. unfold numeric in *. fields. unfold with_errors. fields. repeat (split; [apply NC|]). split; [exact W2|lra].
    + fields. rewrite EC. fields. unfold with_errors. fields. lia.
    + apply foreign_exact. unfold ambe_threshold. fields. rewrite EC. fields. reflexivity.
    + fields. lia.
Qed.

Definition after (gone : bool) (c : ambe_call) : bool := match kind_of c with Voice => false | Erasure => true | _ => gone end.
Lemma alive_step2450 : forall a c gone st t b str st' t', ambe_ok c -> (ac_errors c <= 20)%Z -> alive gone st -> thread_ok t -> (p_amplitudeThreshold (enh_of st) <= 2000000000)%Z ->
  (kind_of c = Voice -> gone = true -> needs_of c = false) -> do2450 o a c st t = Ok (b, str, st', t') -> moderate (prev_of st') -> alive (after gone c) st' /\ Forall audible b.
Proof.
  intros a c gone [[cur prev] enh] t b str st' t' OK HE AL TH HT HG H MO. pose proof AL as (SS & FO & RC & NC & NP & NE & AE & PP & EP & EE & LE). cbn [cur_of prev_of enh_of] in *.
  pose proof OK as (Hd & Hn & LB). pose proof SS as (SC & SP & SE). assert (BG : begin (cur, prev, enh) = (cur, prev, enh)) by (apply begin_own; exact FO).
  assert (WP : wf_parms (prev_of (cur, prev, enh))) by apply SP.
  pose proof (step2450_ok _ _ _ _ _ _ _ _ _ _ _ _ OK SS TH H BG) as (SS' & _). unfold do2450 in H.
  assert (SW : sane (with_errors (ac_errors c) (ambe_rate (p_errorRate prev) (ac_errors c)) cur)) by (apply sane_with_errors; assumption).
  assert (NW : numeric (with_errors (ac_errors c) (ambe_rate (p_errorRate prev) (ac_errors c)) cur)) by (unfold numeric, with_errors in *; fields; exact NC).
  unfold after. destruct (kind_of c) eqn:K; unfold kind_of in K.
  - destruct (kind_cases (ac_bits c) (ac_errors c) Hd) as [(T & N & E)|[(T & N & E)|(NT & NX & E)]]; [destruct (tone_hz (tone_id (ac_bits c))); congruence|congruence|].
    destruct (mbe_decodeAmbe2450ParmsInternal o (ac_bits c) (with_errors (ac_errors c) (ambe_rate (p_errorRate prev) (ac_errors c)) cur) prev (ac_errors c)) as [[[bad c1] p1]|w] eqn:HD.
    + destruct (ambe2450_accepted _ _ _ _ _ _ _ _ Hd (proj1 (proj1 SW)) NT NX HD) as [-> AC].
      pose proof (pitch2450_range _ Hd) as PR. assert (HB : (0 <= pitch2450 (ac_bits c) < 120 \/ pitch2450 (ac_bits c) = 124 \/ pitch2450 (ac_bits c) = 125)%Z) by (unfold erasure2450 in NX; lia).
      assert (HW : pitch_in_range (w0_2450 (pitch2450 (ac_bits c)))) by (apply w0_range; unfold erasure2450 in NX; lia).
      pose proof (harmonics2450_bits _ Hd NX) as HL. destruct (accepted_sane _ _ _ _ _ _ _ _ AC SW SP HL HW) as [_ S2].
      assert (RR : p_repeat p1 = p_repeatCount p1 /\ (0 <= p_repeatCount p1 <= 4)%Z) by (split; apply S2).
      rewrite (voice2450 _ _ _ _ _ _ _ _ _ _ _ _ _ _ _ WP BG HD (proj1 S2)) in H by lia.
      assert (PN : needs2450 (ac_errors c) (context (ac_c0 c) (ac_known c)) = true -> pitched prev).
      { intros N. apply PP. destruct gone; [|reflexivity]. exfalso. specialize (HG eq_refl eq_refl). unfold needs_of in HG. congruence. }
      assert (Hn' : (0 <= ac_errors c <= 20)%Z) by lia.
      destruct (voice_numbers _ _ _ _ _ _ _ _ _ _ _ _ _ _ _ _ _ _ _ AC Hn' SC SP SE HL TH LB (fun m e1 e2 => pitched2450 _ m HB e2 e1) HW NC NP NE AE HT EP FO PN H MO) as [A B].
      split; [exact A|]. eapply Forall_impl; [|exact B]. exact number_audible.
    + exfalso. unfold mbe_processAmbe2450Dataf_internal in H. rewrite ensure_ok in H by exact WP. cbn [bind] in H. rewrite BG in H. cbn [bind] in H. rewrite entry_eq, HD in H. discriminate H.
  - rewrite (erasure_process _ _ _ _ _ _ _ _ _ _ _ _ _ Hd WP BG (proj1 SP) (proj1 SC) K) in H. cbv zeta in H. apply bind_inv in H as ([b0 t0] & HC & H). apply Ok4 in H as (-> & _ & <- & _).
    split; [|eapply Forall_impl; [exact number_audible|apply (comfort_numbers _ _ _ _ LB HC)]].
    set (w := with_errors _ _ cur) in *. assert (EW : p_errorCountTotal w = ac_errors c /\ p_mutingThreshold w = flit 96 1000) by (split; reflexivity). destruct EW as [EW EM]. clearbody w.
    assert (NX : numeric (erased w prev)). { unfold numeric, erased in *. fields. split; [apply NP|]. split; [apply NP|]. split; [apply NP|]. split; [apply NP|]. split; [split; reflexivity|]. change (R_of (S754_zero false)) with 0. lra. }
    assert (AX : amplitudes_to 1e9 (erased w prev)). { intros l Hl. change (p_L (erased w prev)) with 9%Z in Hl. unfold erased. cbn [p_Ml]. assert (E : cell zero (repeat (flit 1 1) 57) l = f_of_Z 1) by (unfold cell; apply (repeat_spec 57 (flit 1 1)); apply nth_In; rewrite repeat_length; lia).
      rewrite E. destruct (of_Z_R 1) as [O1 O2]; [lia|]. split; [exact O1|]. rewrite O2. lra. }
    unfold alive. split; [exact SS'|]. cbn [cur_of prev_of enh_of]. split; [apply foreign_exact; unfold ambe_threshold, erased; fields; exact EM|]. split; [unfold erased; fields; lia|].
    split; [exact NX|]. split; [exact NX|]. split; [exact NX|]. split; [exact AX|]. split; [discriminate|]. unfold erased. fields. rewrite EW. lia.
  - rewrite (tone_process _ _ _ _ _ _ _ _ _ _ _ _ _ _ Hd LB WP BG K) in H. apply Ok4 in H as (<- & _ & <- & _). split.
    + unfold alive. cbn [cur_of prev_of enh_of]. split; [exact SS'|]. split; [exact FO|]. split; [exact RC|]. split; [|tauto]. set (w := with_errors _ _ cur) in *. clearbody w. unfold tone_turned, numeric, no_repeats in *. destruct (o_tones o); fields; exact NW.
    + unfold tone_heard. destruct (o_tones o); [|apply Forall_forall; intros x Hx; apply repeat_spec in Hx; subst x; split; [split; reflexivity|change (R_of (S754_zero false)) with 0; rewrite Rabs_R0; lra]].
      unfold tone_frame. apply Forall_forall. intros x Hx. apply in_map_iff in Hx as (i & <- & _). pose proof (angles_turn o AA) as AT. pose proof (tone_amp_range _ Hd) as TA. split; [apply (sample_wave o AT hz _ _ _ _ TA)|apply (sample_size o AT hz _ _ _ _ TA)].
  - rewrite (unknown_process _ _ _ _ _ _ _ _ _ _ _ _ _ Hd WP BG (proj1 SP) K) in H. destruct (p_repeatCount prev <? 4)%Z eqn:R4; [|lia].
    apply bind_inv in H as ([[[b0 s0] e0] t0] & HS & H). apply Ok4 in H as (-> & _ & <- & _).
    destruct (speech_numbers o AA BT 1e9 ltac:(lra) (ac_buf c) (-1) enh enh (ac_uv c) t) as (s & c' & e' & t2 & HS2 & LS & FS & NC' & _ & AC' & _); try assumption; try apply SE; [split; [exact LE|apply SE]|split; [apply SE|exact EE]|].
    rewrite HS2 in HS. apply Ok4 in HS as (-> & -> & _ & _). split; [|eapply Forall_impl; [exact number_audible|exact FS]].
    destruct (respeak _ _ _ _ _ _ _ _ _ _ SE TH LB HS2) as (_ & _ & _ & Q4 & _). assert (KE : p_errorCountTotal s0 = p_errorCountTotal enh /\ p_L s0 = p_L enh) by (unfold but_speech in Q4; rewrite Q4; auto). destruct KE as [KE KL].
    unfold alive. cbn [cur_of prev_of enh_of]. rewrite KE, KL. split; [exact SS'|]. split; [exact FO|]. split; [exact RC|]. split; [set (w := with_errors _ _ cur) in *; clearbody w; unfold numeric, no_repeats in *; fields; exact NW|]. tauto.
Qed.
Lemma alive_step2400 : forall a c st t b str st' t', fine_exp2 o R2400 -> ambe_ok c -> (ac_errors c <= 20)%Z -> alive false st -> thread_ok t -> (p_amplitudeThreshold (enh_of st) <= 2000000000)%Z ->
  do2400 o a c st t = Ok (b, str, st', t') -> moderate (prev_of st') -> alive false st' /\ Forall audible b.
Proof.
  intros a c [[cur prev] enh] t b str st' t' FX OK HE AL TH HT H MO. pose proof AL as (SS & FO & RC & NC & NP & NE & AE & PP & EP & EE & LE). cbn [cur_of prev_of enh_of] in *.
  pose proof OK as (Hd & Hn & LB). pose proof SS as (SC & SP & SE). assert (BG : begin (cur, prev, enh) = (cur, prev, enh)) by (apply begin_own; exact FO).
  assert (WP : wf_parms (prev_of (cur, prev, enh))) by apply SP. destruct (voice2400 c) eqn:V.
  - assert (SW : sane (with_errors (ac_errors c) (ambe_rate (p_errorRate prev) (ac_errors c)) cur)) by (apply sane_with_errors; assumption).
    pose proof (pitch2400_range _ Hd) as PR. assert (HB : (pitch2400 (ac_bits c) < 126)%Z) by (unfold voice2400 in V; lia). assert (HB' : (0 <= pitch2400 (ac_bits c) < 126)%Z) by lia.
    pose proof (fine_good o R2400 FX _ HB') as HX. specialize (FX _ HB'). unfold do2400 in H.
    destruct (mbe_decodeAmbe2400Parms o (ac_bits c) (with_errors (ac_errors c) (ambe_rate (p_errorRate prev) (ac_errors c)) cur) prev) as [[[bad c1] p1]|w] eqn:HD.
    + destruct (ambe2400_accepted _ _ _ _ _ _ _ Hd (proj1 (proj1 SW)) HB HX HD) as [-> AC].
      assert (HW : pitch_in_range (radians (exp2f o (exponent2400 (pitch2400 (ac_bits c)))))) by (apply f0_range; assumption).
      pose proof (harmonics2400_range _ Hd HB) as HL. destruct (accepted_sane _ _ _ _ _ _ _ _ AC SW SP HL HW) as [_ S2].
      assert (RR : p_repeat p1 = p_repeatCount p1 /\ (0 <= p_repeatCount p1 <= 4)%Z) by (split; apply S2).
      rewrite (voice2400_eq _ _ _ _ _ _ _ _ _ _ _ _ _ _ WP BG HD (proj1 S2)) in H by lia.
      assert (Hn' : (0 <= ac_errors c <= 20)%Z) by lia. destruct (voice_numbers _ _ _ _ _ _ _ _ _ _ _ _ _ _ _ _ _ _ _ AC Hn' SC SP SE HL TH LB (fun m e1 e2 => pitched2400 o _ m HB' FX e2 e1) HW NC NP NE AE HT EP FO (fun _ => PP eq_refl) H MO) as [A B].
      split; [exact A|]. eapply Forall_impl; [|exact B]. exact number_audible.
    + exfalso. unfold mbe_processAmbe2400Dataf in H. rewrite ensure_ok in H by exact WP. cbn [bind] in H. rewrite BG in H. cbn [bind] in H. rewrite entry_eq, HD in H. discriminate H.
  - rewrite (tone2400_eq _ _ _ _ _ _ _ _ OK SS BG V) in H. apply bind_inv in H as ([b0 t0] & HN & H). apply Ok4 in H as (-> & _ & <- & _).
    split; [apply alive_start|]. eapply Forall_impl; [exact number_audible|apply (comfort_numbers _ _ _ _ LB HN)].
Qed.
End Step.

(* what the current set holds after a call: what is kept for enhancement, or its old amplitudes *)
Lemma voice_cur : forall need n L w0 dg buf c p t b str st', voice_step need n L w0 dg buf c p t b str st' -> cur_of st' = enh_of st'.
Proof.
  intros need n L w0 dg buf c p t b str st' H. unfold voice_step in H. destruct need; [destruct (p_repeatCount p <? 3)%Z|].
  - symmetry. apply (proj2 (proj2 H)).
  - destruct H as (_ & -> & _). reflexivity.
  - symmetry. apply (proj2 (proj2 H)).
Qed.
Lemma cur_case : forall r o a cl st t b str st' t', good_exp2 o r -> ambe_ok cl -> sane_state st -> thread_ok t -> foreign (prev_of st) = false -> do_ambe r o a cl st t = Ok (b, str, st', t') ->
  cur_of st' = enh_of st' \/ p_Ml (cur_of st') = p_Ml (cur_of st) /\ p_L (cur_of st') = p_L (cur_of st).
Proof.
  intros r o a cl [[c p] e] t b str st' t' GX HC SS TH FO H. pose proof (begin_own (c, p, e) FO) as BG. destruct r; cbn [do_ambe] in H.
  - destruct (step2450_ok _ _ _ _ _ _ _ _ _ _ _ _ HC SS TH H BG) as (_ & _ & _ & _ & _ & S). unfold step2450 in S. cbv zeta in S. destruct (kind_of cl) as [| |hz|].
    + left. eapply voice_cur. exact S.
    + left. destruct S as (_ & _ & ->). reflexivity.
    + right. destruct S as (_ & _ & ->). unfold tone_turned. cbn [cur_of]. destruct (o_tones o); split; reflexivity.
    + destruct S as (_ & S). destruct (p_repeatCount p <? 4)%Z; [right|left]; destruct S as (E & S).
      * destruct S as (-> & _). split; reflexivity.
      * rewrite E. reflexivity.
  - left. assert (X : voice2400 cl = true -> exp2_close o (exponent2400 (pitch2400 (ac_bits cl)))).
    { intros V. apply GX. unfold voice2400 in V. destruct HC as (Hd & _). pose proof (pitch2400_range (ac_bits cl) Hd). lia. }
    destruct (step2400_ok _ _ _ _ _ _ _ _ _ _ _ _ HC SS TH X H BG) as (_ & _ & _ & _ & _ & S). unfold step2400 in S. cbv zeta in S. destruct (voice2400 cl).
    + eapply voice_cur. exact S.
    + destruct S as (_ & _ & ->). reflexivity.
Qed.
Section Stream.
Variable o : oracle.
Hypothesis AA : accurate_angles o.
Hypothesis BT : bounded_transforms o.
Lemma alive_stream : forall r a cs gone st t s st' t', fine_exp2 o r -> match r with R2450 => no_gap gone cs | R2400 => gone = false end ->
  Forall ambe_ok cs -> Forall (fun c => ac_errors c <= 20)%Z cs -> alive gone st -> amplitudes_to 1e9 (cur_of st) -> thread_ok t ->
  (Z.max 20480 (p_amplitudeThreshold (enh_of st)) + 6000 * Z.of_nat (length cs) <= 2000000000)%Z ->
  (forall k r1 st1 t1, (1 <= k <= length cs)%nat -> ambe_stream (do_ambe r o a) (firstn k cs) st t = Ok (r1, st1, t1) -> moderate (prev_of st1)) ->
  ambe_stream (do_ambe r o a) cs st t = Ok (s, st', t') -> Forall (fun f => Forall audible (fst f)) s /\ (exists g, alive g st') /\ amplitudes_to 1e9 (cur_of st').
Proof.
  intros r a cs. induction cs as [|c cs IH]; intros gone st t s st' t' FX GP FC FE ST AM TH HT HM H; cbn [ambe_stream] in H.
  - injection H as <- <- _. split; [constructor|]. split; [exists gone; exact ST|exact AM].
  - apply bind_inv in H as ([[[b w] st1] t1] & HD & H). apply bind_inv in H as ([[r1 st2] t2] & HR & H).
    assert (Q : s = (b, w) :: r1 /\ st' = st2) by (now inversion H). destruct Q as [-> ->]. clear H.
    apply Forall_cons_iff in FC as [C1 FC]. apply Forall_cons_iff in FE as [E1 FE]. rewrite (eq_refl : length (c :: cs) = S (length cs)) in HT.
    assert (M1 : moderate (prev_of st1)).
    { apply (HM 1%nat [(b, w)] st1 t1); [cbn [length]; lia|]. cbn [firstn ambe_stream]. rewrite HD. reflexivity. }
    assert (AM1 : amplitudes_to 1e9 (enh_of st1) -> amplitudes_to 1e9 (cur_of st1)).
    { intros AE. destruct (cur_case r o a c st t b w st1 t1 (fine_good o r FX) C1 (proj1 ST) TH (proj1 (proj2 ST)) HD) as [->|[E2 E3]]; [exact AE|]. unfold amplitudes_to in *. rewrite E2, E3. exact AM. }
    assert (HM' : forall k r2 st3 t3, (1 <= k <= length cs)%nat -> ambe_stream (do_ambe r o a) (firstn k cs) st1 t1 = Ok (r2, st3, t3) -> moderate (prev_of st3)).
    { intros k r2 st3 t3 Hk K. apply (HM (S k) ((b, w) :: r2) st3 t3); [cbn [length]; lia|]. cbn [firstn ambe_stream]. rewrite HD. cbn [bind]. rewrite K. reflexivity. }
    destruct (ambe_step _ _ _ _ _ _ _ _ _ _ (fine_good o r FX) C1 (proj1 ST) TH HD) as (_ & TH1 & _ & _ & TB & _). rewrite (begin_own st) in TB by apply ST.
    destruct r.
    + cbn [no_gap] in GP. destruct (alive_step2450 o AA BT a c gone st t b w st1 t1 C1 E1 ST TH ltac:(lia)) as [S1 N1]; [|exact HD|exact M1|].
      { intros K G. rewrite K in GP. apply GP, G. }
      destruct (IH (after gone c) st1 t1 r1 st2 t2) as [F1 F2]; try assumption; [unfold after; destruct (kind_of c); try exact GP; apply GP|apply AM1, S1|lia|].
      split; [constructor; [exact N1|exact F1]|exact F2].
    + subst gone. destruct (alive_step2400 o AA BT a c st t b w st1 t1 FX C1 E1 ST TH ltac:(lia) HD M1) as [S1 N1].
      destruct (IH false st1 t1 r1 st2 t2) as [F1 F2]; try assumption; [reflexivity|apply AM1, S1|lia|]. split; [constructor; [exact N1|exact F1]|exact F2].
Qed.
Lemma stream_begin : forall r a c cs st t, sane_state st -> ambe_stream (do_ambe r o a) (c :: cs) st t = ambe_stream (do_ambe r o a) (c :: cs) (begin st) t.
Proof. intros r a c cs st t SS. cbn [ambe_stream]. rewrite begin_same by (destruct st as [[x y] z]; apply SS). reflexivity. Qed.
(* from initialised states *)
Lemma ambe_alive : forall r a cs st t s st' t', fine_exp2 o r -> heard r cs -> Forall ambe_ok cs -> Forall (fun c => ac_errors c <= 20)%Z cs -> st = start \/ st = start_ambe -> thread_ok t -> (Z.of_nat (length cs) <= 300000)%Z ->
  (forall k r1 st1 t1, (1 <= k <= length cs)%nat -> ambe_stream (do_ambe r o a) (firstn k cs) st t = Ok (r1, st1, t1) -> moderate (prev_of st1)) ->
  ambe_stream (do_ambe r o a) cs st t = Ok (s, st', t') -> Forall (fun f => Forall audible (fst f)) s /\ (cs <> [] -> (exists g, alive g st') /\ amplitudes_to 1e9 (cur_of st')).
Proof.
  intros r a cs st t s st' t' FX GP FC FE HS TH HT HM H. destruct cs as [|c cs]; [cbn [ambe_stream] in H; injection H as <- _ _; split; [constructor|congruence]|].
  assert (SS : sane_state st) by (destruct HS as [->| ->]; [apply sane_start|apply sane_start_ambe]).
  assert (B : begin st = start_ambe). { destruct HS as [->| ->]; [apply begin_case|apply begin_own, begin_case]. }
  rewrite (stream_begin r a c cs st t SS), B in H. destruct (alive_stream r a (c :: cs) false start_ambe t s st' t') as [F1 F2]; try eassumption.
  - destruct r; [exact GP|reflexivity].
  - apply alive_start.
  - change (cur_of start_ambe) with (enh_of start_ambe). apply alive_start.
  - change (p_amplitudeThreshold (enh_of start_ambe)) with 20480%Z. lia.
  - intros k r1 st1 t1 Hk K. destruct k as [|k]; [lia|]. apply (HM (S k) r1 st1 t1 Hk). cbn [firstn] in *. rewrite (stream_begin r a c _ st t SS), B. exact K.
  - split; [exact F1|intros _; exact F2].
Qed.
Lemma ambe_numbers : forall r a cs st t s st' t', fine_exp2 o r -> heard r cs -> Forall ambe_ok cs -> Forall (fun c => ac_errors c <= 20)%Z cs -> st = start \/ st = start_ambe -> thread_ok t -> (Z.of_nat (length cs) <= 300000)%Z ->
  (forall k r1 st1 t1, (1 <= k <= length cs)%nat -> ambe_stream (do_ambe r o a) (firstn k cs) st t = Ok (r1, st1, t1) -> moderate (prev_of st1)) ->
  ambe_stream (do_ambe r o a) cs st t = Ok (s, st', t') -> Forall (fun f => Forall audible (fst f)) s.
Proof. intros r a cs st t s st' t' FX GP FC FE HS TH HT HM H. eapply ambe_alive; eassumption. Qed.
End Stream.
