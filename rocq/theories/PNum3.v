(* A frame of moderate amplitudes is made of numbers, and so are the sets synthesis leaves. *)
From Coq Require Import ZArith Reals Lra Lia List Bool.
From Verif Require Import Res F32 MParms MAdaptive MSynth SpecFrame SpecState SpecAdaptive SpecGen SpecWola SpecOut SpecAmp SpecSynth SpecTrig SpecFftErr SpecNum PFloat PFloat2 PReal PPredict PGen PWola PSpeech PSynth PSynth2 POsc PEnh3 PNum PNum2.
From Flocq Require Import Core.Core.
Import ListNotations.
Local Open Scope R_scope.

Lemma f_replaced : forall b lo hi f old, 0 <= b -> (forall l, (lo <= l <= hi)%Z -> (0 <= l <= 56)%Z -> sized b (f l)) -> Forall (sized b) old -> Forall (sized b) (replaced zero lo hi f old).
Proof.
  intros b lo hi f old B F H. unfold replaced. apply Forall_forall. intros x Hx. apply in_map_iff in Hx as (i & <- & Hi). apply in_seq in Hi. cbv zeta.
  destruct (_ && _) eqn:E; [apply F; lia|]. replace i with (Z.to_nat (Z.of_nat i)) by lia. apply (s_cell b old (Z.of_nat i) B H).
Qed.
Lemma f_skipn : forall {A} (P : A -> Prop) n l, Forall P l -> Forall P (skipn n l).
Proof. intros A P n l H. rewrite <- (firstn_skipn n l) in H. apply Forall_app in H. apply H. Qed.
(* harmonics that only the other frame has *)
Lemma extended_cell : forall to m l, (1 <= l <= 56)%Z -> cell zero (p_Ml (extended to m)) l = if ((p_L m + 1 <=? l) && (l <=? to))%Z then zero else cell zero (p_Ml m) l.
Proof. intros to m l H. change (p_Ml (extended to m)) with (replaced zero (p_L m + 1) to (fun _ => zero) (p_Ml m)). apply cell_replaced. lia. Qed.
Lemma extended_sized : forall b to m l, 0 <= b -> amplitudes_to b m -> (0 <= p_L m)%Z -> (1 <= l <= Z.max (p_L m) to)%Z -> (l <= 56)%Z -> sized b (cell zero (p_Ml (extended to m)) l).
Proof.
  intros b to m l B A HL H1 H2. rewrite extended_cell by lia. destruct (_ && _) eqn:E; [apply s_zero, B|]. apply from0_sized, A. lia.
Qed.
Lemma extended_amplitudes : forall b to m, 0 <= b -> (0 <= p_L m <= 56)%Z -> amplitudes_to b m -> amplitudes_to b (extended to m).
Proof.
  intros b to m B HL A l Hl. change (p_L (extended to m)) with (p_L m) in Hl. rewrite extended_cell by lia. destruct (_ && _) eqn:E; [lia|]. apply A, Hl.
Qed.
Lemma same_amplitudes : forall b m m', amplitudes_to b m -> p_L m' = p_L m -> p_Ml m' = p_Ml m -> amplitudes_to b m'.
Proof. intros b m m' A E1 E2 l Hl. rewrite E1 in Hl. rewrite E2. apply A, Hl. Qed.
Lemma clip_number : forall x, ff x -> number (clip x).
Proof.
  intros x F. assert (L : ff sample_limit /\ 4000 <= R_of sample_limit) by (split; [apply ff_const; vm_compute; reflexivity|R_val sample_limit; lra]). destruct L as [LF LR].
  assert (G : ff (fopp sample_limit) /\ R_of (fopp sample_limit) = - R_of sample_limit) by (split; [apply fopp_ff, LF|apply R_fopp]). destruct G as [GF GR].
  assert (Q : ff (clip x) /\ Rabs (R_of (clip x)) <= R_of sample_limit).
  { unfold clip. change (fgt x sample_limit) with (flt sample_limit x). destruct (flt sample_limit x) eqn:E1; [split; [exact LF|rewrite Rabs_pos_eq; lra]|]. destruct (flt x (fopp sample_limit)) eqn:E2; [split; [exact GF|rewrite GR, Rabs_Ropp, Rabs_pos_eq; lra]|].
    apply flt_false in E1; auto. apply flt_false in E2; auto. split; [exact F|]. apply Rabs_le. lra. }
  destruct Q as [Q1 Q2]. split; [exact Q1|]. apply fle_true; auto using fabs_ff. now rewrite R_fabs.
Qed.
Lemma noise_sample_number : forall b, (0 <= b < 16777216)%Z -> ff (noise_sample (fdiv (f_of_Z b) (f_of_Z 16777216))) /\ fle (fabs (noise_sample (fdiv (f_of_Z b) (f_of_Z 16777216)))) sample_limit = true.
Proof.
  intros b Hb. assert (S : sized 100 (noise_sample (fdiv (f_of_Z b) (f_of_Z 16777216)))).
  { unfold noise_sample. destruct (int_R 16777216) as [F E]; [lia|].
    assert (I : sized 16777216 (f_of_Z b)) by (apply s_int; [lia|apply IZR_le; lia]).
    assert (D : sized 1.1 (fdiv (f_of_Z b) (f_of_Z 16777216))) by (apply (s_div _ _ 16777216 16777216); auto; lra).
    assert (I2 : sized 2 (f_of_Z 2)) by (apply s_int; [lia|apply IZR_le; lia]). assert (I1 : sized 1 (f_of_Z 1)) by (apply s_int; [lia|apply IZR_le; lia]).
    apply (s_mul _ _ 4 15); try lra; [apply (s_sub _ _ 2.3 1); auto; try lra; apply (s_mul _ _ 1.1 2); auto; lra|].
    split; [apply ff_const; vm_compute; reflexivity|]. R_val noise_gain. intros. apply Rabs_le. lra. }
  destruct S as [F S]. split; [exact F|]. assert (L : ff sample_limit /\ 4000 <= R_of sample_limit) by (split; [apply ff_const; vm_compute; reflexivity|R_val sample_limit; lra]). destruct L as [LF LR].
  apply fle_true; auto using fabs_ff. rewrite R_fabs. lra.
Qed.
Lemma ok_pair : forall {A B} (x : A) (y : B) u v, Ok (x, y) = Ok (u, v) -> x = u.
Proof. intros A B x y u v H. injection H. auto. Qed.
Lemma comfort_numbers : forall aout t b t', length aout = 160%nat -> mbe_synthesizeComfortNoisef aout t = Ok (b, t') -> length b = 160%nat /\ Forall number b.
Proof.
  intros aout t b t' L H. rewrite comfort_frame in H by exact L. apply ok_pair in H as <-. split; [rewrite map_length, seq_length; reflexivity|].
  apply Forall_forall. intros x Hx. apply in_map_iff in Hx as (i & <- & _). apply noise_sample_number. apply java_bits_range.
Qed.
Lemma pitch_range_of : forall w, pitch_one w -> pitch_in_range w.
Proof.
  intros w [F H]. assert (FZ : ff (S754_zero false)) by (split; reflexivity). destruct (int_R 1000) as [F1 E1]; [lia|].
  split; [apply F|]. split; [now apply ff_fin|]. split; apply fle_true; auto; [change (R_of (S754_zero false)) with 0; lra|rewrite E1; lra].
Qed.

Section Frame.
Context (o : oracle) (AA : accurate_angles o) (BT : bounded_transforms o) (b : R) (B : 1 <= b <= 1e12).
Lemma spoken_numbers : forall cur prev t, (1 <= p_L cur <= 56)%Z -> (0 <= p_L prev <= 56)%Z -> generator_seed (p_noiseSeed cur) ->
  amplitudes_to b cur -> amplitudes_to b prev -> numeric cur -> numeric prev ->
  let '(s, cur', prev', _) := spoken o cur prev t in Forall number s /\ numeric cur' /\ numeric prev' /\ amplitudes_to b cur' /\ amplitudes_to b prev'.
Proof.
  intros cur prev t HL HP G AC AP (C1 & C2 & C3 & C4 & CW) (P1 & P2 & P3 & P4 & PW). unfold spoken.
  assert (N : Forall (sized 60000) (noise_of (p_noiseSeed cur) (p_noiseOverlap cur))) by (apply noise_sized; assumption). set (noise := noise_of _ _) in *.
  assert (W : Forall (sized (5000 * b)) (noise_wave o cur noise)) by (apply wave_sized; auto; [lia|]; intros l Hl; apply from0_sized, AC, Hl).
  assert (W' : Forall (sized 1e18) (noise_wave o cur noise)) by (eapply Forall_impl; [|exact W]; intros y Hy; apply (s_weak _ _ _ Hy); lra).
  assert (PHI : Forall (sized 20000) (replaced zero 1 56 (voice_phase cur prev noise) (p_PHIl cur))).
  { apply f_replaced; auto; [lra|]. intros l H1 H2. apply (s_weak 10000); [|lra]. apply voice_phase_sized; auto. }
  assert (PSI : Forall (sized 20000) (replaced zero 1 56 (phase cur prev) (p_PSIl cur))).
  { apply f_replaced; auto; [lra|]. intros l H1 H2. apply (s_weak 8975); [|lra]. apply phase_sized; auto. }
  assert (PSP : Forall (sized 20000) (replaced zero 1 56 (fun l => wrap (cell zero (p_PSIl prev) l)) (p_PSIl prev))).
  { apply f_replaced; auto; [lra|]. intros l H1 H2. apply (s_weak 7); [|lra]. apply wrap_sized. apply (s_cell 20000); [lra|exact P2]. }
  assert (OV : Forall (sized 60000) (skipn 160 noise)) by (apply f_skipn, N).
  assert (NC : numeric (spoken_voice cur prev t)) by (repeat split; auto; apply CW).
  assert (NP : numeric (spoken_prev cur prev)) by (repeat split; auto; apply PW).
  assert (EC : numeric (spoken_cur o cur prev t)).
  { unfold spoken_cur. fold noise. destruct (o_plan o); [|exact NC]. repeat split; auto; apply CW. }
  split; [|split; [exact EC|split; [exact NP|split]]].
  - apply Forall_forall. intros x Hx. apply in_map_iff in Hx as (n & <- & Hn). apply in_seq in Hn. unfold spoken_sample. apply clip_number. fold noise.
    assert (V : sized (1600 * b) (voiced_sample o (spoken_voice cur prev t) (spoken_prev cur prev) n)).
    { assert (EL : p_L (spoken_voice cur prev t) = p_L cur) by reflexivity. assert (EL' : p_L (spoken_prev cur prev) = p_L prev) by reflexivity.
      apply voiced_sized; auto; rewrite ?EL, ?EL'; try lia. intros l Hl. split.
      - apply (extended_sized b (p_L prev) cur); auto; try lra; lia.
      - apply (extended_sized b (p_L cur) (set_PSIl (replaced zero 1 56 (fun l => wrap (cell zero (p_PSIl prev) l)) (p_PSIl prev)) prev)); auto; try lra; cbn; lia. }
    destruct (o_plan o); [|apply V]. assert (Q : sized 1e20 (fadd (voiced_sample o (spoken_voice cur prev t) (spoken_prev cur prev) n) (overlap_term (p_previousUw prev) (noise_wave o cur noise) (Z.of_nat n)))); [|apply Q].
    apply (s_add _ _ (1600 * b) 4e18); try lra; [exact V|]. apply (overlap_sized b B); auto. lia.
  - assert (K : amplitudes_to b (spoken_voice cur prev t)) by (exact (extended_amplitudes b (p_L prev) cur ltac:(lra) ltac:(lia) AC)).
    unfold spoken_cur. cbv zeta. fold noise. revert K. generalize (spoken_voice cur prev t). generalize (noise_wave o cur noise). intros w c K. destruct (o_plan o); [|exact K]. exact (same_amplitudes b c _ K eq_refl eq_refl).
  - exact (extended_amplitudes b (p_L cur) (set_PSIl (replaced zero 1 56 (fun l => wrap (cell zero (p_PSIl prev) l)) (p_PSIl prev)) prev) ltac:(lra) ltac:(exact HP) AP).
Qed.
Lemma speech_numbers : forall aout a cur prev uvq t, wf_parms cur -> wf_parms prev -> (1 <= p_L cur <= 56)%Z -> (0 <= p_L prev <= 56)%Z -> generator_seed (p_noiseSeed cur) ->
  length aout = 160%nat -> (0 <= p_errorCountTotal cur <= 20)%Z -> (p_amplitudeThreshold prev <= 2000000000)%Z ->
  amplitudes_to b cur -> amplitudes_to b prev -> numeric cur -> numeric prev ->
  exists s cur' prev' t', mbe_synthesizeSpeechf o aout a cur prev uvq t = Ok (s, cur', prev', t') /\ length s = 160%nat /\ Forall number s /\
  numeric cur' /\ numeric prev' /\ amplitudes_to b cur' /\ amplitudes_to b prev'.
Proof.
  intros aout a cur prev uvq t WC WP HL HP G LA HE HT AC AP NC NP.
  assert (PW : pitch_in_range (p_w0 cur)) by (apply pitch_range_of; split; apply NC).
  set (e := SpecSynth.frame_energy t a cur). assert (AS : amplitudes_to b (smoothing_result o e cur prev)).
  { apply smoothed_amplitudes; auto; [apply WC|lia|]. unfold amplitude_limit. destruct (_ && _); [lia|]. destruct (Z.leb_spec (p_amplitudeThreshold prev) 0); lia. }
  assert (NS : numeric (smoothing_result o e cur prev)) by (exact NC).
  destruct (muted cur) eqn:M.
  - unfold mbe_synthesizeSpeechf. pose proof (smoothing_formula o a cur prev t WC ltac:(lia) ltac:(lia) HT) as E. rewrite E. cbn [bind].
    apply smoothing_but in E. apply muted_smoothing in E. rewrite E, muted_eq, M. clear E. set (t1 := if pending t a then clear_pending t else t).
    destruct (mbe_synthesizeComfortNoisef aout t1) as [[s t2]|w] eqn:EC; [|rewrite comfort_frame in EC by exact LA; discriminate EC].
    cbn [bind]. destruct (comfort_numbers _ _ _ _ LA EC) as [L2 N2]. eexists _, _, _, _. split; [reflexivity|]. auto 10.
  - rewrite speech_formula by (auto; lia). fold e. set (t1 := if pending t a then clear_pending t else t).
    pose proof (spoken_numbers (smoothing_result o e cur prev) prev t1 HL HP G AS AP NS NP) as K. unfold spoken in K |- *.
    eexists _, _, _, _. split; [reflexivity|]. split; [now rewrite map_length, seq_length|]. exact K.
Qed.
End Frame.
