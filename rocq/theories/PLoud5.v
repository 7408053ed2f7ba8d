(* Streams of the loud frame. *)
From Coq Require Import ZArith Reals Lra Lia List Bool.
From Verif Require Import Res F32 MParms MAdaptive MUnvoiced MSynth MFrame MImbe MAmbe SpecEcc SpecFrame SpecAdaptive SpecWola SpecState SpecImbe SpecMachine SpecAmp SpecSynth SpecBound SpecLoud PBase PRun PArr PState PSpeech PImbe PMachine PStream PSynth PFloat PReal PAmp PPredict PBound PLoud PLoud2 PLoud3 PLoud4.
From Flocq Require Import Core.Core.
Import ListNotations.
Local Open Scope Z_scope.

Lemma loud_is_bits : is_bits 88 loud_bits.
Proof. split; [reflexivity|]. unfold loud_bits. repeat (constructor; [first [left; reflexivity|right; reflexivity]|]). constructor. Qed.
Lemma loud_ok : forall c, loud_call c -> call_ok c.
Proof. intros c (B & E & L). unfold call_ok. rewrite B, E. split; [exact loud_is_bits|]. split; [lia|exact L]. Qed.
Lemma loud_pitch : pitch7200 loud_bits = 72. Proof. vm_compute. reflexivity. Qed.
Lemma loud_L : imbe_harmonics 72 = 25. Proof. vm_compute. reflexivity. Qed.
Lemma loud_w0 : ff (imbe_w0_of_b0 72) /\ (/ 1000 <= R_of (imbe_w0_of_b0 72))%R.
Proof.
  assert (F : ff (imbe_w0_of_b0 72)) by (split; vm_compute; reflexivity). split; [exact F|].
  assert (G : fle (S754_finite false 8388608 (-32)) (imbe_w0_of_b0 72) = true) by (vm_compute; reflexivity).
  apply fle_true in G; [|split; vm_compute; reflexivity|exact F]. apply Rle_trans with (2 := G).
  unfold R_of. cbn [Flocq.IEEE754.BinarySingleNaN.SF2R]. unfold Flocq.Core.Defs.F2R. cbn [Flocq.Core.Defs.Fnum Flocq.Core.Defs.Fexp Flocq.Core.Zaux.cond_Zopp].
  change (bpow radix2 (-32)) with (/ 4294967296)%R. lra.
Qed.
Lemma loud_voiced : forallb (fun l => payload_bit 25 loud_bits (1, voicing_band 25 l) =? 1) (upto 25) = true.
Proof. vm_compute. reflexivity. Qed.
Lemma loud_needs : forall rate c, rate = S754_zero false -> imbe_needs loud_bits 0 rate c = false.
Proof.
  intros rate c ->. unfold imbe_needs. rewrite loud_pitch. change (207 <? 72) with false. cbn [orb]. destruct c; [|reflexivity]. apply andb_false_intro2. vm_compute. reflexivity.
Qed.
(* the lead of harmonic 4 after n frames *)
Fixpoint grow (n : nat) : R := match n with O => 0%R | S n => (7.633 + 0.6999 * grow n)%R end.
Lemma grow_up : forall n, (0 <= grow n <= grow (S n))%R.
Proof. induction n as [|n IH]; [cbn [grow]; lra|]. change (grow (S (S n))) with (7.633 + 0.6999 * grow (S n))%R. cbn [grow] in *. lra. Qed.
Lemma grow_8 : forall n, (8 <= n)%nat -> (23.92 <= grow n)%R.
Proof.
  intros n H. induction H as [|n H IH]; [cbn [grow]; lra|]. pose proof (grow_up n). lra.
Qed.
Lemma loud_power : forall x, (32.3 <= x)%R -> (4600000000 <= Rpower 2 x)%R.
Proof.
  intros x H. replace x with (32 + (x - 32))%R by ring. rewrite Rpower_plus.
  assert (P : (Rpower 2 32 = 4294967296)%R) by (replace 32%R with (INR 32) by (cbn; lra); rewrite Rpower_pow by lra; cbn [pow]; lra). rewrite P.
  assert (E : (1.15 <= Rpower 2 (x - 32))%R).
  { unfold Rpower. pose proof ln_lt_2. pose proof (exp_ineq1_le ((x - 32) * ln 2)). assert (0.3 * / 2 <= (x - 32) * ln 2)%R by (apply Rmult_le_compat; lra). lra. }
  lra.
Qed.

Definition loud_state (x : R) (st : dstate) : Prop :=
  sane_state st /\ steady_state st /\ p_errorRate (prev_of st) = S754_zero false /\ p_L (prev_of st) <= 55 /\ p_amplitudeThreshold (enh_of st) = 20480 /\ led (prev_of st) x.
Lemma loud_start : loud_state 0 start.
Proof.
  split; [apply sane_start|]. split; [|split; [reflexivity|split; [cbn; lia|split; [reflexivity|]]]].
  - assert (Q : PBound.steady imbe_initial) by (apply zero_logs; [reflexivity|cbn; lia]). split; [exact (proj1 Q)|exact Q].
  - split; [lra|]. left. split; [|reflexivity]. intros k. unfold log_at. change (p_log2Ml (prev_of start)) with (repeat (S754_zero false) 57). rewrite nth_repeat. apply R_zero.
Qed.
Section Accurate.
Variable o : oracle.
Hypothesis A : accurate_library o.
Let CU : cosine_in_unit o := proj1 A.
Let EX : exact_powers o := proj1 (proj2 A).
Lemma loud_step : forall a c st t x, loud_call c -> thread_ok t -> loud_state x st ->
  exists b st' t', imbe_do o a c st t = Ok (b, [0], st', t') /\ thread_ok t' /\ loud_state (7.633 + 0.6999 * x) st' /\ ((23.92 <= 7.633 + 0.6999 * x)%R -> b = repeat S754_nan 160).
Proof.
  intros a c st t x LC TH (SS & ST & R0 & PL & AT & LD). pose proof (loud_ok c LC) as Hc. destruct LC as (EB & EE & LB).
  destruct (imbe_defined o a c st t Hc SS TH) as (b & s & st' & t' & D & S1 & T1 & L1).
  { unfold threshold_room. rewrite AT. lia. }
  { intros _. apply usable_55; [destruct st as [[cur prev] enh]; apply SS|exact PL]. }
  pose proof (imbe_steady _ _ _ _ _ _ _ _ _ CU EX Hc SS ST D) as ST1.
  destruct (imbe_step _ _ _ _ _ _ _ _ _ Hc SS TH D) as (_ & _ & C1 & M1 & ER1 & EL1 & W1 & _ & _ & _ & E1 & _ & _ & _ & _ & _ & TM1 & TC1 & _).
  rewrite EB, EE, R0 in *. set (rate := imbe_rate (S754_zero false) 0) in *. assert (RZ : rate = S754_zero false) by (vm_compute; reflexivity).
  rewrite (loud_needs rate _ RZ) in *. cbn [andb next_count] in *. rewrite loud_pitch, loud_L in *. rewrite RZ in ER1.
  assert (AT1 : p_amplitudeThreshold (enh_of st') = 20480).
  { rewrite ER1, TC1 in TM1. unfold smoothing_Tm in TM1. change (fle (S754_zero false) LOW && (0 <=? 6)) with true in TM1. cbv iota in TM1. injection TM1 as <-. reflexivity. }
  destruct st as [[cur prev] enh]. cbn [prev_of cur_of enh_of] in *. pose proof D as D2. unfold imbe_do in D2. rewrite imbe_process_eq in D2.
  apply bind_inv in D2 as ([[[c' p'] rep] mut] & HI & D2). apply bind_inv in D2 as ([[b1 st1] t1] & HS & D2). injection D2 as <- ES EST <-.
  destruct SS as (SC & SP & SE). pose proof loud_is_bits as LBB. assert (N0 : 0 <= 0 <= 100) by lia. rewrite EB, EE in HI.
  destruct (imbe_parameters_inv _ _ _ _ _ _ _ _ _ _ _ LBB (proj1 SC) (proj1 SP) HI) as (bad & c1 & HD & ER & EM & EC & W'). pose proof (imbe_parameters_sane _ _ _ _ _ _ _ _ _ _ _ LBB N0 SC SP HI) as SN.
  rewrite R0 in ER. fold rate in ER. rewrite (loud_needs rate _ RZ) in ER. subst rep. unfold picked in EC.
  assert (EST2 : prev_of st' = c'). { rewrite <- EST. unfold ambe_speak in HS. cbv zeta in HS. apply bind_inv in HS as ([m2 t2] & _ & HS). apply bind_inv in HS as ([[[b3 m3] e3] t3] & _ & HS). injection HS as _ <- _. reflexivity. }
  assert (MU : fgt (p_errorRate c') (p_mutingThreshold c') = false /\ (4 <=? p_repeatCount c') = false).
  { rewrite <- EST2, ER1, M1, C1. split; vm_compute; reflexivity. }
  destruct MU as [MU1 MU2]. rewrite MU1, MU2 in EM. cbn [orb] in EM. subst mut. rewrite EE in ES. cbn in ES.
  exists b1, st', t1. rewrite <- ES in D. split; [exact D|]. split; [exact T1|].
  set (e := imbe_entry 0 (ic_c0_known c) cur prev) in *. assert (WE : wf_parms e) by (unfold e, imbe_entry; destruct (ic_c0_known c); exact (proj1 SC)).
  assert (HU : usable_history (imbe_harmonics (pitch7200 loud_bits)) prev) by (apply usable_55; assumption).
  pose proof (imbe_amplitudes o loud_bits e prev bad c1 p' LBB WE ltac:(rewrite loud_pitch; lia) HU HD) as AM. cbv zeta in AM.
  destruct (imbe_decode_inv _ _ _ _ _ _ _ LBB ltac:(rewrite loud_pitch; lia) (proj1 WE) HD) as (_ & AC & EW). unfold imbe_accepted in AC. cbv zeta in AC.
  destruct AC as (AL & _ & _ & AV & _). rewrite loud_pitch, loud_L in *.
  assert (LOG : forall l, 1 <= l <= 25 -> log_at c' l = imbe_log_amplitude o 25 loud_bits prev l).
  { intros l Hl. rewrite EC. change (log_at (set_repeatCount 0 (set_repeat 0 c1)) l) with (log_at c1 l). apply log_rd, AM, Hl. }
  assert (AMP : forall l, 1 <= l <= 25 -> cell zero (p_Ml c') l = exp2f o (log_at c' l)).
  { intros l Hl. rewrite LOG by exact Hl. rewrite EC. apply rd_cell, AM, Hl. }
  destruct (lead_step o A prev x (proj2 ST) (proj1 (proj2 SP)) LD) as (FN & MN & LN).
  assert (MEAN : past_mean c' = (rsum 25 (fun l => R_of (imbe_log_amplitude o 25 loud_bits prev l)) / 25)%R).
  { unfold past_mean. f_equal. apply rsum_ext. intros k Hk. rewrite LOG by lia. reflexivity. }
  assert (LEAD : (7.633 + 0.6999 * x <= lead c')%R) by (unfold lead; rewrite MEAN, LOG by lia; exact LN).
  destruct LD as [X0 _]. rewrite EST2 in *.
  split.
  - unfold loud_state. rewrite EST2. split; [exact S1|]. split; [exact ST1|]. split; [exact ER1|]. split; [lia|]. split; [exact AT1|].
    split; [lra|]. right. split; [exact EL1|exact LEAD].
  - intros HX. assert (SMALL : forall l, 1 <= l <= 25 -> ff (log_at c' l) /\ (Rabs (R_of (log_at c' l)) <= 108)%R).
    { intros l Hl. destruct ST1 as [_ [(_ & Q & _) _]]. rewrite EST2 in Q. apply Q. lia. }
    pose proof (proj2 (proj2 (proj2 A))) as PW.
    assert (OV : overloud c').
    { split; [apply W'|]. split; [lia|]. rewrite W1. split; [apply loud_w0|]. split; [apply loud_w0|]. split.
      - intros k Hk. rewrite EL1 in Hk. rewrite AMP by exact Hk. destruct (SMALL k Hk) as [F B]. apply PW; assumption.
      - assert (G : (4450000000 <= R_of (cell zero (p_Ml c') 4))%R).
        { rewrite AMP by lia. destruct (SMALL 4 ltac:(lia)) as [F B]. destruct (PW _ F B) as [_ P]. apply Rabs_le_inv in P.
          assert (Q : (32.3 <= R_of (log_at c' 4))%R) by (unfold lead in LEAD; rewrite MEAN in LEAD; lra).
          pose proof (loud_power _ Q). lra. }
        split; [exists 4; split; [lia|exact G]|]. exists 4. split; [lia|]. split; [lia|lra]. }
    apply (speak_nan o a (ic_buf c) c' enh (ic_uv c) t b1 st1 t1 OV SN SE).
    + rewrite EC. change (p_Vl (set_repeatCount 0 (set_repeat 0 c1))) with (p_Vl c1). apply rd_cell. rewrite AV by lia.
      pose proof loud_voiced as V. rewrite forallb_forall in V. specialize (V 9). apply (f_equal Ok), Z.eqb_eq, V. vm_compute. tauto.
    + unfold muted. rewrite MU1, MU2. apply andb_false_r.
    + rewrite AT. lia.
    + exact LB.
    + exact HS.
Qed.
Lemma loud_stream : forall a cs st t x, Forall loud_call cs -> thread_ok t -> loud_state x st ->
  exists r st' t', imbe_stream o a cs st t = Ok (r, st', t').
Proof.
  intros a cs. induction cs as [|c cs IH]; intros st t x F TH LS; cbn [imbe_stream]; [eauto|]. inversion F; subst.
  destruct (loud_step a c st t x ltac:(assumption) TH LS) as (b & st1 & t1 & D & T1 & L1 & _). rewrite D. cbn [bind].
  destruct (IH st1 t1 _ ltac:(assumption) T1 L1) as (r & st2 & t2 & E). rewrite E. cbn [bind]. eauto.
Qed.
(* from frame 8 on every sample is NaN, and no frame is marked *)
Definition spoiled (n : nat) (r : list (list f32 * list Z)) : Prop :=
  forall i b s, nth_error r i = Some (b, s) -> s = [0] /\ ((8 <= i + 1 + n)%nat -> b = repeat S754_nan 160).
Lemma loud_stream_nan : forall a cs n st t, Forall loud_call cs -> thread_ok t -> loud_state (grow n) st ->
  exists r st' t', imbe_stream o a cs st t = Ok (r, st', t') /\ length r = length cs /\ spoiled n r /\ thread_ok t' /\ loud_state (grow (n + length cs)) st'.
Proof.
  intros a cs. induction cs as [|c cs IH]; intros n st t F TH LS; cbn [imbe_stream].
  - exists [], st, t. split; [reflexivity|]. split; [reflexivity|]. split; [intros i b s H; destruct i; discriminate H|]. split; [exact TH|]. cbn [length]. rewrite Nat.add_0_r. exact LS.
  - inversion F as [|y ys F1 F2]; subst. destruct (loud_step a c st t _ F1 TH LS) as (b & st1 & t1 & D & T1 & L1 & N1). rewrite D. cbn [bind].
    destruct (IH (S n) st1 t1 F2 T1 L1) as (r & st2 & t2 & E & LR & SP & T2 & L2). rewrite E. cbn [bind]. exists ((b, [0]) :: r), st2, t2. split; [reflexivity|]. split; [cbn; lia|].
    split; [|split; [exact T2|]].
    + intros i b' s' H. destruct i as [|i]; cbn [nth_error] in H.
      * injection H as <- <-. split; [reflexivity|]. intros K. apply N1. change (7.633 + 0.6999 * grow n)%R with (grow (S n)). apply grow_8. lia.
      * destruct (SP i b' s' H) as [Q1 Q2]. split; [exact Q1|]. intros K. apply Q2. lia.
    + cbn [length]. replace (n + S (length cs))%nat with (S n + length cs)%nat by lia. exact L2.
Qed.
End Accurate.
