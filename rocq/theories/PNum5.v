(* Decoder calls on moderate parameter sets give numbers. *)
From Coq Require Import ZArith Reals Lra Lia List Bool.
From Verif Require Import Res F32 MParms MSynth MFrame MImbe MAmbe SpecWola SpecEnh SpecGen SpecOut PRun PStream PConv SpecFrame SpecState SpecImbe SpecMachine SpecAdaptive SpecAmp SpecSynth SpecTrig SpecEnh2 SpecFftErr SpecNum
  PFloat PFloat2 PReal PPredict PNyq PGen PAmp PImbe PSynth POsc PEnh2 PEnh3 PSpeech PMachine PNum PNum2 PNum3 PNum4.
From Flocq Require Import Core.Core.
From Flocq Require IEEE754.BinarySingleNaN.
Import ListNotations.
Local Open Scope R_scope.

Section Speak.
Variable o : oracle.
Hypothesis AA : accurate_angles o.
Hypothesis BT : bounded_transforms o.

Lemma enhanced_fields : forall a m t m' t', length (p_Ml m) = 57%nat -> (0 <= p_L m <= 56)%Z -> mbe_spectralAmpEnhance o a m t = Ok (m', t') -> m' = set_Ml (p_Ml m') m /\ length (p_Ml m') = 57%nat.
Proof.
  intros a m t m' t' LM HL H. rewrite enhance_formula in H by assumption. assert (E : m' = set_Ml (enhanced_amplitudes o m) m) by (now inversion H).
  rewrite E. split; [reflexivity|]. fields. apply replaced_length.
Qed.
Lemma speak_numbers : forall a aout m enh uvq t b st' t', sane m -> sane enh -> pitched m -> moderate m -> numeric m -> numeric enh -> amplitudes_to 1e9 enh ->
  (p_errorCountTotal m <= 20)%Z -> (p_amplitudeThreshold enh <= 2000000000)%Z -> length aout = 160%nat ->
  ambe_speak o a aout m enh uvq t = Ok (b, st', t') ->
  exists k, st' = (k, m, k) /\ Forall number b /\ numeric k /\ amplitudes_to 1e9 k.
Proof.
  intros a aout m enh uvq t b st' t' SM SE (PL & PW & PB) (AM & EM) NM NE AE HE HT LA H.
  assert (WM : wf_parms m) by apply SM. assert (WE : wf_parms enh) by apply SE. assert (LM : length (p_Ml m) = 57%nat) by apply WM.
  assert (FW : ff (p_w0 m)) by apply NM.
  destruct (enhance_numbers o m PL (AA _ FW ltac:(rewrite Rabs_pos_eq; lra)) FW PW PB AM EM a t LM) as (m' & t1 & HEn & CE & _).
  destruct (enhanced_fields _ _ _ _ _ LM ltac:(lia) HEn) as [EM' LM'].
  assert (W' : wf_parms m') by (rewrite EM'; unfold wf_parms in *; fields; tauto).
  assert (N' : numeric m') by (rewrite EM'; exact NM).
  assert (A' : amplitudes_to 1e9 m').
  { intros l Hl. replace (p_L m') with (p_L m) in Hl by (rewrite EM'; reflexivity). destruct (CE l Hl) as [C1 C2]. destruct (AM l Hl) as [_ C3]. split; [exact C1|lra]. }
  unfold ambe_speak, mbe_moveMbeParms in H. cbv zeta in H. rewrite HEn in H. cbn [bind] in H.
  destruct (speech_numbers o AA BT 1e9 ltac:(lra) aout a m' enh uvq t1) as (s & c' & e' & t2 & HS & LS & FS & NC & _ & AC & _); try assumption.
  - rewrite EM'. fields. lia.
  - apply SE.
  - rewrite EM'. fields. apply SM.
  - rewrite EM'. fields. split; [apply SM|exact HE].
  - rewrite HS in H. cbn [bind] in H. injection H as <- <- _. exists c'. auto.
Qed.
End Speak.

(* ---- fundamentals ---- *)
Lemma low_harmonics : forall m, (1 <= p_L m <= 56)%Z -> 0.049 <= R_of (p_w0 m) <= 1 -> R_of (p_w0 m) * IZR (p_L m) <= 3.09 -> pitched m.
Proof.
  intros m HL HW HT. split; [exact HL|]. split; [exact HW|]. intros l Hl. apply cos_between. assert (1 <= IZR l <= IZR (p_L m)) by (split; apply IZR_le; lia). split; nra.
Qed.
Lemma imbe_pitched : forall b m, (0 <= b <= 207)%Z -> p_w0 m = imbe_w0_of_b0 b -> p_L m = imbe_harmonics b -> pitched m /\ ff (p_w0 m).
Proof.
  intros b m Hb EW EL. destruct (imbe_w0_near b Hb) as (F & N & U). pose proof (harmonics_range b Hb) as R. pose proof PI_bounds as P.
  split; [|rewrite EW; exact F]. assert (B0 : 0 <= IZR b) by (apply IZR_le; lia). assert (B1 : IZR b <= 207) by (apply IZR_le; lia).
  apply low_harmonics; rewrite ?EW, ?EL; apply Rabs_le_inv in N; generalize dependent (R_of (imbe_w0_of_b0 b)); intros x N U; [lia| |lra]. split; nra.
Qed.
Lemma initial_pitched : forall m, p_w0 m = p_w0 imbe_initial -> p_L m = 39%Z -> pitched m /\ ff (p_w0 m).
Proof.
  intros m EW EL. split; [apply low_harmonics|]; rewrite ?EW, ?EL; change (p_w0 imbe_initial) with (S754_finite false 9721209 (-27)); [lia| | |apply ff_const; vm_compute; reflexivity];
  R_val (S754_finite false 9721209 (-27)); lra.
Qed.

(* what the calls preserve *)
Definition lively (st : dstate) : Prop :=
  sane_state st /\ numeric (cur_of st) /\ numeric (prev_of st) /\ numeric (enh_of st) /\ amplitudes_to 1e9 (enh_of st) /\ pitched (prev_of st) /\ (p_errorCountTotal (prev_of st) <= 20)%Z.

Section Stream.
Variable o : oracle.
Hypothesis AA : accurate_angles o.
Hypothesis BT : bounded_transforms o.

Lemma lively_step : forall a c st t b str st' t', call_ok c -> (ic_errors c <= 20)%Z -> lively st -> thread_ok t -> (p_amplitudeThreshold (enh_of st) <= 2000000000)%Z ->
  imbe_do o a c st t = Ok (b, str, st', t') -> moderate (prev_of st') -> lively st' /\ Forall number b.
Proof.
  intros a c [[cur prev] enh] t b str st' t' (Hd & Hn & LB) HE (SS & NC & NP & NE & AE & PP & EP) TH HT H MO. cbn [cur_of prev_of enh_of] in *.
  pose proof SS as (SC & SP & SE). unfold imbe_do in H. rewrite imbe_process_eq in H.
  apply bind_inv in H as ([[[c' p'] rep] mut] & HI & H). apply bind_inv in H as ([[b1 st1] t1] & HS & H). apply Ok4 in H as (-> & _ & -> & ->).
  pose proof (imbe_parameters_sane _ _ _ _ _ _ _ _ _ _ _ Hd Hn SC SP HI) as SN.
  destruct (imbe_parameters_inv _ _ _ _ _ _ _ _ _ _ _ Hd (proj1 SC) (proj1 SP) HI) as (bad & c1 & HD & ER & _ & EC' & W').
  destruct (imbe_decode_cases _ _ _ _ _ _ _ _ _ Hd (proj1 SC) (proj1 SP) HD) as (B & W1 & WP1 & EP' & EC & EL).
  destruct (speak_inv _ _ _ _ _ _ _ _ _ _ W' (proj1 SE) (proj1 (proj2 SN)) LB HS) as (k & -> & _). cbn [prev_of] in MO.
  assert (Q : pitched c' /\ numeric c' /\ (p_errorCountTotal c' <= 20)%Z).
  { assert (N0 : forall w, ff w -> 0 <= R_of w <= 1 -> numeric (set_w0 w cur)) by (intros w W0 W1'; unfold numeric in *; fields; tauto).
    rewrite EC'. unfold picked. destruct rep; [destruct (p_repeatCount prev <? 4)%Z|].
    - rewrite EP'. split; [exact PP|]. split; [exact NP|exact EP].
    - destruct (initial_pitched (headroom c1) eq_refl eq_refl) as [I1 I2]. split; [exact I1|]. split.
      + unfold headroom. rewrite EC. unfold imbe_entry. unfold numeric in *. fields. destruct I1 as (_ & I3 & _). change (p_w0 (headroom c1)) with (p_w0 imbe_initial) in I2, I3.
        destruct (ic_c0_known c); fields; (split; [apply NC|]); (split; [apply NC|]); (split; [apply NC|]); (split; [apply NC|]); (split; [exact I2|lra]).
      + unfold headroom. rewrite EC. unfold imbe_entry. destruct (ic_c0_known c); fields; exact HE.
    - pose proof (pitch7200_range (ic_bits c) Hd) as R.
      assert (L207 : (pitch7200 (ic_bits c) <= 207)%Z). { unfold imbe_needs in ER. symmetry in ER. apply orb_false_iff in ER as [ER _]. apply Z.ltb_ge in ER. exact ER. }
      destruct (EL L207) as [E1 E2]. destruct (imbe_pitched (pitch7200 (ic_bits c)) c1 ltac:(lia) E2 E1) as [I1 I2].
      split; [exact I1|]. destruct I1 as (_ & I3 & _). split.
      + clear E1 E2. set (w := p_w0 c1) in *. clearbody w. rewrite EC. unfold imbe_entry. unfold numeric in *. fields.
        destruct (ic_c0_known c); fields; (split; [apply NC|]); (split; [apply NC|]); (split; [apply NC|]); (split; [apply NC|]); (split; [exact I2|lra]).
      + rewrite EC. unfold imbe_entry. destruct (ic_c0_known c); fields; exact HE. }
  destruct Q as (QP & QN & QE).
  destruct (speak_numbers o AA BT _ _ _ _ _ _ _ _ _ SN SE QP MO QN NE AE QE HT LB HS) as (k2 & E2 & FB & NK & AK).
  assert (k2 = k) by congruence. subst k2. split; [|exact FB].
  destruct (speak_sane _ _ _ _ _ _ _ _ _ _ _ _ SN SE TH LB HS) as [SK _].
  unfold lively. cbn [cur_of prev_of enh_of]. split; [split; [exact SK|split; [exact SN|exact SK]]|]. tauto.
Qed.

Lemma lively_stream : forall a cs st t r st' t', Forall call_ok cs -> Forall (fun c => ic_errors c <= 20)%Z cs -> lively st -> thread_ok t ->
  (Z.max 20480 (p_amplitudeThreshold (enh_of st)) + 6000 * Z.of_nat (length cs) <= 2000000000)%Z ->
  (forall k r1 st1 t1, (1 <= k <= length cs)%nat -> imbe_stream o a (firstn k cs) st t = Ok (r1, st1, t1) -> moderate (prev_of st1)) ->
  imbe_stream o a cs st t = Ok (r, st', t') -> lively st' /\ Forall (fun f => Forall number (fst f)) r.
Proof.
  intros a cs. induction cs as [|c cs IH]; intros st t r st' t' FC FE ST TH HT HM H; cbn [imbe_stream] in H.
  - injection H as <- <- _. auto.
  - apply bind_inv in H as ([[[b s] st1] t1] & HD & H). apply bind_inv in H as ([[r1 st2] t2] & HR & H).
    assert (Q : r = (b, s) :: r1 /\ st' = st2) by (now inversion H). destruct Q as [-> ->]. clear H.
    apply Forall_cons_iff in FC as [C1 FC]. apply Forall_cons_iff in FE as [E1 FE]. rewrite (eq_refl : length (c :: cs) = S (length cs)) in HT.
    assert (M1 : moderate (prev_of st1)).
    { apply (HM 1%nat [(b, s)] st1 t1); [cbn [length]; lia|]. cbn [firstn imbe_stream]. rewrite HD. reflexivity. }
    destruct (imbe_step _ _ _ _ _ _ _ _ _ C1 (proj1 ST) TH HD) as (_ & TH1 & _ & _ & _ & _ & _ & _ & _ & _ & _ & _ & _ & _ & _ & TB & _).
    destruct (lively_step _ _ _ _ _ _ _ _ C1 E1 ST TH ltac:(lia) HD M1) as [S1 N1].
    destruct (IH st1 t1 r1 st2 t2 FC FE S1 TH1 ltac:(lia)) as [S2 N2]; [|exact HR|].
    + intros k r2 st3 t3 Hk K. apply (HM (S k) ((b, s) :: r2) st3 t3); [cbn [length]; lia|]. cbn [firstn imbe_stream]. rewrite HD. cbn [bind]. rewrite K. reflexivity.
    + split; [exact S2|]. constructor; assumption.
Qed.
End Stream.

Lemma lively_start : lively start.
Proof.
  assert (Z : forall b, 0 <= b -> sized b fzero) by exact s_zero.
  assert (ZZ : forall b n, 0 <= b -> Forall (sized b) (repeat fzero n)) by (intros b n Hb; apply Forall_forall; intros x Hx; apply repeat_spec in Hx; rewrite Hx; apply Z, Hb).
  assert (I : pitched imbe_initial /\ ff (p_w0 imbe_initial)) by (apply initial_pitched; reflexivity).
  assert (NI : numeric imbe_initial).
  { change imbe_initial with (initial_parms (S754_finite false 9721209 (-27)) 39 12 (flit 875 10000)) at 1. unfold numeric, initial_parms. cbn [p_PHIl p_PSIl p_previousUw p_noiseOverlap p_w0].
    destruct I as [(_ & I1 & _) I2]. change (p_w0 imbe_initial) with (S754_finite false 9721209 (-27)) in *. 
    split; [apply ZZ; lra|]. split; [apply ZZ; lra|]. split; [apply ZZ; lra|]. split; [apply ZZ; lra|]. split; [exact I2|lra]. }
  unfold lively. split; [apply sane_start|]. cbn [start cur_of prev_of enh_of]. split; [exact NI|]. split; [exact NI|]. split; [exact NI|].
  split; [|split; [apply I|vm_compute; discriminate]].
  intros l Hl. change (p_L imbe_initial) with 39%Z in Hl. unfold imbe_initial, initial_parms. cbn [p_Ml].
  assert (E : cell zero (repeat (flit 1 1) 57) l = f_of_Z 1) by (unfold cell; apply (repeat_spec 57 (flit 1 1)); apply nth_In; rewrite repeat_length; lia).
  rewrite E. destruct (of_Z_R 1) as [O1 O2]; [lia|]. split; [exact O1|]. rewrite O2. lra.
Qed.
