(* Synthesis of a set whose energy overflows. *)
From Coq Require Import ZArith Reals Lra Lia List Bool.
From Verif Require Import Res F32 MParms MAdaptive MUnvoiced MSynth MImbe MAmbe SpecAdaptive SpecWola SpecState SpecMachine SpecAmp SpecSynth SpecEnh2 PBase PRun PArr PState PSpeech PMachine PEnh PEnh2 PSynth PFloat PReal PLoud3.
Import ListNotations.
Local Open Scope Z_scope.

Lemma replaced_cell : forall {A} (d : A) lo hi f old l, 0 <= l <= 56 -> cell d (replaced d lo hi f old) l = if (lo <=? l) && (l <=? hi) then f l else cell d old l.
Proof.
  intros A d lo hi f old l Hl. unfold replaced, cell. erewrite nth_indep; [erewrite (map_nth (fun i => _) _ 0%nat)|rewrite map_length, seq_length; lia].
  rewrite seq_nth by lia. cbv zeta. rewrite Nat.add_0_l, Z2Nat.id by lia. reflexivity.
Qed.
Lemma sum_nan : forall xs s, s = S754_nan \/ In S754_nan xs -> fold_left fadd xs s = S754_nan.
Proof.
  induction xs as [|x xs IH]; intros s H; cbn [fold_left]; [destruct H as [H|[]]; exact H|]. apply IH.
  destruct H as [->|[->|H]]; [left; reflexivity|left; apply add_nan_r|right; exact H].
Qed.
Lemma gt_nan : forall y, fgt S754_nan y = false.
Proof. intros [s|[|]| |[|] m e]; reflexivity. Qed.
(* smoothing keeps them *)
Definition ruined (m : parms) : Prop := length (p_Ml m) = 57%nat /\ length (p_Vl m) = 57%nat /\ 9 <= p_L m <= 56 /\ cell 0 (p_Vl m) 9 = 1 /\ forall l, 1 <= l <= p_L m -> cell zero (p_Ml m) l = S754_nan.
Lemma smoothed_ruined : forall o e cur prev, ruined cur -> ruined (smoothing_result o e cur prev).
Proof.
  intros o e cur prev (LM & LV & EL & V9 & N). unfold smoothing_result. cbv zeta.
  assert (S : float_sum (bands (p_Ml cur) (p_L cur)) = S754_nan).
  { apply sum_nan. right. apply nth_error_In with (n := Z.to_nat (1 - 1)). apply nth_bands; [lia|]. rewrite <- (N 1) by lia. apply cell_rd. lia. }
  rewrite S, !gt_nan. cbn [andb]. split; [exact LM|]. split; [apply replaced_length|]. split; [exact EL|]. split; [|exact N].
  change (cell 0 (replaced 0 1 (p_L cur) (fun l => if fgt (cell zero (p_Ml cur) l) (voicing_limit o (p_errorRate cur) (p_errorCountTotal cur) (p_errorCount4 cur) (running_energy (p_localEnergy prev) e)) then 1 else cell 0 (p_Vl cur) l) (p_Vl cur)) 9 = 1).
  rewrite replaced_cell by lia. destruct ((1 <=? 9) && (9 <=? p_L cur)); [|exact V9]. rewrite V9. destruct (fgt _ _); reflexivity.
Qed.
Lemma ruined_sample : forall o m prev t n, ruined m -> spoken_sample o m prev t n = S754_nan.
Proof.
  intros o m prev t n (LM & LV & EL & V9 & N). unfold spoken_sample. cbv zeta.
  assert (V : voiced_sample o (spoken_voice m prev t) (spoken_prev m prev) n = S754_nan).
  { unfold voiced_sample. apply sum_nan. right. apply in_flat_map. exists 9. split.
    - change (p_L (spoken_voice m prev t)) with (p_L m). unfold upto. apply in_map_iff. exists 9%nat. split; [reflexivity|]. apply in_seq. lia.
    - unfold harmonic_terms. cbv zeta. change (9 <? 8) with false. cbn [andb].
      assert (CV : cell 0 (p_Vl (spoken_voice m prev t)) 9 = 1).
      { change (p_Vl (spoken_voice m prev t)) with (replaced 0 (p_L m + 1) (p_L prev) (fun _ => 1) (p_Vl m)). rewrite replaced_cell by lia. destruct (_ && _); [reflexivity|exact V9]. }
      assert (CM : cell zero (p_Ml (spoken_voice m prev t)) 9 = S754_nan).
      { change (p_Ml (spoken_voice m prev t)) with (replaced zero (p_L m + 1) (p_L prev) (fun _ => zero) (p_Ml m)). rewrite replaced_cell by lia. destruct (Z.leb_spec (p_L m + 1) 9); [lia|]. cbn [andb]. apply N. lia. }
      rewrite CV, CM. change (1 =? 1) with true. cbv iota. apply in_or_app. right. left. unfold faded. destruct (lanes4 (o_simd o)); rewrite !mul_nan_r; reflexivity. }
  rewrite V. destruct (o_plan o); reflexivity.
Qed.
Lemma map_const : forall {A B} (f : A -> B) c l, (forall x, f x = c) -> map f l = repeat c (length l).
Proof. intros A B f c l H. induction l as [|x l IH]; cbn; [reflexivity|]. rewrite H, IH. reflexivity. Qed.
Lemma speak_nan : forall o a aout m enh uvq t b st t', overloud m -> sane m -> sane enh -> cell 0 (p_Vl m) 9 = 1 -> muted m = false -> p_amplitudeThreshold enh <= 2000000000 -> length aout = 160%nat ->
  ambe_speak o a aout m enh uvq t = Ok (b, st, t') -> b = repeat S754_nan 160.
Proof.
  intros o a aout m enh uvq t b st t' O SM SE V9 MU HT LA H. unfold ambe_speak in H. cbv zeta in H. pose proof O as (LM & EL & _).
  rewrite enhance_formula in H by (try exact LM; lia). cbn [bind] in H. set (m' := set_Ml (enhanced_amplitudes o m) m) in *.
  assert (W : wf_parms m) by apply SM. destruct SM as (_ & LM2 & PW & NS & TC & _). destruct SE as (WE & LE & _).
  assert (W' : wf_parms m'). { unfold m', wf_parms in *. fields. unfold enhanced_amplitudes. rewrite replaced_length. tauto. }
  rewrite speech_formula in H; [|exact W'|exact WE|exact LM2|exact LE|exact PW|exact NS|exact LA|change (p_errorCountTotal m') with (p_errorCountTotal m); lia|exact HT|exact MU].
  cbn [bind] in H. unfold spoken in H. set (s := smoothing_result _ _ _ _) in *. assert (E : b = map (spoken_sample o s enh (if pending (mbe_setPreEnhRm0 a (moment0 o m) t) a then clear_pending (mbe_setPreEnhRm0 a (moment0 o m) t) else mbe_setPreEnhRm0 a (moment0 o m) t)) (seq 0 160)) by (injection H as <- _ _; reflexivity).
  rewrite E. erewrite map_const; [reflexivity|]. intros n. apply ruined_sample. apply smoothed_ruined. split; [apply replaced_length|]. split; [apply W|]. split; [exact EL|]. split; [exact V9|].
  intros l Hl. apply enhanced_nan; assumption.
Qed.
