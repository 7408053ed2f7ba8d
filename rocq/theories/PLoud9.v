(* Streams of the loud AMBE frame. *)
From Coq Require Import ZArith Reals Lra Lia List Bool.
From Verif Require Import Res F32 TabAmbe2450 TabAmbe2400 MFrame MParms MAdaptive MUnvoiced MSynth MImbe MAmbe SpecEcc SpecFrame SpecImbe SpecAmbe SpecAmp SpecState SpecAdaptive SpecGen SpecOut SpecWola SpecTone SpecMachine SpecAmbeMachine SpecBound SpecLoud SpecLoud2 SpecSynth SpecNum2
  PBase PFloat PFloat2 PDec PArr PRun PLoop PState PAdapt PGen POut PWola PSpeech PReal PImbe PExp2 PAmbeDec PAmbeDec2 PTone PSynth PAmp PAmp2 PPredict PConv PMachine PStream PAmbeMachine PAmbeStream PResid PResid2 PCos PBound PBound2 PLoud2 PLoud3 PLoud4 PLoud7 PNum11 PLoud8.
From Flocq Require Import Core.Core.
Import ListNotations.
Local Open Scope Z_scope.

Lemma loud2450_is_bits : is_bits 49 loud_bits2450.
Proof. split; [reflexivity|]. unfold loud_bits2450. repeat (constructor; [first [left; reflexivity|right; reflexivity]|]). constructor. Qed.
Lemma loud2450_ok : forall c, loud_call2450 c -> ambe_ok c.
Proof. intros c (B & E & _ & L). unfold ambe_ok. rewrite B, E. split; [exact loud2450_is_bits|]. split; [lia|exact L]. Qed.
Lemma loud2450_kind : forall c, loud_call2450 c -> kind_of c = Voice /\ needs_of c = false.
Proof. intros c (B & E & C & _). unfold kind_of, needs_of. rewrite B, E, C. split; [vm_compute; reflexivity|]. destruct (ac_known c); reflexivity. Qed.
Lemma loud2450_pitch : pitch2450 loud_bits2450 = 99. Proof. vm_compute. reflexivity. Qed.
Lemma loud2450_L : harmonics2450 99 = 42. Proof. vm_compute. reflexivity. Qed.
Lemma loud2450_w0 : ff (w0_2450 99) /\ (/ 1000 <= R_of (w0_2450 99))%R.
Proof.
  assert (F : ff (w0_2450 99)) by (split; vm_compute; reflexivity). split; [exact F|].
  assert (G : fle (S754_finite false 8388608 (-32)) (w0_2450 99) = true) by (vm_compute; reflexivity).
  apply fle_true in G; [|split; vm_compute; reflexivity|exact F]. apply Rle_trans with (2 := G).
  unfold R_of. cbn [Flocq.IEEE754.BinarySingleNaN.SF2R]. unfold Flocq.Core.Defs.F2R. cbn [Flocq.Core.Defs.Fnum Flocq.Core.Defs.Fexp Flocq.Core.Zaux.cond_Zopp].
  change (bpow radix2 (-32)) with (/ 4294967296)%R. lra.
Qed.
Lemma loud2450_voiced : forallb (fun l => voicing2450 loud_bits2450 l =? 1) (upto 42) = true.
Proof. vm_compute. reflexivity. Qed.
(* the lead of the first harmonic and the gain after n frames *)
Fixpoint grow2 (n : nat) : R := match n with O => 0%R | S n => (7.407 + 0.6499 * grow2 n)%R end.
Fixpoint gain2 (n : nat) : R := match n with O => 0%R | S n => (6.874 + 0.5 * gain2 n)%R end.
Lemma grow2_up : forall n, (0 <= grow2 n <= grow2 (S n))%R.
Proof. induction n as [|n IH]; [cbn [grow2]; lra|]. change (grow2 (S (S n))) with (7.407 + 0.6499 * grow2 (S n))%R. cbn [grow2] in *. lra. Qed.
Lemma gain2_up : forall n, (0 <= gain2 n <= gain2 (S n))%R.
Proof. induction n as [|n IH]; [cbn [gain2]; lra|]. change (gain2 (S (S n))) with (6.874 + 0.5 * gain2 (S n))%R. cbn [gain2] in *. lra. Qed.
Lemma loud_13 : forall n, (13 <= n)%nat -> (32.0715 <= grow2 n + gain2 n - 2.714)%R.
Proof.
  intros n H. induction H as [|n H IH]; [cbn [grow2 gain2]; lra|]. pose proof (grow2_up n). pose proof (gain2_up n). lra.
Qed.
Lemma loud_power2 : forall x, (32.0715 <= x)%R -> (4500000000 <= Rpower 2 x)%R.
Proof.
  intros x H. apply Rle_trans with (Rpower 2 (32 + / 14)).
  - rewrite Rpower_plus. replace 32%R with (INR 32) by (rewrite INR_IZR_INZ; reflexivity). rewrite Rpower_pow by lra. set (y := Rpower 2 (/ 14)). assert (Y : (0 < y)%R) by apply exp_pos.
    assert (E : (y ^ 14 = 2)%R). { rewrite <- Rpower_pow by exact Y. unfold y. rewrite Rpower_mult. replace (/ 14 * INR 14)%R with 1%R by (rewrite INR_IZR_INZ; cbn [Z.of_nat Pos.of_succ_nat Pos.succ]; lra). apply Rpower_1. lra. }
    assert (B : (1.0478 <= y)%R). { destruct (Rle_lt_dec 1.0478 y) as [K|K]; [exact K|exfalso]. assert (P := pow_incr y 1.0478 14 ltac:(lra)). rewrite E in P. cbn [pow] in P. lra. }
    replace (2 ^ 32)%R with 4294967296%R by (cbn [pow]; lra). lra.
  - apply Rle_Rpower; lra.
Qed.

Definition loud_state2 (x y : R) (st : dstate) : Prop :=
  sane_state st /\ calm_state R2450 st /\ foreign (prev_of st) = false /\ p_errorRate (prev_of st) = S754_zero false /\ p_L (prev_of st) <= 55 /\ p_amplitudeThreshold (enh_of st) = 20480 /\ led2 (prev_of st) x /\ (y <= R_of (p_gamma (prev_of st)))%R.
Lemma loud_start2 : loud_state2 0 0 start_ambe.
Proof.
  split; [apply sane_start_ambe|]. split; [apply start_calm|]. split; [apply foreign_exact, start_exact|]. split; [reflexivity|]. split; [vm_compute; discriminate|]. split; [reflexivity|]. split.
  - split; [lra|]. left. split; [|reflexivity]. intros k. unfold log_at. change (p_log2Ml (prev_of start_ambe)) with (repeat (S754_zero false) 57). rewrite nth_repeat. apply R_zero.
  - change (p_gamma (prev_of start_ambe)) with (S754_zero false). rewrite R_zero. lra.
Qed.
Section Accurate.
Variable o : oracle.
Hypothesis A : accurate_library2 o.
Lemma loud_step2 : forall a c st t x y, loud_call2450 c -> thread_ok t -> loud_state2 x y st ->
  exists b st' t', do2450 o a c st t = Ok (b, [0], st', t') /\ thread_ok t' /\ loud_state2 (7.407 + 0.6499 * x) (6.874 + 0.5 * y) st' /\ ((32.0715 <= (7.407 + 0.6499 * x) + (6.874 + 0.5 * y) - 2.714)%R -> b = repeat S754_nan 160).
Proof.
  intros a c st t x y LC TH (SS & CS & FO & R0 & PL & AT & LD & GY). pose proof (loud2450_ok c LC) as Hc. destruct (loud2450_kind c LC) as [KV NE0]. destruct LC as (EB & EE & EC0 & LB).
  pose proof (begin_own st FO) as BG.
  destruct (ambe_defined R2450 o a c st t I Hc SS TH) as (b & s & st' & t' & D & S1 & T1 & L1).
  { rewrite BG. unfold threshold_room. rewrite AT. lia. }
  { intros _. rewrite BG. apply usable_55; [destruct st as [[cur prev] enh]; apply SS|exact PL]. }
  cbn [do_ambe] in D. destruct st as [[cur prev] enh]. cbn [prev_of cur_of enh_of] in *.
  destruct (step2450_ok _ _ _ _ _ _ _ _ _ _ _ _ Hc SS TH D BG) as (_ & _ & _ & _ & _ & VS). unfold step2450 in VS. cbv zeta in VS. rewrite KV, NE0, EB, EE in VS. unfold voice_step in VS. rewrite loud2450_pitch, loud2450_L in VS.
  destruct VS as (-> & FM & SPK). unfold status in D. change (repeat 61 (Z.to_nat 0) ++ [] ++ [0]) with [0] in *.
  exists b, st', t'. split; [exact D|]. split; [exact T1|].
  destruct FM as (FL & FW & FG & _ & FR & FT & _ & FER & FTH & _). destruct SPK as (_ & EN & _).
  (* the decoded set *)
  destruct SS as (SC & SP & SE). destruct CS as [CC CP]. cbn [cur_of prev_of] in CC, CP. unfold do2450 in D. rewrite EB, EE in D.
  assert (SW : sane (with_errors 0 (ambe_rate (p_errorRate prev) 0) cur)) by (apply sane_with_errors; [lia|exact SC]).
  pose proof loud2450_is_bits as Hd. assert (NT : ~ (tone2450 loud_bits2450 /\ 0 < 6)) by (intros [[Q _] _]; vm_compute in Q; discriminate). assert (NE : ~ erasure2450 (pitch2450 loud_bits2450)) by (rewrite loud2450_pitch; unfold erasure2450; lia).
  destruct (mbe_decodeAmbe2450ParmsInternal o loud_bits2450 (with_errors 0 (ambe_rate (p_errorRate prev) 0) cur) prev 0) as [[[bad c1] p1]|w] eqn:HD; [|exfalso; unfold mbe_processAmbe2450Dataf_internal in D; rewrite ensure_ok in D by apply SP; cbn [bind] in D; rewrite BG in D; cbn [bind] in D; rewrite entry_eq, HD in D; discriminate D].
  destruct (ambe2450_accepted _ _ _ _ _ _ _ _ Hd (proj1 (proj1 SW)) NT NE HD) as [-> AC].
  assert (HU : usable_history (harmonics2450 (pitch2450 loud_bits2450)) prev) by (apply usable_55; assumption).
  pose proof (amplitudes2450 o loud_bits2450 _ prev 0 0 c1 p1 Hd (proj1 SW) NT NE HU HD) as AM. cbv zeta in AM. unfold log_amplitude2450 in AM. rewrite loud2450_pitch, loud2450_L in *.
  assert (HW : pitch_in_range (w0_2450 99)) by (apply w0_range; lia).
  destruct (accepted_sane _ _ _ _ _ _ _ _ AC SW SP ltac:(lia) HW) as [SA SB].
  assert (RR : (p_repeat p1 = p_repeatCount p1 /\ 0 <= p_repeatCount p1 <= 4)%Z) by (split; apply SB).
  rewrite (voice2450 _ _ _ _ _ _ _ _ _ _ _ _ _ _ _ (proj1 SP : wf_parms (prev_of (cur, prev, enh))) BG HD (proj1 SB)) in D by lia.
  assert (ND : needs2450 0 (context (ac_c0 c) (ac_known c)) = false) by (unfold needs_of in NE0; rewrite EE in NE0; exact NE0). rewrite ND in D.
  pose proof A as ((CO & _ & _ & PW) & _).
  pose proof (decoded_calm R2450 o 42 (w0_2450 99) (voicing2450 loud_bits2450) loud_bits2450 (with_errors 0 (ambe_rate (p_errorRate prev) 0) cur) prev c1 p1 CO (six_of o (log2_of o A)) Hd ltac:(lia) CC CP) as DC.
  rewrite vector_2450, higher_2450, block_2450, gstep_2450 in DC. destruct (DC AC (fun l Hl => proj1 (AM l Hl))) as [C1 C2]. clear DC.
  assert (GP : gain_within (gain_range R2450) prev) by apply CP. destruct GP as [GF GB]. pose proof (gain_next R2450 loud_bits2450 _ Hd GF GB) as NG. cbv zeta in NG. rewrite gstep_2450 in NG. destruct NG as [NF NB]. destruct (sizes_ok R2450) as (_ & _ & _ & _ & LS & _ & S7 & _).
  set (g := fadd (gain2450 loud_bits2450) (fmul (flit 1 2) (p_gamma prev))) in *.
  assert (GN : (6.874 + 0.5 * y <= R_of g)%R) by (apply gain_step2; [exact GF|lra|exact GY]).
  destruct (lead_step2 o A prev x g CP LD NF ltac:(lra)) as [MN LN]. cbv zeta in MN, LN.
  set (m := no_repeats c1). assert (LOG : forall l, 1 <= l <= 42 -> log_at m l = ambe_log_amplitude o 42 (block2450 42) (gain_vector2450 loud_bits2450) (higher2450 loud_bits2450) g prev l) by (intros l Hl; apply log_rd, AM, Hl).
  assert (VO : forall l, 1 <= l <= 42 -> voicing2450 loud_bits2450 l = 1). { intros l Hl. pose proof loud2450_voiced as V. rewrite forallb_forall in V. apply Z.eqb_eq, V, upto_in, Hl. }
  assert (AMP : forall l, 1 <= l <= 42 -> cell zero (p_Ml m) l = exp2f o (log_at m l)).
  { intros l Hl. rewrite LOG by exact Hl. apply rd_cell. change (p_Ml m) with (p_Ml c1). destruct (AM l Hl) as [_ Q]. rewrite (VO l Hl) in Q. exact Q. }
  assert (MEAN : mean2 m = (rsum 42 (fun l => R_of (ambe_log_amplitude o 42 (block2450 42) (gain_vector2450 loud_bits2450) (higher2450 loud_bits2450) g prev l)) / 42)%R).
  { unfold mean2. f_equal. apply rsum_ext. intros k Hk. rewrite LOG by lia. reflexivity. }
  assert (LEAD : (7.407 + 0.6499 * x <= lead2 m)%R) by (unfold lead2; rewrite MEAN, LOG by lia; exact LN).
  unfold voice_rest in D. cbn [andb] in D. fold m in D. apply bind_inv in D as ([[b0 s0] t0] & HS & D). apply Ok4 in D as (-> & _ & -> & ->).
  assert (SM : sane m) by exact SA.
  destruct (speak_inv _ _ _ _ _ _ _ _ _ _ (proj1 SM) (proj1 SE) (proj1 (proj2 SM)) LB HS) as (k & EK & BS & _ & _ & _ & TM & _). subst st'. cbn [cur_of prev_of enh_of] in *.
  assert (ER1 : p_errorRate m = S754_zero false) by (rewrite FER, R0; vm_compute; reflexivity).
  assert (LDX : (0 <= x)%R) by apply LD.
  split.
  - unfold loud_state2. cbn [cur_of prev_of enh_of]. split; [exact S1|]. split; [exact (rest_calm R2450 o a (ac_buf c) false 0 c1 p1 enh (ac_uv c) t b [0] (k, m, k) t' C1 C2 (proj1 SA) (proj1 SB) (proj1 SE) ltac:(change (p_L c1) with (p_L m); lia) (proj1 (proj2 SB)) LB ltac:(unfold voice_rest; cbn [andb]; fold m; rewrite HS; reflexivity))|].
    split; [apply foreign_exact, FTH|]. split; [exact ER1|]. split; [lia|]. split; [|split; [|]].
    + rewrite ER1, FT in TM. unfold smoothing_Tm in TM. change (fle (S754_zero false) LOW && (0 <=? 6)) with true in TM. cbv iota in TM. injection TM as <-. reflexivity.
    + split; [lra|]. right. split; [exact FL|exact LEAD].
    + rewrite FG. exact GN.
  - intros HX. assert (SMALL : forall l, 1 <= l <= 42 -> ff (log_at m l) /\ (Rabs (R_of (log_at m l)) <= 108)%R).
    { intros l Hl. destruct C1 as ((_ & Q) & _). destruct (Q l ltac:(lia)) as [F B]. split; [exact F|]. change (log_at m l) with (log_at c1 l). lra. }
    assert (POS : forall l, 1 <= l <= 42 -> ff (cell zero (p_Ml m) l) /\ (0.99 * Rpower 2 (R_of (log_at m l)) <= R_of (cell zero (p_Ml m) l))%R).
    { intros l Hl. rewrite AMP by exact Hl. destruct (SMALL l Hl) as [F B]. destruct (PW _ F B) as [P1 P2]. split; [exact P1|]. apply Rabs_le_inv in P2. lra. }
    assert (OV : overloud m).
    { split; [apply SM|]. split; [lia|]. rewrite FW. split; [apply loud2450_w0|]. split; [apply loud2450_w0|]. split.
      - intros q Hq. rewrite FL in Hq. apply POS, Hq.
      - split.
        + exists 1. split; [lia|]. destruct (POS 1 ltac:(lia)) as [_ P]. assert (Q : (32.0715 <= R_of (log_at m 1))%R) by (unfold lead2 in LEAD; rewrite MEAN in LEAD; lra). pose proof (loud_power2 _ Q). lra.
        + exists 42. split; [lia|]. split; [lia|]. destruct (POS 42 ltac:(lia)) as [_ P]. assert (0 < Rpower 2 (R_of (log_at m 42)))%R by apply exp_pos. lra. }
    apply (speak_nan o a (ac_buf c) m enh (ac_uv c) t b (k, m, k) t' OV SM SE).
    + apply rd_cell. change (p_Vl m) with (p_Vl c1). destruct AC as (_ & _ & _ & _ & AV & _). rewrite AV by lia. rewrite VO by lia. reflexivity.
    + unfold muted. rewrite FR, FTH. vm_compute. reflexivity.
    + rewrite AT. lia.
    + exact LB.
    + exact HS.
Qed.
End Accurate.
