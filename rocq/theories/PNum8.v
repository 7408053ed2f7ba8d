(* Streams from initialisation, and a concrete frame. *)
From Coq Require Import ZArith Reals Lra Lia List Bool.
From Verif Require Import Res F32 TabImbe MParms MSynth MFft MImbe MAmbe SpecWola SpecEnh SpecGen SpecOut SpecEcc SpecFrame SpecImbe SpecAmp SpecState SpecMachine SpecBound SpecLoud SpecSynth SpecTrig SpecEnh2 SpecFftErr SpecNum
  PBase PFloat PReal PAmp PRun PSpeech PMachine PStream PResid PIdeal PIv PCos PLoud PLoud6 PNum PNum4 PNum5 PNum6 PNum7.
Import ListNotations.
Local Open Scope R_scope.

Lemma frame_length : forall o a cs st t r st' t', Forall call_ok cs -> sane_state st -> thread_ok t -> imbe_stream o a cs st t = Ok (r, st', t') -> length r = length cs /\ Forall (fun f => length (fst f) = 160%nat) r.
Proof.
  intros o a cs. induction cs as [|c cs IH]; intros st t r st' t' FC SS TH H; cbn [imbe_stream] in H.
  - injection H as <- _ _. auto.
  - apply bind_inv in H as ([[[b s] st1] t1] & HD & H). apply bind_inv in H as ([[r1 st2] t2] & HR & H).
    assert (Q : r = (b, s) :: r1) by (now inversion H). rewrite Q. clear H. apply Forall_cons_iff in FC as [C1 FC].
    destruct (imbe_step _ _ _ _ _ _ _ _ _ C1 SS TH HD) as (SS1 & TH1 & _ & _ & _ & _ & _ & _ & _ & _ & _ & _ & _ & _ & _ & _ & _ & _ & _ & LB).
    destruct (IH st1 t1 r1 st2 t2 FC SS1 TH1 HR) as [L1 L2]. split; [cbn [length]; congruence|]. constructor; assumption.
Qed.
Lemma tame_from_start : forall o lo hi a cs t, accurate_library o -> accurate_angles o -> bounded_transforms o -> tame lo hi -> thread_ok t ->
  Forall call_ok cs -> Forall few_harmonics cs -> Forall (fun c => ic_errors c <= 20)%Z cs -> Forall (fun c => residual_within o lo hi (ic_bits c)) cs -> (Z.of_nat (length cs) <= 333000)%Z ->
  exists r st' t', imbe_stream o a cs start t = Ok (r, st', t') /\ length r = length cs /\ Forall (fun f => length (fst f) = 160%nat /\ Forall number (fst f)) r.
Proof.
  intros o lo hi a cs t AL AA BT TM TH FC FH FE FR LN. destruct (imbe_start_total o a cs t FC FH TH ltac:(lia)) as (r & st' & t' & E). exists r, st', t'. split; [exact E|].
  destruct (frame_length _ _ _ _ _ _ _ _ FC sane_start TH E) as [L1 L2]. split; [exact L1|].
  assert (HT : (Z.max 20480 (p_amplitudeThreshold (enh_of start)) + 6000 * Z.of_nat (length cs) <= 2000000000)%Z) by (change (p_amplitudeThreshold (enh_of start)) with 20480%Z; lia).
  destruct (tame_stream lo hi TM o AL AA BT a cs start t r st' t' FC FE FR lively_start (snug_start lo hi TM) TH HT E) as [_ N]. clear -L2 N.
  induction r as [|x r IH]; [constructor|]. apply Forall_cons_iff in L2 as [A1 A2]. apply Forall_cons_iff in N as [B1 B2]. constructor; auto.
Qed.
Lemma moderate_from_start : forall o a cs t r st' t', accurate_angles o -> bounded_transforms o -> Forall call_ok cs -> Forall (fun c => ic_errors c <= 20)%Z cs -> thread_ok t -> (Z.of_nat (length cs) <= 333000)%Z ->
  (forall k r1 st1 t1, (1 <= k <= length cs)%nat -> imbe_stream o a (firstn k cs) start t = Ok (r1, st1, t1) -> moderate (prev_of st1)) ->
  imbe_stream o a cs start t = Ok (r, st', t') -> Forall (fun f => Forall number (fst f)) r.
Proof.
  intros o a cs t r st' t' AA BT FC FE TH LN HM H.
  assert (HT : (Z.max 20480 (p_amplitudeThreshold (enh_of start)) + 6000 * Z.of_nat (length cs) <= 2000000000)%Z) by (change (p_amplitudeThreshold (enh_of start)) with 20480%Z; lia).
  exact (proj2 (lively_stream o AA BT a cs start t r st' t' FC FE lively_start TH HT HM H)).
Qed.

(* the frame of tame_bits *)
Definition in_band (i : iv) : bool := match i with Some (a, b) => (-3 * 2 ^ 30 <=? a)%Z && (b <=? 6 * 2 ^ 30)%Z | None => false end.
Lemma band_all : forallb in_band (resid_iv 25 tame_bits) = true.
Proof. vm_compute. reflexivity. Qed.
Lemma tame_pitch : imbe_harmonics (pitch7200 tame_bits) = 25%Z. Proof. vm_compute. reflexivity. Qed.
Lemma tame_frame : forall o, accurate_library o -> residual_within o (-3) 6 tame_bits.
Proof.
  intros o A _. rewrite tame_pitch. intros l Hl. unfold imbe_residual. pose proof (resid_all o A 25 tame_bits size_ok) as F. pose proof band_all as C.
  set (xs := residuals _ _ _ _) in *. set (is := resid_iv 25 tame_bits) in *. assert (LI : length is = 25%nat) by (vm_compute; reflexivity).
  assert (K : (Z.to_nat (l - 1) < length is)%nat) by lia. revert K. generalize (Z.to_nat (l - 1)). clearbody xs is. clear LI Hl l.
  induction F as [|x i xs is X F IH]; intros n K; [cbn in K; lia|]. cbn [forallb] in C. apply andb_true_iff in C as [C1 C2].
  destruct n as [|n]; [|cbn [nth]; apply IH; [exact C2|cbn in K; lia]]. cbn [nth].
  unfold in_band in C1. destruct i as [[a b]|]; [|discriminate]. apply andb_true_iff in C1 as [U V]. apply Z.leb_le in U, V. cbn [inside] in X. destruct X as [_ X].
  apply IZR_le in U, V. rewrite !mult_IZR in U, V. change (IZR (2 ^ 30)) with 1073741824 in *. unfold unit30 in X. lra.
Qed.
Lemma tame_range : tame (-3) 6. Proof. unfold tame. lra. Qed.
Lemma pffft_library : forall cosd sind, accurate_library (with_pffft cosd sind ideal).
Proof.
  intros. assert (C : cosf (with_pffft cosd sind ideal) = cosf ideal) by reflexivity. assert (E : exp2f (with_pffft cosd sind ideal) = exp2f ideal) by reflexivity.
  unfold accurate_library, cosine_in_unit, exact_powers. rewrite C, E. exact ideal_accurate.
Qed.
Lemma enhance_moderate : forall o m a t, (forall x, ff x -> Rabs (R_of x) <= 1000000 -> trig_close o x) -> pitched m -> ff (p_w0 m) -> moderate m -> length (p_Ml m) = 57%nat ->
  exists m' t', mbe_spectralAmpEnhance o a m t = Ok (m', t') /\
  (forall l, (1 <= l <= p_L m)%Z -> ff (cell zero (p_Ml m') l) /\ 0 <= R_of (cell zero (p_Ml m') l) <= 3.2 * R_of (cell zero (p_Ml m) l) + 1e-30) /\
  Rabs (energy m' - energy m) <= energy m / 100000.
Proof.
  intros o m a t AA (PL & PW & PB) FW (AM & EM) LM. apply (enhance_numbers o m PL); try assumption. apply AA; [exact FW|]. rewrite Rabs_pos_eq; lra.
Qed.
Lemma tame_is_bits : is_bits 88 tame_bits.
Proof. split; [reflexivity|]. unfold tame_bits. repeat (constructor; [first [left; reflexivity|right; reflexivity]|]). constructor. Qed.
Lemma tame_call : call_ok (mkimbe_call tame_bits 0 0 true 3 (repeat zero 160)).
Proof. split; [|split; [cbn; lia|reflexivity]]. exact tame_is_bits. Qed.
Lemma initial_fine : moderate imbe_initial /\ pitched imbe_initial /\ numeric imbe_initial.
Proof.
  pose proof lively_start as (_ & N & _ & _ & _ & P & _). pose proof (snug_start (-3) 6 tame_range) as (_ & _ & M). auto.
Qed.
