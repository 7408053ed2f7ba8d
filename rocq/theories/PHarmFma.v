(* Proofs about voiced synthesis whose products may be fused. *)
From Coq Require Import ZArith List Bool Lia Reals Lra.
From Verif Require Import Res F32 Build MParms MUnvoiced MSynth MFma MOscFma MGlideFma MHarmFma SpecState SpecAmp SpecSynth SpecTrig SpecNum SpecOscFma SpecGlideFma SpecHarmFma
  PBase PRun PArr PFloat PFloat2 PReal PEnh3 PNyq PFftErr PSynth PNum PSpeech PFma PRate POscFma PGlideFma.
From Flocq Require Import Core.Core IEEE754.BinarySingleNaN.
Import ListNotations.
Local Open Scope R_scope.

Lemma in_range : forall b xs i, Forall (range b) xs -> (0 <= i < Z.of_nat (length xs))%Z -> range b (cell zero xs i).
Proof. intros b xs i H Hi. pose proof (cell_rd zero xs i Hi) as E. apply rd_inv in E as [_ E]. apply nth_error_In in E. rewrite Forall_forall in H. now apply H. Qed.
(* an oscillator whose phase is within eps of A n *)
Lemma osc_phase : forall k simd o start step amp aout off M eps (A : Z -> R), length aout = 160%nat -> off = 0%Z \/ off = 160%Z -> trig_close o start -> trig_close o step ->
  range M amp -> M <= 1e30 -> Forall (range 1e30) aout -> (forall n, (0 <= n < 160)%Z -> Rabs (R_of start + IZR n * R_of step - A n) <= eps) ->
  exists r, add_oscillator_c k simd aout off amp (cosf o start) (sinf o start) (sinf o step) (cosf o step) = Ok r /\ length r = 160%nat /\
  forall n x, (0 <= n < 160)%Z -> rd aout n = Ok x -> exists y, rd r n = Ok y /\ ff y /\
    Rabs (R_of y - (R_of x + 2 * R_of (fade (n + off)) * R_of amp * cos (A n))) <= Rabs (R_of x) * 1e-7 + M * (2.6e-4 + 2 * eps) + 1e-36.
Proof.
  intros k simd o start step amp aout off M eps A L Ho T1 T2 [FA BA] HM HX HA.
  destruct (oscillator_c_adds k simd o start step amp aout off L Ho T1 T2 FA ltac:(lra) HX) as (r & E & Lr & V). exists r. split; [exact E|]. split; [exact Lr|].
  intros n x Hn Hx. destruct (V n x Hn Hx) as (y & Y & F & D). exists y. split; [exact Y|]. split; [exact F|]. set (g := R_of start + IZR n * R_of step) in *.
  destruct (fade_sized (n + off)) as [_ BW]; [lia|]. set (w := R_of (fade (n + off))) in *. specialize (HA n Hn). pose proof (cos_lip g (A n)) as C. pose proof (Rabs_pos (g - A n)) as P0.
  assert (W : Rabs (2 * w * R_of amp * (cos g - cos (A n))) <= 2 * 1 * M * eps). { apply prod2; [|fold g in HA; lra]. apply prod2; [|lra]. apply prod2; [rewrite Rabs_pos_eq; lra|exact BW]. }
  replace (R_of y - (R_of x + 2 * w * R_of amp * cos (A n))) with ((R_of y - (R_of x + 2 * w * R_of amp * cos g)) + 2 * w * R_of amp * (cos g - cos (A n))) by ring.
  eapply Rle_trans; [apply Rabs_triang|]. assert (Rabs (R_of amp) * 2.6e-4 <= M * 2.6e-4) by (apply Rmult_le_compat_r; lra). lra.
Qed.
Lemma step_val : forall w l, pitch_range w -> (1 <= l <= 56)%Z -> ap (fmul w (f_of_Z l)) (R_of w * IZR l) 1.35e-6 22.4.
Proof.
  intros w l [F B] Hl. assert (L : ap (f_of_Z l) (IZR l) 0 56) by (apply ap_int; [lia|apply IZR_le; lia]). assert (W : ap w (R_of w) 0 0.4) by (apply ap_x; [exact F|apply Rabs_le; lra]).
  apply (ap_mul _ _ _ _ _ _ _ _ _ _ W L); lra.
Qed.
Lemma start_val : forall k phi wl r, range 16 phi -> ap wl r 1.35e-6 22.4 -> ap (start_c k phi wl) (R_of phi - r * 160) 6.9e-4 3600.
Proof.
  intros k phi wl r [F B] W. assert (N : ap (f_of_Z 160) 160 0 160) by (apply (ap_int 160); [lia|lra]). unfold start_c. destruct (k 45%Z 0%Z).
  - apply (ap_eq _ (R_of phi + - r * 160)); [|ring]. change (ffma (fopp wl) (f_of_Z 160) phi) with (macc true phi (fopp wl) (f_of_Z 160)).
    apply (ap_macc _ _ _ _ _ _ _ _ _ _ _ _ _ _ _ (ap_x _ _ F B) (ap_opp _ _ _ _ W) N); lra.
  - assert (M : ap (fmul wl (f_of_Z 160)) (r * 160) 4.4e-4 3584) by (apply (ap_mul _ _ _ _ _ _ _ _ _ _ W N); lra). apply (ap_sub _ _ _ _ _ _ _ _ _ _ (ap_x _ _ F B) M); lra.
Qed.
(* the turns of harmonic l *)
Definition glide_turns (cur prev : parms) (l : Z) : Z := Zfloor (R_of (turns l (p_w0 cur) (p_w0 prev) (cell zero (p_PHIl cur) l) (cell zero (p_PHIl prev) l))).
Lemma glide_turns_val : forall M cur prev l, voiced_ranges M cur -> voiced_ranges M prev -> (1 <= l <= 7)%Z ->
  let pc := cell zero (p_PHIl cur) l in let pp := cell zero (p_PHIl prev) l in let j := glide_turns cur prev l in
  ap (turns l (p_w0 cur) (p_w0 prev) pc pp) (IZR j) 0 79 /\ Rabs (excess l j (R_of (p_w0 cur)) (R_of (p_w0 prev)) (R_of pc) (R_of pp)) <= 3.142.
Proof.
  intros M cur prev l ((C1 & C2 & C3 & C4 & C5 & _) & WC & PC & _) ((P1 & P2 & P3 & P4 & P5 & _) & WP & PP & _) Hl. cbv zeta. unfold glide_turns.
  destruct (turns_val l (p_w0 cur) (p_w0 prev) (cell zero (p_PHIl cur) l) (cell zero (p_PHIl prev) l)) as (j & J & B); auto; [apply in_range; [assumption|lia]|apply in_range; [assumption|lia]|].
  assert (E : R_of (turns l (p_w0 cur) (p_w0 prev) (cell zero (p_PHIl cur) l) (cell zero (p_PHIl prev) l)) = IZR j) by (destruct J as (_ & E & _); apply Rabs_le_inv in E; lra).
  rewrite E, Zfloor_IZR. auto.
Qed.
Lemma harmonic_small : forall M j cur prev l n, voiced_ranges M cur -> voiced_ranges M prev -> M <= 1e30 -> (1 <= l <= 56)%Z -> (0 <= n < 160)%Z -> Rabs (real_harmonic j cur prev l n) <= 4 * M.
Proof.
  intros M j cur prev l n ((C1 & C2 & C3 & C4 & C5 & _) & WC & PC & MC) ((P1 & P2 & P3 & P4 & P5 & _) & WP & PP & MP) HM Hl Hn. unfold real_harmonic. cbv zeta.
  pose proof (in_range M (p_Ml cur) l MC ltac:(lia)) as RC. pose proof (in_range M (p_Ml prev) l MP ltac:(lia)) as RP. assert (M0 : 0 <= M) by (destruct RC as [_ Q]; pose proof (Rabs_pos (R_of (cell zero (p_Ml cur) l))); lra).
  assert (CB : forall t, Rabs (cos t) <= 1) by (intro t; apply Rabs_le, COS_bound). assert (T2 : Rabs 2 <= 2) by (rewrite Rabs_pos_eq; lra).
  assert (O : forall i a t, (0 <= i < 320)%Z -> range M a -> Rabs (2 * R_of (fade i) * R_of a * cos t) <= 2 * 1 * M * 1).
  { intros i a t Hi [_ A]. apply prod2; [|apply CB]. apply prod2; [|exact A]. apply prod2; [exact T2|]. apply (fade_sized i Hi). }
  destruct (_ && _ && _ && _).
  - destruct (amp_val (fun _ _ => true) _ _ M n RC RP HM Hn) as (_ & _ & A). assert (Q : forall t, Rabs (2 * glide_amp (R_of (cell zero (p_Ml cur) l)) (R_of (cell zero (p_Ml prev) l)) (IZR n) * cos t) <= 2 * M * 1) by (intro t; apply prod2; [apply prod2; auto|apply CB]).
    eapply Rle_trans; [apply Q|lra].
  - eapply Rle_trans; [apply Rabs_triang|]. match goal with |- Rabs ?a + Rabs ?b <= _ => assert (A : Rabs a <= 2 * M); [|assert (B : Rabs b <= 2 * M); [|lra]] end.
    + destruct (cell 0 (p_Vl prev) l =? 1)%Z; [eapply Rle_trans; [apply O; [lia|exact RP]|lra]|rewrite Rabs_R0; lra].
    + destruct (cell 0 (p_Vl cur) l =? 1)%Z; [eapply Rle_trans; [apply O; [lia|exact RC]|lra]|rewrite Rabs_R0; lra].
Qed.
Lemma harmonic_near : forall k o M cur prev l aout, accurate_angles o -> voiced_ranges M cur -> voiced_ranges M prev -> M <= 1e26 -> (1 <= l <= 56)%Z -> length aout = 160%nat -> Forall (range 1e29) aout ->
  exists r, add_harmonic_c k o (p_w0 cur) (p_w0 prev) cur prev l aout = Ok r /\ length r = 160%nat /\
  forall n x, (0 <= n < 160)%Z -> rd aout n = Ok x -> exists y, rd r n = Ok y /\ ff y /\
    Rabs (R_of y - (R_of x + real_harmonic (glide_turns cur prev l) cur prev l n)) <= Rabs (R_of x) * 2.1e-7 + M * 3e-3 + 3e-36.
Proof.
  intros k o M cur prev l aout A RC RP HM Hl La HX. pose proof RC as RC0. pose proof RP as RP0. destruct RC as ((C1 & C2 & C3 & C4 & C5 & _) & WC & PC & MC). destruct RP as ((P1 & P2 & P3 & P4 & P5 & _) & WP & PP & MP).
  unfold add_harmonic_c, real_harmonic. cbv zeta.
  rewrite (cell_rd 0%Z (p_Vl cur) l), (cell_rd 0%Z (p_Vl prev) l), (cell_rd zero (p_PHIl cur) l), (cell_rd zero (p_PHIl prev) l), (cell_rd zero (p_Ml cur) l), (cell_rd zero (p_Ml prev) l) by lia. cbn [bind].
  pose proof (in_range _ _ l MC ltac:(lia)) as IMC. pose proof (in_range _ _ l MP ltac:(lia)) as IMP. pose proof (in_range _ _ l PC ltac:(lia)) as IPC. pose proof (in_range _ _ l PP ltac:(lia)) as IPP.
  assert (TU : (1 <= l <= 7)%Z -> let pc := cell zero (p_PHIl cur) l in let pp := cell zero (p_PHIl prev) l in let j := glide_turns cur prev l in
    ap (turns l (p_w0 cur) (p_w0 prev) pc pp) (IZR j) 0 79 /\ Rabs (excess l j (R_of (p_w0 cur)) (R_of (p_w0 prev)) (R_of pc) (R_of pp)) <= 3.142) by (intro H7; now apply (glide_turns_val M)).
  cbv zeta in TU. set (j := glide_turns cur prev l) in *. clearbody j.
  set (vc := (cell 0 (p_Vl cur) l =? 1)%Z). set (vp := (cell 0 (p_Vl prev) l =? 1)%Z). change (flt (fabs (fsub (p_w0 cur) (p_w0 prev))) (fmul f_0p1 (p_w0 cur))) with (steady (p_w0 cur) (p_w0 prev)).
  set (pc := cell zero (p_PHIl cur) l) in *. set (pp := cell zero (p_PHIl prev) l) in *. set (mc := cell zero (p_Ml cur) l) in *. set (mp := cell zero (p_Ml prev) l) in *.
  assert (M0 : 0 <= M) by (destruct IMC as [_ Q]; pose proof (Rabs_pos (R_of mc)); lra).
  assert (HX30 : Forall (range 1e30) aout) by (eapply Forall_impl; [|exact HX]; intros x [F B]; split; [exact F|lra]).
  assert (AX : forall x, In x aout -> range 1e29 x) by now apply Forall_forall.
  assert (RI : forall n x, rd aout n = Ok x -> range 1e29 x) by (intros n x Hx; apply rd_inv in Hx as [_ Hx]; apply nth_error_In in Hx; auto).
  destruct (vc || vp) eqn:V.
  2:{ apply orb_false_iff in V as [-> ->]. rewrite !andb_false_r. cbn [andb]. exists aout. split; [reflexivity|]. split; [exact La|]. intros n x Hn Hx. exists x. split; [exact Hx|]. split; [apply (RI n x Hx)|].
    replace (R_of x - (R_of x + (0 + 0))) with 0 by ring. rewrite Rabs_R0. pose proof (Rabs_pos (R_of x)). lra. }
  destruct ((l <? 8)%Z && vc && vp && steady (p_w0 cur) (p_w0 prev)) eqn:G.
  - assert (H7 : (1 <= l <= 7)%Z) by (repeat (apply andb_prop in G as [G _]); apply Z.ltb_lt in G; lia). destruct (TU H7) as [J B].
    destruct (glide_c_with o l (p_w0 cur) (p_w0 prev) pc pp mc mp M j H7 A WC WP IPC IPP IMC IMP ltac:(lra) J B k aout La HX30) as (r & E & Lr & Vr).
    exists r. split; [exact E|]. split; [exact Lr|]. intros n x Hn Hx. destruct (Vr n x Hn Hx) as (y & Y & F & D). exists y. split; [exact Y|]. split; [exact F|]. pose proof (Rabs_pos (R_of x)). lra.
  - pose proof (step_val _ l WC Hl) as SC. pose proof (step_val _ l WP Hl) as SP. set (wc := fmul (p_w0 cur) (f_of_Z l)) in *. set (wp := fmul (p_w0 prev) (f_of_Z l)) in *.
    pose proof (start_val k pc wc _ IPC SC) as ST. set (ph := start_c k pc wc) in *.
    assert (TC : forall x r e B, ap x r e B -> B + e <= 1000000 -> trig_close o x) by (intros x r e B Q H; apply A; [apply Q|pose proof (ap_sz _ _ _ _ Q); lra]).
    assert (TPP : trig_close o pp) by (destruct IPP as [F B]; apply A; [exact F|lra]).
    assert (NR : forall n, (0 <= n < 160)%Z -> 0 <= IZR n <= 159) by (intros n Hn; split; apply IZR_le; lia).
    assert (K : exists b, (if vp then add_oscillator_c k (o_simd o) aout 160 mp (cosf o pp) (sinf o pp) (sinf o wp) (cosf o wp) else Ok aout) = Ok b /\ length b = 160%nat /\
      forall n x, (0 <= n < 160)%Z -> rd aout n = Ok x -> exists y, rd b n = Ok y /\ ff y /\
        Rabs (R_of y - (R_of x + (if vp then 2 * R_of (fade (n + 160)) * R_of mp * cos (R_of pp + IZR n * (R_of (p_w0 prev) * IZR l)) else 0))) <= Rabs (R_of x) * 1e-7 + M * 7e-4 + 1e-36).
    { destruct vp.
      2:{ exists aout. split; [reflexivity|]. split; [exact La|]. intros n x Hn Hx. exists x. split; [exact Hx|]. split; [apply (RI n x Hx)|]. rewrite Rplus_0_r, Rminus_diag_eq, Rabs_R0 by reflexivity. pose proof (Rabs_pos (R_of x)). lra. }
      destruct (osc_phase k (o_simd o) o pp wp mp aout 160 M 2.2e-4 (fun n => R_of pp + IZR n * (R_of (p_w0 prev) * IZR l)) La (or_intror eq_refl) TPP (TC _ _ _ _ SP ltac:(lra)) IMP ltac:(lra) HX30) as (b & E & Lb & Vb).
      - intros n Hn. specialize (NR n Hn). destruct SP as (_ & ES & _). replace (R_of pp + IZR n * R_of wp - (R_of pp + IZR n * (R_of (p_w0 prev) * IZR l))) with (IZR n * (R_of wp - R_of (p_w0 prev) * IZR l)) by ring.
        eapply Rle_trans; [apply (prod2 _ _ 159 1.35e-6); [rewrite Rabs_pos_eq; lra|exact ES]|lra].
      - exists b. split; [exact E|]. split; [exact Lb|]. intros n x Hn Hx. destruct (Vb n x Hn Hx) as (y & Y & F & D). exists y. split; [exact Y|]. split; [exact F|]. pose proof (Rabs_pos (R_of x)). lra. }
    destruct K as (b & E & Lb & Vb). rewrite E. cbn [bind].
    assert (SB : forall n x y, (0 <= n < 160)%Z -> rd aout n = Ok x -> Rabs (R_of y - (R_of x + (if vp then 2 * R_of (fade (n + 160)) * R_of mp * cos (R_of pp + IZR n * (R_of (p_w0 prev) * IZR l)) else 0))) <= Rabs (R_of x) * 1e-7 + M * 7e-4 + 1e-36 ->
      Rabs (R_of y) <= 1.001 * Rabs (R_of x) + 2.1 * M + 1e-35).
    { intros n x y Hn Hx D. set (t := if vp then _ else 0) in *. assert (TB : Rabs t <= 2 * 1 * M * 1).
      { unfold t. destruct vp; [|rewrite Rabs_R0; lra]. apply prod2; [|apply Rabs_le, COS_bound]. apply prod2; [|apply IMP]. apply prod2; [rewrite Rabs_pos_eq; lra|]. apply fade_sized. lia. }
      replace (R_of y) with ((R_of y - (R_of x + t)) + (R_of x + t)) by ring. eapply Rle_trans; [apply Rabs_triang|]. pose proof (Rabs_triang (R_of x) t). pose proof (Rabs_pos (R_of x)). lra. }
    destruct vc.
    2:{ exists b. split; [reflexivity|]. split; [exact Lb|]. intros n x Hn Hx. destruct (Vb n x Hn Hx) as (y & Y & F & D). exists y. split; [exact Y|]. split; [exact F|]. rewrite Rplus_0_r. pose proof (Rabs_pos (R_of x)). lra. }
    assert (HB : Forall (range 1e30) b).
    { apply Forall_forall. intros y Hy. apply (In_nth_error) in Hy as [i Hi]. assert (Li : (i < 160)%nat) by (rewrite <- Lb; apply nth_error_Some; congruence).
      destruct (rd_ok aout (Z.of_nat i)) as [x Hx]; [lia|]. destruct (Vb (Z.of_nat i) x ltac:(lia) Hx) as (y' & Y & F & D). pose proof (SB (Z.of_nat i) x y' ltac:(lia) Hx D) as Q.
      apply rd_inv in Y as [_ Y]. rewrite Nat2Z.id in Y. assert (y' = y) by congruence. subst y'. split; [exact F|]. destruct (RI _ _ Hx) as [_ BX]. lra. }
    destruct (osc_phase (fun s => k (s + 100)%Z) (o_simd o) o ph wc mc b 0 M 9.1e-4 (fun n => R_of pc + (IZR n - 160) * (R_of (p_w0 cur) * IZR l)) Lb (or_introl eq_refl) (TC _ _ _ _ ST ltac:(lra)) (TC _ _ _ _ SC ltac:(lra)) IMC ltac:(lra) HB) as (d & E' & Ld & Vd).
    + intros n Hn. specialize (NR n Hn). destruct SC as (_ & ES & _). destruct ST as (_ & EP & _).
      replace (R_of ph + IZR n * R_of wc - (R_of pc + (IZR n - 160) * (R_of (p_w0 cur) * IZR l))) with ((R_of ph - (R_of pc - R_of (p_w0 cur) * IZR l * 160)) + IZR n * (R_of wc - R_of (p_w0 cur) * IZR l)) by ring.
      eapply Rle_trans; [apply Rabs_triang|]. assert (Rabs (IZR n * (R_of wc - R_of (p_w0 cur) * IZR l)) <= 159 * 1.35e-6) by (apply prod2; [rewrite Rabs_pos_eq; lra|exact ES]). lra.
    + exists d. split; [exact E'|]. split; [exact Ld|]. intros n x Hn Hx. destruct (Vb n x Hn Hx) as (y & Y & F & D). destruct (Vd n y Hn Y) as (z & Z & F' & D'). exists z. split; [exact Z|]. split; [exact F'|].
      pose proof (SB n x y Hn Hx D) as Q. rewrite Z.add_0_r in D'. set (t := if vp then _ else 0) in *. set (u := 2 * R_of (fade n) * R_of mc * cos _) in *.
      replace (R_of z - (R_of x + (t + u))) with ((R_of z - (R_of y + u)) + (R_of y - (R_of x + t))) by ring. eapply Rle_trans; [apply Rabs_triang|]. pose proof (Rabs_pos (R_of x)). lra.
Qed.
Lemma voiced_small : forall M j cur prev m n, voiced_ranges M cur -> voiced_ranges M prev -> M <= 1e30 -> (m <= 56)%nat -> (0 <= n < 160)%Z -> Rabs (real_voiced j cur prev m n) <= INR m * (4 * M).
Proof.
  intros M j cur prev m n RC RP HM Hm Hn. induction m as [|m IH]; [cbn; rewrite Rabs_R0; lra|]. cbn [real_voiced]. rewrite S_INR. specialize (IH ltac:(lia)).
  pose proof (harmonic_small M (j (Z.of_nat (S m))) cur prev (Z.of_nat (S m)) n RC RP HM ltac:(lia) Hn). eapply Rle_trans; [apply Rabs_triang|]. lra.
Qed.
Lemma voiced_near : forall k o M cur prev maxl, accurate_angles o -> voiced_ranges M cur -> voiced_ranges M prev -> M <= 1e26 -> (0 <= maxl <= 56)%Z ->
  exists r, voiced_c k o (p_w0 cur) (p_w0 prev) cur prev maxl (repeat zero 160) = Ok r /\ length r = 160%nat /\
  forall n, (0 <= n < 160)%Z -> exists y, rd r n = Ok y /\ ff y /\
    Rabs (R_of y - real_voiced (glide_turns cur prev) cur prev (Z.to_nat maxl) n) <= IZR maxl * (3.1e-3 * M + 1e-35).
Proof.
  intros k o M cur prev maxl A RC RP HM Hm. unfold voiced_c.
  assert (M0 : 0 <= M). { destruct RC as ((_ & C2 & _) & _ & _ & MC). pose proof (in_range M (p_Ml cur) 1 MC ltac:(lia)) as [_ Q]. pose proof (Rabs_pos (R_of (cell zero (p_Ml cur) 1))). lra. }
  set (P := fun l (s : list f32) => length s = 160%nat /\ forall n, (0 <= n < 160)%Z -> exists y, rd s n = Ok y /\ ff y /\
    Rabs (R_of y - real_voiced (glide_turns cur prev) cur prev (Z.to_nat (l - 1)) n) <= IZR (l - 1) * (3.1e-3 * M + 1e-35)).
  destruct (for_up_ok P (fun l => add_harmonic_c (k l) o (p_w0 cur) (p_w0 prev) cur prev l) 1 (maxl + 1) (repeat zero 160)) as (r & E & Lr & V); [lia| | |].
  - intros l s Hl [Ls Q]. assert (LR : 0 <= IZR (l - 1) <= 55) by (split; apply IZR_le; lia).
    assert (LB : 0 <= IZR (l - 1) * (3.1e-3 * M + 1e-35) <= 55 * (3.1e-3 * M + 1e-35)) by (split; [apply Rmult_le_pos; lra|apply Rmult_le_compat_r; lra]).
    assert (SZ : forall n y, (0 <= n < 160)%Z -> Rabs (R_of y - real_voiced (glide_turns cur prev) cur prev (Z.to_nat (l - 1)) n) <= IZR (l - 1) * (3.1e-3 * M + 1e-35) -> Rabs (R_of y) <= 221 * M + 1e-33).
    { intros n y Hn D. pose proof (voiced_small M (glide_turns cur prev) cur prev (Z.to_nat (l - 1)) n RC RP ltac:(lra) ltac:(lia) Hn) as S. rewrite INR_IZR_INZ, Z2Nat.id in S by lia.
      assert (IZR (l - 1) * (4 * M) <= 55 * (4 * M)) by (apply Rmult_le_compat_r; lra). set (z := real_voiced _ _ _ _ _) in *.
      replace (R_of y) with ((R_of y - z) + z) by ring. eapply Rle_trans; [apply Rabs_triang|]. lra. }
    assert (HS : Forall (range 1e29) s).
    { apply Forall_forall. intros y Hy. apply In_nth_error in Hy as [i Hi]. assert (Li : (i < 160)%nat) by (rewrite <- Ls; apply nth_error_Some; congruence).
      destruct (Q (Z.of_nat i) ltac:(lia)) as (y' & Y & F & D). pose proof (SZ (Z.of_nat i) y' ltac:(lia) D). apply rd_inv in Y as [_ Y]. rewrite Nat2Z.id in Y. assert (y' = y) by congruence. subst y'. split; [exact F|lra]. }
    destruct (harmonic_near (k l) o M cur prev l s A RC RP HM ltac:(lia) Ls HS) as (r & E & Lr & V). exists r. split; [exact E|]. split; [exact Lr|].
    intros n Hn. destruct (Q n Hn) as (x & X & FX & DX). destruct (V n x Hn X) as (y & Y & F & D). exists y. split; [exact Y|]. split; [exact F|].
    replace (Z.to_nat (l + 1 - 1)) with (S (Z.to_nat (l - 1))) by lia. cbn [real_voiced]. replace (Z.of_nat (S (Z.to_nat (l - 1)))) with l by lia.
    replace (IZR (l + 1 - 1)) with (IZR (l - 1) + 1) by (rewrite <- plus_IZR; f_equal; lia). pose proof (SZ n x Hn DX) as SX.
    set (z := real_voiced _ _ _ _ _) in *. set (h := real_harmonic _ _ _ _ _) in *. replace (R_of y - (z + h)) with ((R_of y - (R_of x + h)) + (R_of x - z)) by ring. eapply Rle_trans; [apply Rabs_triang|]. lra.
  - split; [reflexivity|]. intros n Hn. exists zero. split; [|split; [split; reflexivity|]].
    + rewrite (cell_rd zero) by (rewrite repeat_length; lia). f_equal. unfold cell. apply nth_repeat.
    + replace (Z.to_nat (1 - 1)) with 0%nat by lia. cbn [real_voiced]. change (R_of zero) with 0. rewrite Rminus_0_r, Rabs_R0. replace (IZR (1 - 1)) with 0 by reflexivity. lra.
  - exists r. split; [exact E|]. split; [exact Lr|]. replace (maxl + 1 - 1)%Z with maxl in V by lia. exact V.
Qed.
Lemma voiced_near_turns : forall o M cur prev, voiced_ranges M cur -> voiced_ranges M prev -> accurate_angles o -> M <= 1e26 ->
  exists j, (forall l, (1 <= l <= 7)%Z -> Rabs (excess l (j l) (R_of (p_w0 cur)) (R_of (p_w0 prev)) (R_of (cell zero (p_PHIl cur) l)) (R_of (cell zero (p_PHIl prev) l))) <= 3.142) /\
  forall k maxl, (0 <= maxl <= 56)%Z -> exists r, voiced_c k o (p_w0 cur) (p_w0 prev) cur prev maxl (repeat zero 160) = Ok r /\ length r = 160%nat /\
  forall n, (0 <= n < 160)%Z -> exists y, rd r n = Ok y /\ ff y /\ Rabs (R_of y - real_voiced j cur prev (Z.to_nat maxl) n) <= IZR maxl * (3.1e-3 * M + 1e-35).
Proof.
  intros o M cur prev RC RP A HM. exists (glide_turns cur prev). split; [intros l Hl; now apply (glide_turns_val M)|]. intros k maxl Hm. now apply voiced_near.
Qed.
Lemma voiced_close : forall k k' o M cur prev maxl, accurate_angles o -> voiced_ranges M cur -> voiced_ranges M prev -> M <= 1e26 -> (0 <= maxl <= 56)%Z ->
  exists r r', voiced_c k o (p_w0 cur) (p_w0 prev) cur prev maxl (repeat zero 160) = Ok r /\ voiced_c k' o (p_w0 cur) (p_w0 prev) cur prev maxl (repeat zero 160) = Ok r' /\
  forall n, (0 <= n < 160)%Z -> exists y y', rd r n = Ok y /\ rd r' n = Ok y' /\ ff y /\ ff y' /\ Rabs (R_of y - R_of y') <= IZR maxl * (6.2e-3 * M + 2e-35).
Proof.
  intros k k' o M cur prev maxl A RC RP HM Hm. destruct (voiced_near k o M cur prev maxl A RC RP HM Hm) as (r & E & _ & V). destruct (voiced_near k' o M cur prev maxl A RC RP HM Hm) as (r' & E' & _ & V').
  exists r, r'. split; [exact E|]. split; [exact E'|]. intros n Hn. destruct (V n Hn) as (y & Y & F & D). destruct (V' n Hn) as (y' & Y' & F' & D'). exists y, y'. do 4 (split; [assumption|]).
  set (z := real_voiced _ _ _ _ _) in *. replace (R_of y - R_of y') with ((R_of y - z) + - (R_of y' - z)) by ring. eapply Rle_trans; [apply Rabs_triang|]. rewrite Rabs_Ropp. lra.
Qed.
(* without fusing *)
Lemma harmonic_unfused : forall o cw0 pw0 cur prev l aout, length aout = 160%nat -> add_harmonic_c (fun _ _ => false) o cw0 pw0 cur prev l aout = add_harmonic o cw0 pw0 cur prev l aout.
Proof.
  intros o cw0 pw0 cur prev l aout L. unfold add_harmonic_c, add_harmonic. cbv zeta. destruct (rd (p_Vl cur) l) as [vc|]; [|cbn [bind]; reflexivity]. destruct (rd (p_Vl prev) l) as [vp|]; [|cbn [bind]; reflexivity]. cbn [bind].
  destruct (_ || _); [|reflexivity]. destruct (_ && _ && _ && _).
  { destruct (rd (p_PHIl cur) l); [|cbn [bind]; reflexivity]. destruct (rd (p_PHIl prev) l); [|cbn [bind]; reflexivity]. destruct (rd (p_Ml cur) l); [|cbn [bind]; reflexivity]. destruct (rd (p_Ml prev) l); [|cbn [bind]; reflexivity]. cbn [bind]. apply glide_unfused. }
  change (start_c (fun _ _ => false)) with (fun phi w => fsub phi (fmul w (f_of_Z 160))). cbv beta.
  assert (K : forall b, length b = 160%nat -> (if (vc =? 1)%Z then amp <- rd (p_Ml cur) l ;; phi <- rd (p_PHIl cur) l ;; add_oscillator_c (fun _ _ => false) (o_simd o) b 0 amp (cosf o (fsub phi (fmul (fmul cw0 (f_of_Z l)) (f_of_Z 160)))) (sinf o (fsub phi (fmul (fmul cw0 (f_of_Z l)) (f_of_Z 160)))) (sinf o (fmul cw0 (f_of_Z l))) (cosf o (fmul cw0 (f_of_Z l))) else Ok b) =
    (if (vc =? 1)%Z then amp <- rd (p_Ml cur) l ;; phi <- rd (p_PHIl cur) l ;; add_oscillator (o_simd o) b 0 amp (cosf o (fsub phi (fmul (fmul cw0 (f_of_Z l)) (f_of_Z 160)))) (sinf o (fsub phi (fmul (fmul cw0 (f_of_Z l)) (f_of_Z 160)))) (sinf o (fmul cw0 (f_of_Z l))) (cosf o (fmul cw0 (f_of_Z l))) else Ok b)).
  { intros b Lb. destruct (vc =? 1)%Z; [|cbn [bind]; reflexivity]. destruct (rd (p_Ml cur) l); [|cbn [bind]; reflexivity]. destruct (rd (p_PHIl cur) l); [|cbn [bind]; reflexivity]. cbn [bind]. apply add_oscillator_unfused; auto. }
  destruct (vp =? 1)%Z; [|cbn [bind]; now apply K]. destruct (rd (p_Ml prev) l) as [amp|]; [|cbn [bind]; reflexivity]. destruct (rd (p_PHIl prev) l) as [phi|]; [|cbn [bind]; reflexivity]. cbn [bind].
  rewrite add_oscillator_unfused by auto. destruct (osc_value (o_simd o) aout 160 amp (cosf o phi) (sinf o phi) (sinf o (fmul pw0 (f_of_Z l))) (cosf o (fmul pw0 (f_of_Z l))) L (or_intror eq_refl)) as (b & -> & Lb & _). cbn [bind]. now apply K.
Qed.
(* the fresh state: harmonics of amplitude 1, unvoiced, with one voiced *)
Definition one_voiced : parms := set_w0 (flit 1 8) (set_Vl ([0; 0; 1] ++ repeat 0 54)%Z (set_Ml (repeat fone 57) (set_PHIl (repeat fone 57) imbe_initial))).
Lemma one_voiced_ranges : voiced_ranges 1 one_voiced.
Proof.
  assert (O : forall b, 1 <= b -> range b fone) by (intros b Hb; split; [split; reflexivity|R_val fone; rewrite Rabs_pos_eq; lra]).
  split; [unfold wf_parms; repeat split; try reflexivity|]. split; [split; [split; reflexivity|]; change (p_w0 one_voiced) with (flit 1 8); R_val (flit 1 8); lra|].
  split; apply Forall_forall; intros x Hx; [change (p_PHIl one_voiced) with (repeat fone 57) in Hx|change (p_Ml one_voiced) with (repeat fone 57) in Hx]; apply repeat_spec in Hx; subst x; apply O; lra.
Qed.
