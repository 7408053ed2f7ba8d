(* The voiced samples and the band gains of all builds approximate the same exact values. *)
From Coq Require Import ZArith List Bool Lia Reals Lra Permutation.
From Verif Require Import Res F32 MParms MAdaptive MUnvoiced MSynth SpecFrame SpecState SpecAdaptive SpecGen SpecWola SpecOut SpecAmp SpecSynth SpecTrig SpecSum SpecFftErr SpecNum SpecBuild PSum PFloat PFloat2 PReal PPredict PGen PWola PSpeech PSumErr PSynth PSynth2 POsc PEnh3 PNum PNum2 PNum3 PBuild.
From Flocq Require Import Core.Core.
Import ListNotations.
Local Open Scope R_scope.

(* a product of sized numbers is near the product of what they are near *)
Lemma mul_near : forall x y r s a b d e, ff x -> ff y -> Rabs r <= a -> Rabs s <= b -> 1e-15 <= a * b <= 1e30 -> 0 <= a -> 0 <= b ->
  Rabs (R_of x - r) <= a * d -> Rabs (R_of y - s) <= b * e -> 0 <= d <= 1e-6 -> 0 <= e <= 1e-6 ->
  ff (fmul x y) /\ Rabs (R_of (fmul x y) - r * s) <= (a * b) * (d + e + 6.2e-8) /\ Rabs (r * s) <= a * b.
Proof.
  intros x y r s a b d e FX FY HR HS AB A0 B0 EX EY HD HE. set (p := a * b) in *. set (dx := R_of x - r) in *. set (dy := R_of y - s) in *.
  assert (RS : Rabs (r * s) <= p) by (rewrite Rabs_mult; unfold p; apply Rmult_le_compat; auto using Rabs_pos).
  assert (D1 : Rabs (r * dy) <= p * e) by (rewrite Rabs_mult; replace (p * e) with (a * (b * e)) by (unfold p; ring); apply Rmult_le_compat; auto using Rabs_pos).
  assert (D2 : Rabs (s * dx) <= p * d) by (rewrite Rabs_mult; replace (p * d) with (b * (a * d)) by (unfold p; ring); apply Rmult_le_compat; auto using Rabs_pos).
  assert (D3 : Rabs (dx * dy) <= p * 1e-12).
  { rewrite Rabs_mult. apply (Rle_trans _ ((a * d) * (b * e))); [apply Rmult_le_compat; auto using Rabs_pos|]. replace (a * d * (b * e)) with (p * (d * e)) by (unfold p; ring). apply Rmult_le_compat_l; [lra|]. assert (d * e <= 1e-6 * 1e-6) by (apply Rmult_le_compat; lra). lra. }
  assert (XY : R_of x * R_of y - r * s = r * dy + s * dx + dx * dy) by (unfold dx, dy; ring).
  assert (E0 : Rabs (R_of x * R_of y - r * s) <= p * (d + e + 1e-12)). { rewrite XY. eapply Rle_trans; [apply Rabs_triang|]. eapply Rle_trans; [apply Rplus_le_compat_r, Rabs_triang|]. lra. }
  assert (PD : 0 <= p * d <= p * 1e-6) by (split; [apply Rmult_le_pos; lra|apply Rmult_le_compat_l; lra]). assert (PE : 0 <= p * e <= p * 1e-6) by (split; [apply Rmult_le_pos; lra|apply Rmult_le_compat_l; lra]).
  assert (B1 : Rabs (R_of x * R_of y) <= p * 1.00001). { replace (R_of x * R_of y) with ((R_of x * R_of y - r * s) + r * s) by ring. eapply Rle_trans; [apply Rabs_triang|]. lra. }
  destruct (fmul_e x y FX FY) as [F E]; [unfold huge; lra|]. split; [exact F|]. split; [|exact RS].
  assert (U : 0 < u24 <= 5.97e-8) by (unfold u24; lra). pose proof tiny_40 as T.
  assert (UB : u24 * Rabs (R_of x * R_of y) <= 5.97e-8 * (p * 1.00001)) by (apply Rmult_le_compat; auto using Rabs_pos; lra).
  replace (R_of (fmul x y) - r * s) with ((R_of (fmul x y) - R_of x * R_of y) + (R_of x * R_of y - r * s)) by ring. eapply Rle_trans; [apply Rabs_triang|]. lra.
Qed.

Section Voiced.
Context (o : oracle) (A : accurate_angles o) (b : R) (B : 1 <= b <= 1e12).
Lemma oscillator_build : forall simd a w n, oscillator (in_build simd o) a w n = oscillator o a w n.
Proof. reflexivity. Qed.
Lemma glide_build : forall simd l cw0 pw0 pc pp mc mp n, glide (in_build simd o) l cw0 pw0 pc pp mc mp n = glide o l cw0 pw0 pc pp mc mp n.
Proof. reflexivity. Qed.
Lemma same_near : forall x a, 0 <= a -> Rabs (R_of x - R_of x) <= a * 0.
Proof. intros. unfold Rminus. rewrite Rplus_opp_r, Rabs_R0. lra. Qed.
Lemma faded_approx : forall simd i m a w n, (0 <= i < 320)%Z -> sized b m -> sized 1000000 a -> sized 1000000 w -> (n <= 160)%nat ->
  approx [faded (in_build simd o) (fade i) m a w n] (exact_faded o (fade i) m a w n) (3 * b).
Proof.
  intros simd i m a w n Hi [FM BM] Ha Hw Hn. unfold faded, exact_faded. rewrite oscillator_build. cbn [in_build o_simd]. destruct (fade_sized i Hi) as [FW BW]. destruct (oscillator_sized o a w n A Ha Hw Hn) as [FO BO].
  destruct two_R as [F2 E2]. set (c := oscillator o a w n) in *. set (v := fade i) in *. assert (B2 : Rabs (R_of (f_of_Z 2)) <= 2) by (rewrite E2, Rabs_pos_eq; lra).
  assert (U : 5.9e-8 <= u24) by (unfold u24; lra). pose proof tiny_pos as T.
  assert (UB : 5.9e-8 * (3 * b) <= u24 * (3 * b)) by (apply Rmult_le_compat_r; lra).
  assert (G : forall p, ff p -> Rabs (R_of p - 2 * R_of v * R_of m * R_of c) <= b * 5e-7 -> Rabs (2 * R_of v * R_of m * R_of c) <= 3 * b -> approx [p] (2 * R_of v * R_of m * R_of c) (3 * b)) by (intros p Fp Ep Bp; apply approx_one; auto; lra).
  destruct (lanes4 simd).
  - destruct (mul_near c v (R_of c) (R_of v) 1.01 1 0 0 FO FW BO BW ltac:(lra) ltac:(lra) ltac:(lra) (same_near c 1.01 ltac:(lra)) (same_near v 1 ltac:(lra)) ltac:(lra) ltac:(lra)) as (F1 & N1 & S1).
    destruct (mul_near (f_of_Z 2) m (R_of (f_of_Z 2)) (R_of m) 2 b 0 0 F2 FM B2 BM ltac:(lra) ltac:(lra) ltac:(lra) (same_near (f_of_Z 2) 2 ltac:(lra)) (same_near m b ltac:(lra)) ltac:(lra) ltac:(lra)) as (F3 & N3 & S3).
    destruct (mul_near (fmul c v) (fmul (f_of_Z 2) m) (R_of c * R_of v) (R_of (f_of_Z 2) * R_of m) (1.01 * 1) (2 * b) 6.2e-8 6.2e-8 F1 F3 S1 S3 ltac:(lra) ltac:(lra) ltac:(lra) ltac:(lra) ltac:(lra) ltac:(lra) ltac:(lra)) as (F4 & N4 & S4).
    replace (R_of c * R_of v * (R_of (f_of_Z 2) * R_of m)) with (2 * R_of v * R_of m * R_of c) in N4, S4 by (rewrite E2; ring). apply G; auto; lra.
  - destruct (mul_near (f_of_Z 2) v (R_of (f_of_Z 2)) (R_of v) 2 1 0 0 F2 FW B2 BW ltac:(lra) ltac:(lra) ltac:(lra) (same_near (f_of_Z 2) 2 ltac:(lra)) (same_near v 1 ltac:(lra)) ltac:(lra) ltac:(lra)) as (F1 & N1 & S1).
    destruct (mul_near (fmul (f_of_Z 2) v) m (R_of (f_of_Z 2) * R_of v) (R_of m) (2 * 1) b 6.2e-8 0 F1 FM S1 BM ltac:(lra) ltac:(lra) ltac:(lra) ltac:(lra) (same_near m b ltac:(lra)) ltac:(lra) ltac:(lra)) as (F3 & N3 & S3).
    destruct (mul_near (fmul (fmul (f_of_Z 2) v) m) c (R_of (f_of_Z 2) * R_of v * R_of m) (R_of c) (2 * 1 * b) 1.01 1.24e-7 0 F3 FO S3 BO ltac:(lra) ltac:(lra) ltac:(lra) ltac:(lra) (same_near c 1.01 ltac:(lra)) ltac:(lra) ltac:(lra)) as (F4 & N4 & S4).
    rewrite E2 in N4, S4. apply G; auto; lra.
Qed.
Lemma self_approx : forall x m, sized m x -> approx [x] (R_of x) m.
Proof.
  intros x m X. pose proof (s_pos _ _ X). destruct X as [F X]. apply approx_one; auto. unfold Rminus. rewrite Rplus_opp_r, Rabs_R0. assert (0 <= u24 * m) by (apply Rmult_le_pos; [unfold u24; lra|lra]). pose proof tiny_pos. lra.
Qed.
Lemma approx_weak : forall xs r m k, approx xs r m -> m <= k -> approx xs r k.
Proof. intros xs r m k (F & E & S & M) H. assert (u24 * m <= u24 * k) by (apply Rmult_le_compat_l; [unfold u24; lra|lra]). repeat split; auto; lra. Qed.
Lemma harmonic_approx : forall simd cur prev l n, (1 <= l <= 56)%Z -> (n < 160)%nat -> pitch_one (p_w0 cur) -> pitch_one (p_w0 prev) ->
  Forall (sized 20000) (p_PHIl cur) -> Forall (sized 20000) (p_PHIl prev) -> sized b (cell zero (p_Ml cur) l) -> sized b (cell zero (p_Ml prev) l) ->
  approx (harmonic_terms (in_build simd o) cur prev l n) (exact_harmonic o cur prev l n) (7 * b).
Proof.
  intros simd cur prev l n Hl Hn C P PC PP MC MP. unfold harmonic_terms, exact_harmonic. cbv zeta. pose proof (s_cell 20000 _ l ltac:(lra) PC) as QC. pose proof (s_cell 20000 _ l ltac:(lra) PP) as QP.
  pose proof (pitch_sized _ C) as C1. pose proof (pitch_sized _ P) as P1.
  assert (Il : sized 56 (f_of_Z l)) by (apply s_int; [lia|apply IZR_le; lia]).
  assert (I160 : sized 160 (f_of_Z 160)) by (apply s_int; [lia|apply IZR_le; lia]).
  assert (WC : sized 57 (fmul (p_w0 cur) (f_of_Z l))) by (apply (s_mul _ _ 1 56); auto; lra).
  assert (WP : sized 57 (fmul (p_w0 prev) (f_of_Z l))) by (apply (s_mul _ _ 1 56); auto; lra).
  destruct (_ && _) eqn:E.
  - apply andb_true_iff in E as [E _]. apply andb_true_iff in E as [E _]. apply andb_true_iff in E as [E _]. apply Z.ltb_lt in E. rewrite glide_build. apply self_approx. apply glide_sized; auto; lia.
  - apply (approx_weak _ _ (3 * b + 3 * b)); [|lra]. apply approx_app; (match goal with |- context [if ?c then _ else _] => destruct c end); try (apply (approx_weak _ _ 0); [apply approx_nil|lra]).
    + apply faded_approx; auto; try lia; [apply (s_weak 20000)|apply (s_weak 57)]; auto; lra.
    + apply faded_approx; auto; try lia; [|apply (s_weak 57); auto; lra]. apply (s_weak 30000); [|lra]. apply (s_sub _ _ 20000 9200); auto; try lra. apply (s_mul _ _ 57 160); auto; lra.
Qed.
Lemma voiced_both : forall simd cur prev n, (Z.max (p_L cur) (p_L prev) <= 56)%Z -> (n < 160)%nat -> pitch_one (p_w0 cur) -> pitch_one (p_w0 prev) ->
  Forall (sized 20000) (p_PHIl cur) -> Forall (sized 20000) (p_PHIl prev) ->
  (forall l, (1 <= l <= Z.max (p_L cur) (p_L prev))%Z -> sized b (cell zero (p_Ml cur) l) /\ sized b (cell zero (p_Ml prev) l)) ->
  agrees (voiced_sample (in_build simd o) cur prev n) (exact_voiced o cur prev n) (392 * b).
Proof.
  intros simd cur prev n HL Hn C P PC PP HM. unfold voiced_sample, exact_voiced. set (Lm := Z.max _ _) in *.
  set (ts := flat_map _ _).
  assert (LN : forall ls, (length (flat_map (fun l => harmonic_terms (in_build simd o) cur prev l n) ls) <= 2 * length ls)%nat).
  { induction ls as [|x l IH]; cbn [flat_map length]; [lia|]. rewrite app_length. pose proof (terms_length (in_build simd o) cur prev x n). lia. }
  assert (AP : forall ls, (forall l, In l ls -> (1 <= l <= Lm)%Z) -> approx (flat_map (fun l => harmonic_terms (in_build simd o) cur prev l n) ls) (rsum (fun l => exact_harmonic o cur prev l n) ls) (INR (length ls) * (7 * b))).
  { induction ls as [|l ls IH]; intros H; [cbn [length INR]; rewrite Rmult_0_l; apply approx_nil|]. cbn [flat_map]. unfold rsum. cbn [fold_right]. cbn [length]. rewrite S_INR. replace ((INR (length ls) + 1) * (7 * b)) with (7 * b + INR (length ls) * (7 * b)) by ring.
    pose proof (H l ltac:(now left)) as Hl. destruct (HM l Hl) as [M1 M2]. apply approx_app; [apply harmonic_approx; auto; lia|apply IH; intros; apply H; now right]. }
  specialize (AP (upto Lm) (fun l H => proj1 (in_upto l Lm) H)). specialize (LN (upto Lm)). rewrite PAmp.upto_length in *. fold ts in AP, LN.
  destruct (fold_summed ts [] zero 0 sum_nil) as (zs & PZ & S). rewrite app_nil_r in PZ. pose proof (Permutation_length PZ) as LZ.
  assert (K : INR (Z.to_nat Lm) <= 56). { replace 56 with (INR 56) by (rewrite INR_IZR_INZ; reflexivity). apply le_INR. lia. }
  assert (K' : INR (Z.to_nat Lm) * (7 * b) <= 56 * (7 * b)) by (apply Rmult_le_compat_r; lra).
  apply (approx_sum zs _ _ _ (0 + length ts)); [|exact S|lia|lia|lra]. eapply approx_perm; [exact PZ|]. eapply approx_weak; [exact AP|lra].
Qed.
End Voiced.

(* ---- the gain of a band ---- *)
Lemma sqrt_within : forall y z d, 0 <= y -> 0 <= d <= 0.001 -> y * (1 - d) <= z <= y * (1 + d) -> sqrt y * (1 - d * 0.501) <= sqrt z <= sqrt y * (1 + d * 0.5).
Proof.
  intros y z d Y D [Z1 Z2]. pose proof (sqrt_pos y) as S. assert (YY : sqrt y * sqrt y = y) by (apply sqrt_sqrt; exact Y).
  assert (ZP : 0 <= z) by (assert (0 <= y * (1 - d)) by (apply Rmult_le_pos; lra); lra). split.
  - rewrite <- (sqrt_square (sqrt y * (1 - d * 0.501))) by (apply Rmult_le_pos; lra). apply sqrt_le_1_alt. replace (sqrt y * (1 - d * 0.501) * (sqrt y * (1 - d * 0.501))) with (y * ((1 - d * 0.501) * (1 - d * 0.501))) by (rewrite <- YY at 1; ring).
    apply (Rle_trans _ (y * (1 - d))); [|exact Z1]. apply Rmult_le_compat_l; [exact Y|]. nra.
  - rewrite <- (sqrt_square (sqrt y * (1 + d * 0.5))) by (apply Rmult_le_pos; lra). apply sqrt_le_1_alt. replace (sqrt y * (1 + d * 0.5) * (sqrt y * (1 + d * 0.5))) with (y * ((1 + d * 0.5) * (1 + d * 0.5))) by (rewrite <- YY at 1; ring).
    apply (Rle_trans _ (y * (1 + d))); [exact Z2|]. apply Rmult_le_compat_l; [exact Y|]. nra.
Qed.
Lemma gain_near : forall p amp n pe, ff p -> ff amp -> (1 <= n <= 128)%Z -> 1e-10 <= pe <= 9e34 -> Rabs (R_of p - pe) <= pe / 50000 + 1e-36 -> 0 <= R_of amp <= 1e12 ->
  let g := fdiv (fmul (flit 14617696 100000) amp) (fsqrt (fdiv p (f_of_Z n))) in
  ff g /\ Rabs (R_of g - exact_gain amp pe n) <= exact_gain amp pe n / 50000 + 1e-30.
Proof.
  intros p amp n pe FP FA Hn HP EP HA. cbv zeta. unfold exact_gain. destruct (int_R n) as [FN EN]; [lia|]. assert (NR : 1 <= IZR n <= 128) by (split; apply IZR_le; lia). set (N := IZR n) in *.
  assert (U : 0 < u24 <= 6e-8) by (unfold u24; lra). pose proof tiny_40 as T1. pose proof tiny_pos as T0. apply Rabs_le_inv in EP.
  set (y := pe / N). assert (NI : 0 < / N <= 1) by (split; [apply Rinv_0_lt_compat; lra|rewrite <- Rinv_1; apply Rinv_le_contravar; lra]).
  assert (NI2 : / 128 <= / N) by (apply Rinv_le_contravar; lra).
  assert (Y0 : 7e-13 <= y <= 9e34). { unfold y, Rdiv. split; [apply (Rle_trans _ (1e-10 * / 128)); [lra|]; apply Rmult_le_compat; lra|]. apply (Rle_trans _ (pe * 1)); [apply Rmult_le_compat_l; lra|lra]. }
  assert (Q0 : y * (1 - 2.01e-5) <= R_of p / N <= y * (1 + 2.01e-5)).
  { assert (H1 : y = pe * / N) by reflexivity. assert (H2 : R_of p / N = R_of p * / N) by reflexivity. rewrite H1, H2. split.
    - replace (pe * / N * (1 - 2.01e-5)) with ((pe * (1 - 2.01e-5)) * / N) by ring. apply Rmult_le_compat_r; lra.
    - replace (pe * / N * (1 + 2.01e-5)) with ((pe * (1 + 2.01e-5)) * / N) by ring. apply Rmult_le_compat_r; lra. }
  destruct (fdiv_e p (f_of_Z n) FP FN) as [FQ EQ]; [rewrite EN; apply Rgt_not_eq; lra|rewrite EN, Rabs_pos_eq; unfold huge; lra|]. rewrite EN in EQ. rewrite (Rabs_pos_eq (R_of p / N)) in EQ by lra.
  assert (UQ : u24 * (R_of p / N) <= 6e-8 * (y * 1.0001)) by (apply Rmult_le_compat; lra). set (q := R_of (fdiv p (f_of_Z n))) in *. apply Rabs_le_inv in EQ.
  assert (Q1 : y * (1 - 2.02e-5) <= q <= y * (1 + 2.02e-5)) by lra.
  destruct (sqrt_within y q 2.02e-5 ltac:(lra) ltac:(lra) Q1) as [S1 S2]. destruct (fsqrt_e _ FQ ltac:(fold q; lra)) as [FS ES]. fold q in ES.
  set (r := sqrt y) in *. assert (R0 : 8e-7 <= r <= 1e18). { unfold r. split; [rewrite <- (sqrt_square 8e-7) by lra|rewrite <- (sqrt_square 1e18) by lra]; apply sqrt_le_1_alt; lra. }
  set (s := R_of (fsqrt (fdiv p (f_of_Z n)))) in *. assert (US : u24 * sqrt q <= 6e-8 * (r * 1.0001)) by (apply Rmult_le_compat; try lra; apply sqrt_pos). apply Rabs_le_inv in ES.
  assert (SR : r * (1 - 1.03e-5) <= s <= r * (1 + 1.03e-5)) by lra.
  assert (KC : ff (flit 14617696 100000) /\ 146.17694 <= R_of (flit 14617696 100000) <= 146.17697 /\ Rabs (R_of (flit 14617696 100000) - 146.17696) <= 146.17696 * 1e-7).
  { split; [apply ff_const; vm_compute; reflexivity|]. R_val (flit 14617696 100000). split; [lra|]. apply Rabs_le. lra. }
  destruct KC as (KF & KB & KE). set (K := R_of (flit 14617696 100000)) in *. set (a := R_of amp) in *.
  assert (KA : 0 <= K * a <= 1e15) by (split; [apply Rmult_le_pos; lra|]; assert (K * a <= 147 * 1e12) by (apply Rmult_le_compat; lra); lra).
  destruct (fmul_e _ _ KF FA) as [FM EM]; [fold K a; rewrite Rabs_pos_eq by lra; unfold huge; lra|]. fold K a in EM. rewrite (Rabs_pos_eq (K * a)) in EM by lra.
  assert (UM : u24 * (K * a) <= 6e-8 * (K * a)) by (apply Rmult_le_compat_r; lra). set (m := R_of (fmul (flit 14617696 100000) amp)) in *. apply Rabs_le_inv in EM. apply Rabs_le_inv in KE.
  assert (KX : 146.17696 * a * (1 - 1e-7) <= K * a <= 146.17696 * a * (1 + 1e-7)). { split; [replace (146.17696 * a * (1 - 1e-7)) with ((146.17696 * (1 - 1e-7)) * a) by ring|replace (146.17696 * a * (1 + 1e-7)) with ((146.17696 * (1 + 1e-7)) * a) by ring]; apply Rmult_le_compat_r; lra. }
  set (v := 146.17696 * a) in *. assert (MV : v * (1 - 2e-7) - tiny <= m <= v * (1 + 2e-7) + tiny) by lra.
  assert (V0 : 0 <= v <= 1.5e14) by (unfold v; lra).
  set (g := v / r). assert (GR : g * r = v) by (unfold g; field; lra). assert (G0 : 0 <= g) by (unfold g, Rdiv; apply Rmult_le_pos; [lra|left; apply Rinv_0_lt_compat; lra]).
  assert (SP : 0 < s) by lra. set (h := m / s). assert (HS : h * s = m) by (unfold h; field; lra).
  assert (HB : g * (1 - 1.06e-5) - 2e-34 <= h <= g * (1 + 1.06e-5) + 2e-34).
  { assert (GS : g * r * (1 - 1.03e-5) <= g * s <= g * r * (1 + 1.03e-5)) by (split; [replace (g * r * (1 - 1.03e-5)) with (g * (r * (1 - 1.03e-5))) by ring|replace (g * r * (1 + 1.03e-5)) with (g * (r * (1 + 1.03e-5))) by ring]; apply Rmult_le_compat_l; lra).
    rewrite GR in GS. split.
    - apply (Rmult_le_reg_r s); [exact SP|]. rewrite HS. replace ((g * (1 - 1.06e-5) - 2e-34) * s) with ((g * s) * (1 - 1.06e-5) - 2e-34 * s) by ring. set (gs := g * s) in *. clearbody gs. lra.
    - apply (Rmult_le_reg_r s); [exact SP|]. rewrite HS. replace ((g * (1 + 1.06e-5) + 2e-34) * s) with ((g * s) * (1 + 1.06e-5) + 2e-34 * s) by ring. set (gs := g * s) in *. clearbody gs. lra. }
  assert (GB : g <= 2e20). { apply (Rmult_le_reg_r r); [lra|]. rewrite GR. lra. }
  destruct (fdiv_e _ _ FM FS) as [FG EG]; [fold s; apply Rgt_not_eq; lra|fold m s h; apply Rabs_le; unfold huge; lra|]. fold m s h in EG. split; [exact FG|].
  assert (HA2 : Rabs h <= g * 1.0001 + 2e-34) by (apply Rabs_le; lra). assert (UH : u24 * Rabs h <= 6e-8 * (g * 1.0001 + 2e-34)) by (apply Rmult_le_compat; auto using Rabs_pos; lra).
  apply Rabs_le_inv in EG. apply Rabs_le. lra.
Qed.
Lemma threshold_R : ff (flit 1 10000000000) /\ 0.9999e-10 <= R_of (flit 1 10000000000) <= 1.0001e-10.
Proof. split; [apply ff_const; vm_compute; reflexivity|]. R_val (flit 1 10000000000). lra. Qed.
Lemma gain_both : forall simd x cur l, Forall (sized 1e15) x -> (0 <= band_low cur l)%Z -> ff (cell zero (p_Ml cur) l) -> 0 <= R_of (cell zero (p_Ml cur) l) <= 1e12 ->
  let p := exact_band x (band_low cur l) (band_high cur l) in
  (cell 0%Z (p_Vl cur) l <> 0%Z \/ p <= 0.99e-10 -> band_gain simd x cur l = zero) /\
  (cell 0%Z (p_Vl cur) l = 0%Z -> 1.01e-10 <= p -> let g := exact_gain (cell zero (p_Ml cur) l) p (band_high cur l - band_low cur l) in
     ff (band_gain simd x cur l) /\ Rabs (R_of (band_gain simd x cur l) - g) <= g / 50000 + 1e-30).
Proof.
  intros simd x cur l X HL FA HA. cbv zeta. assert (HH : (band_high cur l <= 128)%Z) by (unfold band_high; lia). unfold band_gain. cbv zeta. set (lo := band_low cur l) in *. set (hi := band_high cur l) in *.
  destruct (band_agrees x X simd lo hi HL HH) as [FP EP]. pose proof (band_size x X lo hi ltac:(lia)) as SZ. set (p := exact_band x lo hi) in *. destruct threshold_R as [TF TR]. change (fgt (band_power simd x lo hi) (flit 1 10000000000)) with (flt (flit 1 10000000000) (band_power simd x lo hi)). split.
  - intros [V|P].
    + destruct (Z.eqb_spec (cell 0%Z (p_Vl cur) l) 0%Z) as [E|E]; [contradiction|reflexivity].
    + assert (F : flt (flit 1 10000000000) (band_power simd x lo hi) = false). { apply flt_false; auto. apply Rabs_le_inv in EP. lra. } rewrite F, andb_false_r. reflexivity.
  - intros V P. rewrite V. cbn [Z.eqb andb]. assert (F : flt (flit 1 10000000000) (band_power simd x lo hi) = true). { apply flt_true; auto. apply Rabs_le_inv in EP. lra. } rewrite F.
    assert (N : (lo < hi)%Z). { destruct (Z.lt_ge_cases lo hi) as [C|C]; [exact C|]. exfalso. unfold p, exact_band in P. rewrite ints_nil in P by lia. cbn [rsum fold_right] in P. lra. }
    apply gain_near; auto; try lia; lra.
Qed.

(* ---- whole frames without an unvoiced part ---- *)
Lemma shaped_voiced : forall simd x cur, all_voiced cur -> shaped simd x cur = shaped Scalar x cur.
Proof.
  intros simd x cur V. unfold shaped. apply map_ext. intros i. f_equal. unfold bin_gain. destruct (find _ _) as [l|] eqn:E; [|reflexivity]. apply find_some in E as [Hl _]. apply in_upto in Hl.
  specialize (V l Hl). unfold band_gain. cbv zeta. destruct (Z.eqb_spec (cell 0%Z (p_Vl cur) l) 0%Z); [contradiction|reflexivity].
Qed.
Lemma clip_near : forall x y d, ff x -> ff y -> Rabs (R_of x - R_of y) <= d -> Rabs (R_of (clip x) - R_of (clip y)) <= d.
Proof.
  intros x y d FX FY H. assert (L : ff sample_limit /\ 4000 <= R_of sample_limit) by (split; [apply ff_const; vm_compute; reflexivity|R_val sample_limit; lra]). destruct L as [LF LR].
  assert (G : ff (fopp sample_limit) /\ R_of (fopp sample_limit) = - R_of sample_limit) by (split; [apply fopp_ff, LF|apply R_fopp]). destruct G as [GF GR].
  assert (K : forall z, ff z -> (R_of sample_limit < R_of z /\ R_of (clip z) = R_of sample_limit) \/ (R_of z < - R_of sample_limit /\ R_of (clip z) = - R_of sample_limit) \/ (- R_of sample_limit <= R_of z <= R_of sample_limit /\ R_of (clip z) = R_of z)).
  { intros z FZ. unfold clip. change (fgt z sample_limit) with (flt sample_limit z). destruct (flt sample_limit z) eqn:E1; [apply flt_true in E1; auto|]. apply flt_false in E1; auto.
    destruct (flt z (fopp sample_limit)) eqn:E2; [apply flt_true in E2; auto; right; left; rewrite GR in *; auto|]. apply flt_false in E2; auto. rewrite GR in E2. right. right. auto. }
  apply Rabs_le_inv in H. apply Rabs_le. destruct (K x FX) as [[A1 A2]|[[A1 A2]|[A1 A2]]], (K y FY) as [[B1 B2]|[[B1 B2]|[B1 B2]]]; rewrite A2, B2; lra.
Qed.
Lemma overlap_under : forall b up uc n, 1 <= b <= 1e12 -> Forall (sized (5000 * b)) up -> Forall (sized (5000 * b)) uc -> (0 <= n < 160)%Z -> sized (26000 * b) (overlap_term up uc n).
Proof.
  intros b up uc n B P C Hn. unfold overlap_term. destruct (normaliser_low n Hn) as [NF NL].
  apply (s_div _ _ (10010 * b) 0.4); auto; try lra. apply (s_add _ _ (5001 * b) (5001 * b)); try lra.
  - apply (s_mul _ _ 1 (5000 * b)); try lra; [apply window_sized; lia|apply sample_at_sized; [lra|exact P]].
  - apply (s_mul _ _ 1 (5000 * b)); try lra; [apply window_sized; lia|apply sample_at_sized; [lra|exact C]].
Qed.
Section Frames.
Context (o : oracle) (AA : accurate_angles o) (BT : bounded_transforms o) (b : R) (B : 1 <= b <= 1e12).
Lemma spoken_both : forall s1 s2 cur prev t n, (1 <= p_L cur <= 56)%Z -> (0 <= p_L prev <= 56)%Z -> generator_seed (p_noiseSeed cur) ->
  amplitudes_to b cur -> amplitudes_to b prev -> numeric cur -> numeric prev -> Forall (sized (5000 * b)) (p_previousUw prev) -> all_voiced cur -> (n < 160)%nat ->
  Rabs (R_of (spoken_sample (in_build s1 o) cur prev t n) - R_of (spoken_sample (in_build s2 o) cur prev t n)) <= b / 50.
Proof.
  intros s1 s2 cur prev t n HL HP G AC AP (C1 & C2 & C3 & C4 & CW) (P1 & P2 & P3 & P4 & PW) UP AV Hn. unfold spoken_sample. cbv zeta.
  assert (N : Forall (sized 60000) (noise_of (p_noiseSeed cur) (p_noiseOverlap cur))) by (apply noise_sized; assumption). set (noise := noise_of _ _) in *.
  assert (W : Forall (sized (5000 * b)) (noise_wave o cur noise)) by (apply wave_sized; auto; [lia|]; intros l Hl; apply from0_sized, AC, Hl).
  assert (SW : forall simd, noise_wave (in_build simd o) cur noise = noise_wave o cur noise).
  { intros simd. unfold noise_wave. cbn [in_build o_simd]. change (fft_bwd (in_build simd o)) with (fft_bwd o). change (fft_fwd (in_build simd o)) with (fft_fwd o). rewrite (shaped_voiced simd), (shaped_voiced (o_simd o)) by exact AV. reflexivity. }
  rewrite !SW. set (V := fun simd => voiced_sample (in_build simd o) (spoken_voice cur prev t) (spoken_prev cur prev) n).
  assert (PHI : Forall (sized 20000) (replaced zero 1 56 (voice_phase cur prev noise) (p_PHIl cur))).
  { apply f_replaced; auto; [lra|]. intros l H1 H2. apply (s_weak 10000); [|lra]. apply voice_phase_sized; auto. }
  assert (VS : forall simd, agrees (V simd) (exact_voiced o (spoken_voice cur prev t) (spoken_prev cur prev) n) (392 * b)).
  { intros simd. unfold V. assert (EL : p_L (spoken_voice cur prev t) = p_L cur) by reflexivity. assert (EL' : p_L (spoken_prev cur prev) = p_L prev) by reflexivity.
    apply voiced_both; auto; rewrite ?EL, ?EL'; try lia. intros l Hl. split.
    - apply (extended_sized b (p_L prev) cur); auto; try lra; lia.
    - apply (extended_sized b (p_L cur) (set_PSIl (replaced zero 1 56 (fun l => wrap (cell zero (p_PSIl prev) l)) (p_PSIl prev)) prev)); auto; try lra; cbn; lia. }
  assert (VZ : forall simd, sized (1600 * b) (V simd)).
  { intros simd. unfold V. assert (EL : p_L (spoken_voice cur prev t) = p_L cur) by reflexivity. assert (EL' : p_L (spoken_prev cur prev) = p_L prev) by reflexivity.
    apply voiced_sized; auto; rewrite ?EL, ?EL'; try lia. intros l Hl. split.
    - apply (extended_sized b (p_L prev) cur); auto; try lra; lia.
    - apply (extended_sized b (p_L cur) (set_PSIl (replaced zero 1 56 (fun l => wrap (cell zero (p_PSIl prev) l)) (p_PSIl prev)) prev)); auto; try lra; cbn; lia. }
  change (voiced_sample (in_build s1 o) (spoken_voice cur prev t) (spoken_prev cur prev) n) with (V s1). change (voiced_sample (in_build s2 o) (spoken_voice cur prev t) (spoken_prev cur prev) n) with (V s2).
  destruct (VS s1) as [F1 E1]. destruct (VS s2) as [F2 E2]. destruct (VZ s1) as [_ Z1]. destruct (VZ s2) as [_ Z2]. set (v1 := V s1) in *. set (v2 := V s2) in *. clearbody v1 v2. clear VS VZ V.
  set (ev := exact_voiced _ _ _ _) in *. clearbody ev. apply Rabs_le_inv in E1, E2.
  cbn [in_build o_plan]. destruct (o_plan o); [|apply clip_near; auto; apply Rabs_le; lra].
  assert (OS : sized (26000 * b) (overlap_term (p_previousUw prev) (noise_wave o cur noise) (Z.of_nat n))) by (apply overlap_under; auto; lia). set (w := overlap_term _ _ _) in *. clearbody w. destruct OS as [FW BW].
  apply Rabs_le_inv in BW, Z1, Z2. assert (U : 0 < u24 <= 6e-8) by (unfold u24; lra). pose proof tiny_40 as T1. pose proof tiny_pos as T0.
  assert (S1 : Rabs (R_of v1 + R_of w) <= 27600 * b) by (apply Rabs_le; lra). assert (S2 : Rabs (R_of v2 + R_of w) <= 27600 * b) by (apply Rabs_le; lra).
  destruct (fadd_e v1 w F1 FW) as [A1 D1]; [unfold huge; lra|]. destruct (fadd_e v2 w F2 FW) as [A2 D2]; [unfold huge; lra|].
  assert (Q1 : u24 * Rabs (R_of v1 + R_of w) <= 6e-8 * (27600 * b)) by (apply Rmult_le_compat; auto using Rabs_pos; lra).
  assert (Q2 : u24 * Rabs (R_of v2 + R_of w) <= 6e-8 * (27600 * b)) by (apply Rmult_le_compat; auto using Rabs_pos; lra).
  apply clip_near; auto. apply Rabs_le_inv in D1, D2. apply Rabs_le. lra.
Qed.
Lemma all_voiced_smoothed : forall e cur prev, (1 <= p_L cur <= 56)%Z -> all_voiced cur -> all_voiced (smoothing_result o e cur prev).
Proof.
  intros e cur prev HL V l Hl. change (p_L (smoothing_result o e cur prev)) with (p_L cur) in Hl. set (v := voicing_limit o (p_errorRate cur) (p_errorCountTotal cur) (p_errorCount4 cur) (running_energy (p_localEnergy prev) e)).
  change (p_Vl (smoothing_result o e cur prev)) with (replaced 0%Z 1 (p_L cur) (fun l => if fgt (cell zero (p_Ml cur) l) v then 1%Z else cell 0%Z (p_Vl cur) l) (p_Vl cur)).
  rewrite cell_replaced by lia. replace ((1 <=? l) && (l <=? p_L cur))%Z with true by lia. destruct (fgt _ _); [discriminate|apply V, Hl].
Qed.
Lemma speech_both : forall s1 s2 aout a cur prev uvq t, wf_parms cur -> wf_parms prev -> (1 <= p_L cur <= 56)%Z -> (0 <= p_L prev <= 56)%Z -> generator_seed (p_noiseSeed cur) ->
  length aout = 160%nat -> (0 <= p_errorCountTotal cur <= 20)%Z -> (p_amplitudeThreshold prev <= 2000000000)%Z ->
  amplitudes_to b cur -> amplitudes_to b prev -> numeric cur -> numeric prev -> Forall (sized (5000 * b)) (p_previousUw prev) -> all_voiced cur ->
  exists s s' cur' prev' t', mbe_synthesizeSpeechf (in_build s1 o) aout a cur prev uvq t = Ok (s, cur', prev', t') /\
    mbe_synthesizeSpeechf (in_build s2 o) aout a cur prev uvq t = Ok (s', cur', prev', t') /\ Forall2 (fun x y => Rabs (R_of x - R_of y) <= b / 50) s s'.
Proof.
  intros s1 s2 aout a cur prev uvq t WC WP HL HP G LA HE HT AC AP NC NP UP AV.
  assert (PW : pitch_in_range (p_w0 cur)) by (apply pitch_range_of; split; apply NC).
  set (e := SpecSynth.frame_energy t a cur). assert (AS : amplitudes_to b (smoothing_result o e cur prev)).
  { apply smoothed_amplitudes; auto; [apply WC|lia|]. unfold amplitude_limit. destruct (_ && _); [lia|]. destruct (Z.leb_spec (p_amplitudeThreshold prev) 0); lia. }
  assert (NS : numeric (smoothing_result o e cur prev)) by (exact NC).
  destruct (muted cur) eqn:M.
  - assert (K : forall simd, mbe_synthesizeSpeechf (in_build simd o) aout a cur prev uvq t = mbe_synthesizeSpeechf (in_build s2 o) aout a cur prev uvq t).
    { intros simd. unfold mbe_synthesizeSpeechf. rewrite !(smoothing_formula _ a cur prev t WC ltac:(lia) ltac:(lia) HT). cbn [bind].
      change (smoothing_result (in_build simd o)) with (smoothing_result o). change (smoothing_result (in_build s2 o)) with (smoothing_result o).
      pose proof (smoothing_formula o a cur prev t WC ltac:(lia) ltac:(lia) HT) as E. apply smoothing_but in E. apply muted_smoothing in E. fold e in E |- *. rewrite E, muted_eq, M. reflexivity. }
    rewrite (K s1). unfold mbe_synthesizeSpeechf. pose proof (smoothing_formula (in_build s2 o) a cur prev t WC ltac:(lia) ltac:(lia) HT) as E. rewrite E. cbn [bind].
    apply smoothing_but in E. apply muted_smoothing in E. rewrite E, muted_eq, M. clear E. set (t1 := if pending t a then clear_pending t else t).
    destruct (mbe_synthesizeComfortNoisef aout t1) as [[s t2]|w] eqn:EC; [|rewrite comfort_frame in EC by exact LA; discriminate EC].
    cbn [bind]. eexists _, _, _, _, _. split; [reflexivity|]. split; [reflexivity|]. clear EC. induction s as [|x s IH]; constructor; auto. unfold Rminus. rewrite Rplus_opp_r, Rabs_R0. lra.
  - rewrite !speech_formula by (auto; lia). fold e. set (t1 := if pending t a then clear_pending t else t).
    change (smoothing_result (in_build s1 o) e cur prev) with (smoothing_result o e cur prev). change (smoothing_result (in_build s2 o) e cur prev) with (smoothing_result o e cur prev).
    pose proof (all_voiced_smoothed e cur prev HL AV) as AV'. set (sm := smoothing_result o e cur prev) in *. unfold spoken.
    assert (SC : spoken_cur (in_build s1 o) sm prev t1 = spoken_cur (in_build s2 o) sm prev t1).
    { unfold spoken_cur. cbn [in_build o_plan]. destruct (o_plan o); [|reflexivity]. unfold noise_wave. cbn [in_build o_simd]. rewrite (shaped_voiced s1), (shaped_voiced s2) by exact AV'. reflexivity. }
    rewrite SC. eexists _, _, _, _, _. split; [reflexivity|]. split; [reflexivity|].
    assert (Q : forall ns, (forall n, In n ns -> (n < 160)%nat) -> Forall2 (fun x y => Rabs (R_of x - R_of y) <= b / 50) (map (spoken_sample (in_build s1 o) sm prev t1) ns) (map (spoken_sample (in_build s2 o) sm prev t1) ns)).
    { induction ns as [|n ns IH]; intros H; cbn [map]; constructor; [|apply IH; intros; apply H; now right]. apply spoken_both; auto. apply H. now left. }
    apply Q. intros n Hn. apply in_seq in Hn. lia.
Qed.
End Frames.
Lemma power_both : forall simd x a b, length x = 256%nat -> Forall (sized 1e15) x -> (0 <= a)%Z -> (b <= 128)%Z ->
  exists p, mbe_magnitude_squared_sum simd x a b = Ok p /\ agrees p (exact_band x a b) (exact_band x a b).
Proof. intros simd x a b L X Ha Hb. eexists. split; [apply PPower.power_value; auto|apply band_agrees; auto]. Qed.
Lemma same_parts : forall simd, (forall L gamma Ml, (0 <= L < Z.of_nat (length Ml))%Z -> enh_scale simd L gamma Ml = enh_scale Scalar L gamma Ml) /\
  (forall scale u, length u = 256%nat -> normalize simd scale u = normalize Scalar scale u).
Proof.
  intros simd. split; [intros L gamma Ml H; rewrite !PMoment.scale_value by exact H; reflexivity|intros scale u H; rewrite !PPower.normalize_scalar by exact H; reflexivity].
Qed.
Lemma voiced_numeric : forall o, accurate_angles o -> forall b, 1 <= b <= 1e12 -> forall simd cur prev n, (Z.max (p_L cur) (p_L prev) <= 56)%Z -> (n < 160)%nat -> numeric cur -> numeric prev ->
  (forall l, (1 <= l <= Z.max (p_L cur) (p_L prev))%Z -> sized b (cell zero (p_Ml cur) l) /\ sized b (cell zero (p_Ml prev) l)) ->
  agrees (voiced_sample (in_build simd o) cur prev n) (exact_voiced o cur prev n) (392 * b).
Proof. intros o A b B simd cur prev n HL Hn NC NP HM. apply voiced_both; auto; try (split; apply NC || apply NP); apply NC || apply NP. Qed.
Lemma rd_of_repeat : forall {A} (x : A) m n, (n < m)%nat -> rd (repeat x m) (Z.of_nat n) = Ok x.
Proof. intros A x m n H. rewrite (PLoop.rd_nth' x (repeat x m) (Z.of_nat n) n eq_refl) by (rewrite repeat_length; exact H). now rewrite nth_repeat. Qed.
(* the loop over the harmonics, from silence *)
Lemma voiced_loop : forall o, accurate_angles o -> forall b, 1 <= b <= 1e12 -> forall simd cur prev, wf_parms cur -> wf_parms prev ->
  (0 <= Z.max (p_L cur) (p_L prev) <= 56)%Z -> numeric cur -> numeric prev ->
  (forall l, (1 <= l <= Z.max (p_L cur) (p_L prev))%Z -> sized b (cell zero (p_Ml cur) l) /\ sized b (cell zero (p_Ml prev) l)) ->
  exists out, for_up 1 (Z.max (p_L cur) (p_L prev) + 1) (add_harmonic (in_build simd o) (p_w0 cur) (p_w0 prev) cur prev) (repeat zero 160) = Ok out /\ length out = 160%nat /\
    forall n, (n < 160)%nat -> agrees (nth n out zero) (exact_voiced o cur prev n) (392 * b).
Proof.
  intros o A b B simd cur prev WC WP HL NC NP HM.
  destruct (PSynth.harmonics_value (in_build simd o) (p_w0 cur) (p_w0 prev) cur prev (Z.max (p_L cur) (p_L prev)) (repeat zero 160) WC WP) as (h & E & LH & PH); [lia|apply repeat_length|].
  exists h. split; [exact E|]. split; [exact LH|]. intros n Hn.
  pose proof (rd_of_repeat zero 160 n Hn) as Z0.
  specialize (PH (Z.of_nat n) zero ltac:(lia) Z0). rewrite Nat2Z.id in PH. fold (voiced_sample (in_build simd o) cur prev n) in PH.
  assert (V : nth n h zero = voiced_sample (in_build simd o) cur prev n) by (rewrite <- (Nat2Z.id n) at 1; apply PAmp.nth_rd; exact PH).
  rewrite V. apply voiced_numeric; auto. lia.
Qed.
(* the gains the library computes for the bins of a band *)
Lemma gains_both : forall simd x cur, Forall (sized 1e15) x -> length x = 256%nat -> wf_parms cur -> (0 <= p_L cur <= 56)%Z -> ff (p_w0 cur) -> 0 <= R_of (p_w0 cur) <= 1000 ->
  exists lo hi s, band_edges (p_L cur) (p_w0 cur) = Ok (lo, hi) /\ bin_scalors simd (p_L cur) (p_Vl cur) (p_Ml cur) x lo hi = Ok s /\ length s = 129%nat /\
  forall l bin, (1 <= l <= p_L cur)%Z -> (band_low cur l <= bin < band_high cur l)%Z -> ff (cell zero (p_Ml cur) l) -> 0 <= R_of (cell zero (p_Ml cur) l) <= 1e12 ->
    let p := exact_band x (band_low cur l) (band_high cur l) in
    (cell 0%Z (p_Vl cur) l <> 0%Z \/ p <= 0.99e-10 -> cell zero s bin = zero) /\
    (cell 0%Z (p_Vl cur) l = 0%Z -> 1.01e-10 <= p -> let g := exact_gain (cell zero (p_Ml cur) l) p (band_high cur l - band_low cur l) in
       ff (cell zero s bin) /\ Rabs (R_of (cell zero s bin) - g) <= g / 50000 + 1e-30).
Proof.
  intros simd x cur X LX WC HL F0 H0. assert (W : PWola.ok_pitch (p_w0 cur)) by (split; assumption).
  destruct (PWola.edges_ok (p_L cur) (p_w0 cur) HL W) as (lo & hi & E & LL & LH & P).
  assert (LO : forall l, (1 <= l <= p_L cur)%Z -> (0 <= band_low cur l)%Z). { intros l Hl. unfold band_low. destruct (PWola.edge_R (p_w0 cur) (l - 1) W) as [_ B1]; lia. }
  destruct (PSynth.scalors_value simd cur x lo hi HL W) as (s & ES & LS & Q); [apply WC|apply WC|exact LX| |].
  { intros l Hl. destruct (P l Hl) as [P1 P2]. rewrite P1, P2. specialize (LO l Hl). unfold band_low, band_high in *. split; f_equal; f_equal; lia. }
  exists lo, hi, s. split; [exact E|]. split; [exact ES|]. split; [exact LS|]. intros l bin Hl Hb FM HM.
  assert (G : cell zero s bin = band_gain simd x cur l).
  { apply PSynth.rd_cell. rewrite Q by (specialize (LO l Hl); unfold band_high in Hb; lia). f_equal. unfold bin_gain.
    destruct (find _ (upto (p_L cur))) as [k|] eqn:FD.
    - apply find_some in FD as [Hk Hc]. apply PSynth.in_upto in Hk. f_equal. apply andb_prop in Hc as [C1 C2]. apply Z.leb_le in C1. apply Z.ltb_lt in C2. unfold band_low, band_high in *.
      destruct (Z.lt_trichotomy k l) as [K|[K|K]]; [|exact K|]; exfalso.
      + pose proof (PWola.edge_mono (p_w0 cur) k (l - 1) W ltac:(lia) ltac:(lia) ltac:(lia)). lia.
      + pose proof (PWola.edge_mono (p_w0 cur) l (k - 1) W ltac:(lia) ltac:(lia) ltac:(lia)). lia.
    - exfalso. assert (I : List.In l (upto (p_L cur))). { apply in_map_iff. exists (Z.to_nat l). split; [lia|]. apply in_seq. lia. }
      pose proof (find_none _ _ FD l I) as N. cbv beta in N. apply andb_false_iff in N as [N|N]; [apply Z.leb_gt in N|apply Z.ltb_ge in N]; lia. }
  rewrite G. apply gain_both; auto.
Qed.
