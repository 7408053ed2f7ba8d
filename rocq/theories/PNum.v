(* Sizes of numbers under single precision arithmetic, and the voiced part of a frame of moderate amplitudes. *)
From Coq Require Import ZArith Reals Lra Lia List Bool.
From Verif Require Import Res F32 MParms MSynth SpecAdaptive SpecGen SpecWola SpecOut SpecAmp SpecSynth SpecTrig SpecFftErr SpecNum PFloat PFloat2 PReal PPredict PGen PSpeech PSynth POsc PEnh3.
From Flocq Require Import Core.Core.
Import ListNotations.
Local Open Scope R_scope.

Ltac u_hyps := pose proof u_facts as [[U0 U1] [T0 T1]].
(* ---- one operation ---- *)
Lemma s_round : forall r s a c, Rabs (s - r) <= u24 * Rabs r + tiny -> Rabs r <= a -> a * 1.000001 + 1e-30 <= c -> Rabs s <= c.
Proof.
  intros r s a c E H C. u_hyps. assert (Q : Rabs s <= Rabs r + (u24 * Rabs r + tiny)) by (replace s with (r + (s - r)) by ring; eapply Rle_trans; [apply Rabs_triang|lra]).
  assert (P : 0 <= Rabs r) by apply Rabs_pos. assert (u24 * Rabs r <= / 1000000 * a) by (apply Rmult_le_compat; lra). lra.
Qed.
Lemma s_weak : forall a b x, sized a x -> a <= b -> sized b x.
Proof. intros a b x [F H] L. split; [exact F|lra]. Qed.
Lemma s_pos : forall a x, sized a x -> 0 <= a.
Proof. intros a x [_ H]. eapply Rle_trans; [apply Rabs_pos|exact H]. Qed.
Lemma s_add : forall x y a b c, sized a x -> sized b y -> (a + b) * 1.000001 + 1e-30 <= c -> c <= 3.4e38 -> sized c (fadd x y).
Proof.
  intros x y a b c X Y C H. pose proof (s_pos _ _ X). pose proof (s_pos _ _ Y). destruct X as [FX X], Y as [FY Y]. assert (B : Rabs (R_of x + R_of y) <= a + b) by (eapply Rle_trans; [apply Rabs_triang|lra]).
  destruct (fadd_e x y FX FY) as [F E]; [unfold huge; lra|]. split; [exact F|]. exact (s_round _ _ _ _ E B C).
Qed.
Lemma s_sub : forall x y a b c, sized a x -> sized b y -> (a + b) * 1.000001 + 1e-30 <= c -> c <= 3.4e38 -> sized c (fsub x y).
Proof.
  intros x y a b c X Y C H. pose proof (s_pos _ _ X). pose proof (s_pos _ _ Y). destruct X as [FX X], Y as [FY Y].
  assert (B : Rabs (R_of x - R_of y) <= a + b) by (unfold Rminus; eapply Rle_trans; [apply Rabs_triang|rewrite Rabs_Ropp; lra]).
  destruct (fsub_e x y FX FY) as [F E]; [unfold huge; lra|]. split; [exact F|]. exact (s_round _ _ _ _ E B C).
Qed.
Lemma s_mul : forall x y a b c, sized a x -> sized b y -> (a * b) * 1.000001 + 1e-30 <= c -> c <= 3.4e38 -> sized c (fmul x y).
Proof.
  intros x y a b c X Y C H. pose proof (s_pos _ _ X). pose proof (s_pos _ _ Y). destruct X as [FX X], Y as [FY Y]. assert (B : Rabs (R_of x * R_of y) <= a * b) by (rewrite Rabs_mult; apply Rmult_le_compat; try apply Rabs_pos; assumption).
  assert (0 <= a * b) by (apply Rmult_le_pos; lra).
  destruct (fmul_e x y FX FY) as [F E]; [unfold huge; lra|]. split; [exact F|]. exact (s_round _ _ _ _ E B C).
Qed.
Lemma s_div : forall x y a d c, sized a x -> ff y -> 0 < d <= R_of y -> (a / d) * 1.000001 + 1e-30 <= c -> c <= 3.4e38 -> sized c (fdiv x y).
Proof.
  intros x y a d c X FY Y C H. pose proof (s_pos _ _ X). destruct X as [FX X].
  assert (B : Rabs (R_of x / R_of y) <= a / d).
  { unfold Rdiv. rewrite Rabs_mult, (Rabs_pos_eq (/ R_of y)) by (left; apply Rinv_0_lt_compat; lra). apply Rmult_le_compat; [apply Rabs_pos|left; apply Rinv_0_lt_compat; lra|exact X|apply Rinv_le_contravar; lra]. }
  assert (0 <= a / d) by (unfold Rdiv; apply Rmult_le_pos; [lra|left; apply Rinv_0_lt_compat; lra]).
  destruct (fdiv_e x y FX FY) as [F E]; [lra|unfold huge; lra|]. split; [exact F|]. exact (s_round _ _ _ _ E B C).
Qed.
Lemma s_int : forall z a, (Z.abs z <= 16777216)%Z -> IZR (Z.abs z) <= a -> sized a (f_of_Z z).
Proof. intros z a H B. destruct (of_Z_R z) as [F E]; [lia|]. split; [exact F|]. rewrite E, <- abs_IZR. exact B. Qed.
Lemma s_zero : forall a, 0 <= a -> sized a zero.
Proof. intros a H. split; [split; reflexivity|]. change (R_of zero) with 0. rewrite Rabs_R0. exact H. Qed.
Lemma s_cell : forall b l i, 0 <= b -> Forall (sized b) l -> sized b (cell zero l i).
Proof. intros b l i B H. unfold cell. rewrite Forall_forall in H. destruct (nth_in_or_default (Z.to_nat i) l zero) as [I|E]; [apply H, I|rewrite E; apply s_zero, B]. Qed.
Lemma s_close : forall x r e c, near x r e -> Rabs r + e <= c -> sized c x.
Proof. intros x r e c [F H] C. split; [exact F|]. replace (R_of x) with (r + (R_of x - r)) by ring. eapply Rle_trans; [apply Rabs_triang|lra]. Qed.

(* a sum of at most 1000 numbers *)
Lemma s_fold : forall l c a x, 1e-20 <= c <= 1e25 -> Forall (sized c) l -> sized (2 * a * c) x -> 0 <= a -> a + INR (length l) <= 1000 -> sized (2 * (a + INR (length l)) * c) (fold_left fadd l x).
Proof.
  induction l as [|y l IH]; intros c a x C F X A N.
  - cbn [fold_left length INR]. rewrite Rplus_0_r. exact X.
  - inversion F as [|? ? Y F']; subst. cbn [fold_left]. change (length (y :: l)) with (S (length l)) in *. rewrite S_INR in *. pose proof (pos_INR (length l)).
    replace (a + (INR (length l) + 1)) with ((a + 1) + INR (length l)) by ring. apply IH; auto; try lra.
    assert (K : 0 <= a * c <= 1000 * c) by (split; [apply Rmult_le_pos; lra|apply Rmult_le_compat_r; lra]).
    apply (s_add x y (2 * a * c) c); [exact X|exact Y|lra|lra].
Qed.
Lemma s_total : forall l c b, 1e-20 <= c <= 1e25 -> Forall (sized c) l -> INR (length l) <= 1000 -> 2 * INR (length l) * c <= b -> sized b (fold_left fadd l zero).
Proof.
  intros l c b C F N B. pose proof (s_fold l c 0 zero C F) as H. rewrite Rplus_0_l in H. eapply s_weak; [apply H; try lra|exact B]. apply s_zero. lra.
Qed.

(* ---- phases ---- *)
Lemma wrap_sized : forall x, ff x -> sized 7 (wrap x).
Proof.
  intros x F. destruct (wrap_R x F) as (A & B & _). split; [exact A|]. change (wrap x) with (wrap_phase x). pose proof two_pi_R. rewrite Rabs_pos_eq; lra.
Qed.
Definition pitch_one (w : f32) : Prop := ff w /\ 0 <= R_of w <= 1.
Lemma pitch_sized : forall w, pitch_one w -> sized 1 w.
Proof. intros w [F H]. split; [exact F|]. rewrite Rabs_pos_eq; lra. Qed.
Lemma two_R : ff (f_of_Z 2) /\ R_of (f_of_Z 2) = 2.
Proof. destruct (of_Z_R 2) as [A B]; [lia|]. auto. Qed.
Lemma advance_sized : forall cw0 pw0 l x, pitch_one cw0 -> pitch_one pw0 -> (1 <= l <= 56)%Z -> sized 7 x -> sized 8975 (advance cw0 pw0 l x).
Proof.
  intros cw0 pw0 l x C P Hl X. unfold advance. apply pitch_sized in C, P. destruct two_R as [F2 R2].
  assert (B : IZR (Z.abs (l * 160)) <= 8960) by (apply IZR_le; lia).
  assert (I : sized 8960 (f_of_Z (l * 160))) by (apply s_int; [lia|exact B]).
  assert (D : sized 4481 (fdiv (f_of_Z (l * 160)) (f_of_Z 2))) by (apply (s_div _ _ 8960 2); auto; lra).
  assert (S : sized 2.001 (fadd pw0 cw0)) by (apply (s_add _ _ 1 1); auto; lra).
  apply (s_add _ _ 7 8967); auto; try lra. apply (s_mul _ _ 2.001 4481); auto; try lra.
Qed.
Lemma pi_sized : sized 3.15 (d2f M_PI).
Proof. split; [apply ff_const; vm_compute; reflexivity|]. R_val (d2f M_PI). intros. apply Rabs_le. lra. Qed.
Lemma two_pi_sized : sized 6.3 two_pi.
Proof. split; [apply ff_const; vm_compute; reflexivity|]. R_val two_pi. intros. apply Rabs_le. lra. Qed.
Lemma two_pi_low : ff two_pi /\ 6.2 <= R_of two_pi.
Proof. split; [apply ff_const; vm_compute; reflexivity|]. R_val two_pi. intros. lra. Qed.
Lemma int_R : forall z, (0 <= z <= 16777216)%Z -> ff (f_of_Z z) /\ R_of (f_of_Z z) = IZR z.
Proof. intros z H. apply of_Z_R. lia. Qed.
Lemma noise_angle_sized : forall u, sized 60000 u -> sized 12 (noise_angle u).
Proof.
  intros u U. unfold noise_angle. destruct (int_R 53125) as [F E]; [lia|].
  assert (D : sized 0.00013 (fdiv two_pi (f_of_Z 53125))) by (apply (s_div _ _ 6.3 53125); [exact two_pi_sized|exact F|rewrite E; lra|lra|lra]).
  assert (M : sized 8 (fmul (fdiv two_pi (f_of_Z 53125)) u)) by (apply (s_mul _ _ 0.00013 60000); auto; lra).
  apply (s_sub _ _ 8 3.15); auto; try lra. exact pi_sized.
Qed.
Lemma unvoiced_count_range : forall m, (0 <= p_L m <= 56)%Z -> (0 <= unvoiced_count m <= 57)%Z.
Proof.
  intros m H. unfold unvoiced_count. assert (F : forall l : list Z, (length (filter (Z.eqb 0) l) <= length l)%nat) by (induction l as [|a l IH]; cbn [filter length]; [lia|destruct (Z.eqb 0 a); cbn [length]; lia]).
  pose proof (F (firstn (Z.to_nat (p_L m + 1)) (p_Vl m))). pose proof (firstn_le_length (Z.to_nat (p_L m + 1)) (p_Vl m)).
  rewrite firstn_length in *. lia.
Qed.
Lemma phase_sized : forall cur prev l, pitch_one (p_w0 cur) -> pitch_one (p_w0 prev) -> Forall (sized 20000) (p_PSIl prev) -> (1 <= l <= 56)%Z -> sized 8975 (phase cur prev l).
Proof.
  intros cur prev l C P S Hl. unfold phase. apply advance_sized; auto. apply wrap_sized. assert (H : sized 20000 (cell zero (p_PSIl prev) l)) by (apply s_cell; [lra|exact S]). apply H.
Qed.
Lemma voice_phase_sized : forall cur prev noise l, pitch_one (p_w0 cur) -> pitch_one (p_w0 prev) -> Forall (sized 20000) (p_PSIl prev) -> Forall (sized 60000) noise ->
  (1 <= p_L cur <= 56)%Z -> (1 <= l <= 56)%Z -> sized 10000 (voice_phase cur prev noise l).
Proof.
  intros cur prev noise l C P S N HL Hl. unfold voice_phase. pose proof (phase_sized cur prev l C P S Hl) as Q. destruct (l <=? _)%Z; [apply (s_weak 8975); [exact Q|lra]|].
  assert (U : sized 57 (f_of_Z (unvoiced_count cur))).
  { pose proof (unvoiced_count_range cur ltac:(lia)). apply s_int; [lia|]. apply IZR_le. lia. }
  assert (A : sized 12 (noise_angle (cell zero noise l))) by (apply noise_angle_sized, s_cell; [lra|exact N]).
  destruct (int_R (p_L cur)) as [F E]; [lia|]. assert (1 <= IZR (p_L cur)) by (apply IZR_le; lia).
  apply (s_add _ _ 8975 690); auto; try lra. apply (s_div _ _ 685 1); auto; try lra. apply (s_mul _ _ 57 12); auto; lra.
Qed.

(* ---- the terms of the voiced part ---- *)
Definition small1 (x : f32) : bool := valid_binary 24 128 x && is_finite_sf x && fle (fabs x) (f_of_Z 1).
Lemma small1_sized : forall x, small1 x = true -> sized 1 x.
Proof.
  intros x H. unfold small1 in H. apply andb_true_iff in H as [H C]. apply andb_true_iff in H as [A B]. assert (F : ff x) by (split; [exact A|exact B]). split; [exact F|].
  destruct (of_Z_R 1) as [F1 E1]; [lia|]. apply fle_true in C; [|apply fabs_ff, F|exact F1]. rewrite R_fabs, E1 in C. exact C.
Qed.
Lemma fade_sized : forall i, (0 <= i < 320)%Z -> sized 1 (fade i).
Proof.
  assert (K : forallb (fun i => small1 (fade i)) (map Z.of_nat (seq 0 320)) = true) by (vm_compute; reflexivity).
  intros i H. rewrite forallb_forall in K. apply small1_sized, K. apply in_map_iff. exists (Z.to_nat i). split; [lia|]. apply in_seq. lia.
Qed.
Definition from0 (b : R) (x : f32) : Prop := ff x /\ 0 <= R_of x <= b.
Lemma from0_sized : forall b x, from0 b x -> sized b x.
Proof. intros b x [F H]. split; [exact F|]. rewrite Rabs_pos_eq; lra. Qed.
Lemma cos_sized : forall o x, accurate_angles o -> sized 1000000 x -> sized 1.01 (cosf o x).
Proof.
  intros o x A [F B]. destruct (A x F B) as (C & _ & D & _). split; [exact C|]. pose proof (COS_bound (R_of x)). revert D. unfold Rabs. repeat destruct (Rcase_abs _); lra.
Qed.
Lemma oscillator_sized : forall o a w n, accurate_angles o -> sized 1000000 a -> sized 1000000 w -> (n <= 160)%nat -> sized 1.01 (oscillator o a w n).
Proof.
  intros o a w n A [Fa Ha] [Fw Hw] Hn. apply (s_close _ _ _ _ (oscillator_near o a w n Hn (A a Fa Ha) (A w Fw Hw))).
  pose proof (COS_bound (R_of a + INR n * R_of w)). unfold Rabs. destruct (Rcase_abs _); lra.
Qed.
Section Terms.
Context (o : oracle) (A : accurate_angles o) (b : R) (B : 1 <= b <= 1e12).
Lemma faded_sized : forall i m a w n, (0 <= i < 320)%Z -> sized b m -> sized 1000000 a -> sized 1000000 w -> (n <= 160)%nat -> sized (7 * b) (faded o (fade i) m a w n).
Proof.
  intros i m a w n Hi M Ha Hw Hn. unfold faded. pose proof (fade_sized i Hi) as F. assert (T : sized 2 (f_of_Z 2)) by (apply s_int; [lia|apply IZR_le; lia]).
  destruct (lanes4 (o_simd o)).
  { assert (O1 : sized 1.02 (fmul (oscillator o a w n) (fade i))) by (apply (s_mul _ _ 1.01 1); auto; try lra; now apply oscillator_sized).
    assert (O2 : sized (2.1 * b) (fmul (f_of_Z 2) m)) by (apply (s_mul _ _ 2 b); auto; lra).
    apply (s_mul _ _ 1.02 (2.1 * b)); auto; lra. }
  assert (M1 : sized 2.1 (fmul (f_of_Z 2) (fade i))) by (apply (s_mul _ _ 2 1); auto; lra).
  assert (M2 : sized (2.2 * b) (fmul (fmul (f_of_Z 2) (fade i)) m)) by (apply (s_mul _ _ 2.1 b); auto; lra).
  apply (s_mul _ _ (2.2 * b) 1.01); auto; try lra. now apply oscillator_sized.
Qed.
Lemma glide_sized : forall l cw0 pw0 pc pp mc mp n, (1 <= l <= 8)%Z -> (0 <= n < 160)%Z -> pitch_one cw0 -> pitch_one pw0 -> sized 20000 pc -> sized 20000 pp ->
  sized b mc -> sized b mp -> sized (7 * b) (glide o l cw0 pw0 pc pp mc mp n).
Proof.
  intros l cw0 pw0 pc pp mc mp n Hl Hn C P PC PP MC MP. unfold glide. apply pitch_sized in C, P. pose proof pi_sized as PI'. pose proof two_pi_sized as TP. destruct two_pi_low as [TF TL].
  assert (I2 : sized 2 (f_of_Z 2)) by (apply s_int; [lia|apply IZR_le; lia]). destruct two_R as [F2 E2].
  assert (Il : sized 8 (f_of_Z l)) by (apply s_int; [lia|apply IZR_le; lia]).
  assert (In' : sized 160 (f_of_Z n)) by (apply s_int; [lia|apply IZR_le; lia]).
  assert (Ilp : sized 1280 (f_of_Z (l * 160))) by (apply s_int; [lia|apply IZR_le; lia]).
  assert (Hq : (0 <= l * n * n <= 8 * 160 * 160)%Z) by nia.
  assert (Iq : sized 204800 (f_of_Z (l * n * n))) by (apply s_int; [lia|apply IZR_le; lia]).
  destruct (int_R 160) as [F160 E160]; [lia|]. destruct (int_R 320) as [F320 E320]; [lia|].
  assert (I1 : sized 1 (f_of_Z 1)) by (apply s_int; [lia|apply IZR_le; lia]).
  set (dphi := fsub (fsub pc pp) _). assert (D : sized 42000 dphi).
  { apply (s_sub _ _ 40001 1300); try lra; [apply (s_sub _ _ 20000 20000); auto; lra|]. apply (s_div _ _ 2570 2); auto; try lra. apply (s_mul _ _ 2.001 1280); auto; try lra. apply (s_add _ _ 1 1); auto; lra. }
  assert (Y : sized 6800 (fdiv (fadd dphi (d2f M_PI)) two_pi)).
  { apply (s_div _ _ 42004 6.2); auto; try lra. apply (s_add _ _ 42000 3.15); auto; lra. }
  assert (FL : sized 6801 (ffloor (fdiv (fadd dphi (d2f M_PI)) two_pi))).
  { destruct Y as [YF YB]. destruct (ffloor_R _ YF) as [FF FE]; [lra|]. split; [exact FF|]. rewrite FE. revert YB. pose proof (Zfloor_lb (R_of (fdiv (fadd dphi (d2f M_PI)) two_pi))). pose proof (Zfloor_ub (R_of (fdiv (fadd dphi (d2f M_PI)) two_pi))). unfold Rabs. repeat destruct (Rcase_abs _); lra. }
  set (dw := fmul (fdiv (f_of_Z 1) (f_of_Z 160)) _). assert (DW : sized 600 dw).
  { apply (s_mul _ _ 0.00626 85000); try lra; [apply (s_div _ _ 1 160); auto; lra|]. apply (s_sub _ _ 42000 42900); auto; try lra. apply (s_mul _ _ 6.3 6801); auto; lra. }
  set (theta := fadd (fadd pp _) _). assert (TH : sized 1000000 theta).
  { apply (s_add _ _ 120000 1300); try lra.
    - apply (s_add _ _ 20000 98000); auto; try lra. apply (s_mul _ _ 610 160); auto; try lra. apply (s_add _ _ 8.1 600); auto; try lra. apply (s_mul _ _ 1 8); auto; lra.
    - apply (s_div _ _ 410000 320); auto; try lra. apply (s_mul _ _ 2.001 204800); auto; try lra. apply (s_sub _ _ 1 1); auto; lra. }
  pose proof (cos_sized o theta A TH) as CS.
  assert (AM : sized (3.1 * b) (fadd mp (fmul (fdiv (f_of_Z n) (f_of_Z 160)) (fsub mc mp)))).
  { apply (s_add _ _ b (2.03 * b)); auto; try lra. apply (s_mul _ _ 1.001 (2.01 * b)); try lra; [apply (s_div _ _ 160 160); auto; lra|]. apply (s_sub _ _ b b); auto; lra. }
  apply (s_mul _ _ (6.3 * b) 1.01); auto; try lra. apply (s_mul _ _ 2 (3.1 * b)); auto; lra.
Qed.
Lemma terms_sized : forall cur prev l n, (1 <= l <= 56)%Z -> (n < 160)%nat -> pitch_one (p_w0 cur) -> pitch_one (p_w0 prev) ->
  Forall (sized 20000) (p_PHIl cur) -> Forall (sized 20000) (p_PHIl prev) -> sized b (cell zero (p_Ml cur) l) -> sized b (cell zero (p_Ml prev) l) ->
  Forall (sized (7 * b)) (harmonic_terms o cur prev l n).
Proof.
  intros cur prev l n Hl Hn C P PC PP MC MP. unfold harmonic_terms. pose proof (s_cell 20000 _ l ltac:(lra) PC) as QC. pose proof (s_cell 20000 _ l ltac:(lra) PP) as QP.
  pose proof (pitch_sized _ C) as C1. pose proof (pitch_sized _ P) as P1.
  assert (Il : sized 56 (f_of_Z l)) by (apply s_int; [lia|apply IZR_le; lia]).
  assert (I160 : sized 160 (f_of_Z 160)) by (apply s_int; [lia|apply IZR_le; lia]).
  assert (WC : sized 57 (fmul (p_w0 cur) (f_of_Z l))) by (apply (s_mul _ _ 1 56); auto; lra).
  assert (WP : sized 57 (fmul (p_w0 prev) (f_of_Z l))) by (apply (s_mul _ _ 1 56); auto; lra).
  destruct (_ && _) eqn:E.
  - apply andb_true_iff in E as [E _]. apply andb_true_iff in E as [E _]. apply andb_true_iff in E as [E _]. apply Z.ltb_lt in E. constructor; [|constructor]. apply glide_sized; auto; lia.
  - apply Forall_app. split; (match goal with |- context [if ?c then _ else _] => destruct c end); try apply Forall_nil; apply Forall_cons; try apply Forall_nil.
    + apply faded_sized; auto; try lia; [apply (s_weak 20000)|apply (s_weak 57)]; auto; lra.
    + apply faded_sized; auto; try lia; [|apply (s_weak 57); auto; lra]. apply (s_weak 30000); [|lra]. apply (s_sub _ _ 20000 9200); auto; try lra. apply (s_mul _ _ 57 160); auto; lra.
Qed.
Lemma terms_length : forall cur prev l n, (length (harmonic_terms o cur prev l n) <= 2)%nat.
Proof. intros. unfold harmonic_terms. repeat match goal with |- context [if ?c then _ else _] => destruct c end; cbn [length app]; lia. Qed.
Lemma voiced_sized : forall cur prev n, (Z.max (p_L cur) (p_L prev) <= 56)%Z -> (n < 160)%nat -> pitch_one (p_w0 cur) -> pitch_one (p_w0 prev) ->
  Forall (sized 20000) (p_PHIl cur) -> Forall (sized 20000) (p_PHIl prev) ->
  (forall l, (1 <= l <= Z.max (p_L cur) (p_L prev))%Z -> sized b (cell zero (p_Ml cur) l) /\ sized b (cell zero (p_Ml prev) l)) ->
  sized (1600 * b) (voiced_sample o cur prev n).
Proof.
  intros cur prev n HL Hn C P PC PP HM. unfold voiced_sample. set (Lm := Z.max _ _) in *.
  set (ts := flat_map _ _). assert (LN : (length ts <= 112)%nat).
  { subst ts. assert (K : forall l, (length (flat_map (fun l => harmonic_terms o cur prev l n) l) <= 2 * length l)%nat).
    { induction l as [|x l IH]; cbn [flat_map length]; [lia|]. rewrite app_length. pose proof (terms_length cur prev x n). lia. }
    pose proof (K (upto Lm)) as K'. unfold upto in K' at 2. rewrite map_length, seq_length in K'. lia. }
  assert (LR : INR (length ts) <= 112) by (apply le_INR in LN; rewrite (INR_IZR_INZ 112) in LN; exact LN). pose proof (pos_INR (length ts)).
  apply (s_total ts (7 * b)); try lra.
  - apply Forall_forall. intros x Hx. apply in_flat_map in Hx as (l & Hl & Hx). apply in_upto in Hl. destruct (HM l Hl) as [M1 M2].
    assert (F : Forall (sized (7 * b)) (harmonic_terms o cur prev l n)) by (apply terms_sized; auto; lia). rewrite Forall_forall in F. now apply F.
  - assert (INR (length ts) * b <= 112 * b) by (apply Rmult_le_compat_r; lra). lra.
Qed.
End Terms.
