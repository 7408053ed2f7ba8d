(* Proofs about sums of products that may be fused. *)
From Coq Require Import ZArith List Bool Lia Reals Lra.
From Verif Require Import Res F32 Build MParms MSse MAdaptive MUnvoiced MSynth MFma SpecAmp SpecSynth SpecOut SpecState SpecFftErr SpecNum SpecBuild SpecFma PBase PRun PArr PFloat PReal PEnh3 PBuild.
From Flocq Require Import Core.Core IEEE754.BinarySingleNaN.
Import ListNotations.
Local Open Scope R_scope.

(* ---- one operation ---- *)
Lemma R_fin : forall s m e, R_of (SpecFloat.S754_finite s m e) = IZR (if s then Z.neg m else Z.pos m) * bpow radix2 e.
Proof. intros s m e. unfold R_of, BinarySingleNaN.SF2R, F2R. cbn [Fnum Fexp]. destruct s; reflexivity. Qed.
Lemma vf_norm : forall z e s, vf (SpecFloat.binary_normalize 24 128 z e s).
Proof. intros z e s. apply (vb_norm 24 128 Hp24 He24). Qed.
Lemma norm_r : forall z e r, F2R (Float radix2 z e) = r -> Rabs r <= huge ->
  ff (SpecFloat.binary_normalize 24 128 z e false) /\ R_of (SpecFloat.binary_normalize 24 128 z e false) = rndf r.
Proof.
  intros z e r E H. destruct (norm_R 24 128 Hp24 He24 z e false (fopp FLT_MAX) FLT_MAX) as [A B].
  { split; [apply fopp_max|]. split; [apply ff_max|]. rewrite E. now apply in_max. }
  split; [split; [apply vf_norm|exact A]|]. rewrite B, E. reflexivity.
Qed.
Lemma ffma_r : forall a b c, ff a -> ff b -> ff c -> Rabs (R_of c + R_of a * R_of b) <= huge ->
  ff (ffma a b c) /\ R_of (ffma a b c) = rndf (R_of c + R_of a * R_of b).
Proof.
  intros a b c A B C H.
  assert (ZA : forall s y, ff y -> R_of (fmul (SpecFloat.S754_zero s) y) = 0 /\ ff (fmul (SpecFloat.S754_zero s) y)).
  { intros s y [V F]. destruct y; try discriminate F; cbn; split; try reflexivity; split; reflexivity. }
  assert (ZB : forall s y, ff y -> R_of (fmul y (SpecFloat.S754_zero s)) = 0 /\ ff (fmul y (SpecFloat.S754_zero s))).
  { intros s y [V F]. destruct y; try discriminate F; cbn; split; try reflexivity; split; reflexivity. }
  assert (P0 : forall x, ff x -> R_of x = 0 -> R_of a * R_of b = 0 -> ff (fadd c x) /\ R_of (fadd c x) = rndf (R_of c + R_of a * R_of b)).
  { intros x X E Q. replace (R_of c + R_of a * R_of b) with (R_of c + R_of x) in * by lra. destruct (fadd_b c x _ _ C X fopp_max ff_max (in_max _ H)) as (A1 & _ & E1). split; [exact A1|exact E1]. }
  destruct a as [sa| | |sa ma ea]; try (destruct A as [_ A]; discriminate A).
  { destruct (ZA sa b B) as [E F]. change (ffma (SpecFloat.S754_zero sa) b c) with (fadd c (fmul (SpecFloat.S754_zero sa) b)). apply P0; auto. change (R_of (SpecFloat.S754_zero sa)) with 0. ring. }
  destruct b as [sb| | |sb mb eb]; try (destruct B as [_ B]; discriminate B).
  { destruct (ZB sb _ A) as [E F]. change (ffma (SpecFloat.S754_finite sa ma ea) (SpecFloat.S754_zero sb) c) with (fadd c (fmul (SpecFloat.S754_finite sa ma ea) (SpecFloat.S754_zero sb))). apply P0; auto. change (R_of (SpecFloat.S754_zero sb)) with 0. ring. }
  destruct c as [sc| | |sc mc ec]; try (destruct C as [_ C]; discriminate C).
  { change (ffma (SpecFloat.S754_finite sa ma ea) (SpecFloat.S754_finite sb mb eb) (SpecFloat.S754_zero sc)) with (fmul (SpecFloat.S754_finite sa ma ea) (SpecFloat.S754_finite sb mb eb)).
    change (R_of (SpecFloat.S754_zero sc)) with 0 in *. rewrite Rplus_0_l in *. destruct (fmul_b _ _ _ _ A B fopp_max ff_max (in_max _ H)) as (A1 & _ & E1). split; [exact A1|exact E1]. }
  cbn [ffma]. cbv zeta. apply norm_r; [|exact H]. rewrite !R_fin. set (e := Z.min (ea + eb) ec). unfold F2R. cbn [Fnum Fexp].
  rewrite plus_IZR, !mult_IZR. change 2%Z with (radix_val radix2). rewrite !IZR_Zpower by (unfold e; lia).
  rewrite Rmult_plus_distr_r, !Rmult_assoc, <- !bpow_plus. replace (ea + eb - e + e)%Z with (ea + eb)%Z by lia. replace (ec - e + e)%Z with ec by lia. rewrite bpow_plus.
  replace (IZR (if xorb sa sb then Z.neg (ma * mb) else Z.pos (ma * mb))) with (IZR (if sa then Z.neg ma else Z.pos ma) * IZR (if sb then Z.neg mb else Z.pos mb)); [ring|].
  rewrite <- mult_IZR. f_equal. destruct sa, sb; reflexivity.
Qed.

Lemma ffma_e : forall a b c, ff a -> ff b -> ff c -> Rabs (R_of c + R_of a * R_of b) <= huge -> Rabs (R_of a * R_of b) <= huge ->
  ff (ffma a b c) /\ Rabs (R_of (ffma a b c) - (R_of c + R_of a * R_of b)) <= u24 * Rabs (R_of c + R_of a * R_of b) + tiny.
Proof. intros a b c A B C H HP. destruct (ffma_r a b c A B C H) as [F E]. split; [exact F|]. rewrite E. apply rnd_rel. Qed.
(* ---- accumulators: s is r up to n rounding steps, m bounds the sizes; M is the sum of all sizes ---- *)
Section Acc.
Context (M : R) (HM : 0 <= M <= 9e34).
Definition unit_err : R := 5 * u24 * M + 12 * tiny.
Definition acc (n : nat) (s : f32) (r m : R) : Prop := ff s /\ Rabs r <= m /\ Rabs (R_of s - r) <= INR n * unit_err.
Lemma unit_pos : 0 <= unit_err.
Proof. unfold unit_err. pose proof tiny_pos. assert (0 <= u24 * M) by (apply Rmult_le_pos; [unfold u24; lra|lra]). lra. Qed.
Lemma acc_size : forall n s r m, acc n s r m -> m <= M -> (n <= 400)%nat -> Rabs (R_of s) <= 1.001 * M + 5000 * tiny.
Proof.
  intros n s r m (F & A & E) B N. pose proof unit_pos as U. pose proof tiny_40 as T. pose proof tiny_pos as T0.
  assert (K : INR n * unit_err <= 400 * unit_err). { apply Rmult_le_compat_r; [exact U|]. apply le_INR in N. rewrite (INR_IZR_INZ 400) in N. exact N. }
  assert (Q : u24 * M <= 6e-8 * M) by (apply Rmult_le_compat_r; [lra|unfold u24; lra]). unfold unit_err in K.
  replace (R_of s) with ((R_of s - r) + r) by ring. eapply Rle_trans; [apply Rabs_triang|]. unfold unit_err in *. lra.
Qed.
Lemma acc_step : forall n s r m s' q t, acc n s r m -> ff s' -> Rabs q <= t -> Rabs (R_of s' - (R_of s + q)) <= unit_err -> acc (S n) s' (r + q) (m + t).
Proof.
  intros n s r m s' q t (F & A & E) F' Q D. split; [exact F'|]. split; [eapply Rle_trans; [apply Rabs_triang|]; lra|].
  rewrite S_INR. replace (R_of s' - (r + q)) with ((R_of s' - (R_of s + q)) + (R_of s - r)) by ring. eapply Rle_trans; [apply Rabs_triang|]. lra.
Qed.
Lemma acc_zero : acc 0 zero 0 0.
Proof. split; [split; reflexivity|]. change (R_of zero) with 0. rewrite Rminus_0_r, Rabs_R0. cbn [INR]. lra. Qed.
(* c + a b, where a b is q up to one rounding *)
Lemma acc_mac : forall f n s r m a b q t, acc n s r m -> m + t <= M -> (n <= 400)%nat -> ff a -> ff b -> Rabs q <= t -> Rabs (R_of a * R_of b - q) <= u24 * t + 2 * tiny ->
  acc (S n) (macc f s a b) (r + q) (m + t).
Proof.
  intros f n s r m a b q t A B N FA FB Q D. pose proof (Rabs_pos q) as Q0. assert (M0 : 0 <= m) by (destruct A as (_ & A & _); pose proof (Rabs_pos r); lra).
  pose proof (acc_size n s r m A ltac:(lra) N) as S. pose proof tiny_40 as T. pose proof tiny_pos as T0. set (p := R_of a * R_of b) in *.
  assert (U : 0 < u24 <= 6e-8) by (unfold u24; lra).
  assert (UT : 0 <= u24 * t <= 6e-8 * t) by (split; [apply Rmult_le_pos; lra|apply Rmult_le_compat_r; lra]).
  assert (P : Rabs p <= 1.0000001 * t + 2 * tiny). { replace p with ((p - q) + q) by ring. eapply Rle_trans; [apply Rabs_triang|]. lra. }
  assert (TM : u24 * t <= u24 * M) by (apply Rmult_le_compat_l; lra).
  assert (UM : 0 <= u24 * M) by (apply Rmult_le_pos; lra).
  assert (UTI : 0 <= u24 * tiny <= 6e-8 * tiny) by (split; [apply Rmult_le_pos; lra|apply Rmult_le_compat_r; lra]).
  assert (SU : u24 * Rabs (R_of s) <= 1.001 * (u24 * M) + tiny).
  { eapply Rle_trans; [apply Rmult_le_compat_l; [lra|exact S]|]. lra. }
  assert (PU : u24 * Rabs p <= 1.0000001 * (u24 * t) + tiny).
  { eapply Rle_trans; [apply Rmult_le_compat_l; [lra|exact P]|]. lra. }
  assert (SP : Rabs (R_of s + p) <= Rabs (R_of s) + Rabs p) by apply Rabs_triang.
  assert (FS : ff s) by apply A.
  destruct f; cbn [macc].
  - destruct (ffma_e a b s FA FB FS) as [F E]; [fold p; unfold huge; lra|fold p; unfold huge; lra|]. fold p in E.
    apply (acc_step n s r m _ q t A F Q). replace (R_of (ffma a b s) - (R_of s + q)) with ((R_of (ffma a b s) - (R_of s + p)) + (p - q)) by ring.
    eapply Rle_trans; [apply Rabs_triang|]. assert (K : u24 * Rabs (R_of s + p) <= u24 * (Rabs (R_of s) + Rabs p)) by (apply Rmult_le_compat_l; lra). unfold unit_err. lra.
  - destruct (fmul_e a b FA FB) as [F E]; [fold p; unfold huge; lra|]. fold p in E. set (x := fmul a b) in *.
    assert (XS : Rabs (R_of x) <= Rabs p + (u24 * Rabs p + tiny)). { replace (R_of x) with (p + (R_of x - p)) by ring. eapply Rle_trans; [apply Rabs_triang|]. lra. }
    assert (SX : Rabs (R_of s + R_of x) <= Rabs (R_of s) + (Rabs p + (u24 * Rabs p + tiny))). { eapply Rle_trans; [apply Rabs_triang|]. lra. }
    destruct (fadd_e s x FS F) as [F2 E2]; [unfold huge; lra|].
    apply (acc_step n s r m _ q t A F2 Q). replace (R_of (fadd s x) - (R_of s + q)) with ((R_of (fadd s x) - (R_of s + R_of x)) + ((R_of x - p) + (p - q))) by ring.
    eapply Rle_trans; [apply Rabs_triang|]. pose proof (Rabs_triang (R_of x - p) (p - q)).
    assert (K : u24 * Rabs (R_of s + R_of x) <= u24 * (Rabs (R_of s) + (Rabs p + (u24 * Rabs p + tiny)))) by (apply Rmult_le_compat_l; lra).
    assert (K2 : u24 * (u24 * Rabs p) <= 6e-8 * (u24 * Rabs p)) by (apply Rmult_le_compat_r; [apply Rmult_le_pos; [lra|apply Rabs_pos]|lra]). unfold unit_err. lra.
Qed.
(* the same where a term is added that is q up to three roundings *)
Lemma acc_term : forall n s r m x q t, acc n s r m -> m + t <= M -> (n <= 400)%nat -> ff x -> Rabs q <= t -> Rabs (R_of x - q) <= 2.01 * (u24 * t) + 4 * tiny ->
  acc (S n) (fadd s x) (r + q) (m + t).
Proof.
  intros n s r m x q t A B N F Q D. pose proof (Rabs_pos q) as Q0. assert (M0 : 0 <= m) by (destruct A as (_ & A & _); pose proof (Rabs_pos r); lra).
  pose proof (acc_size n s r m A ltac:(lra) N) as S. pose proof tiny_40 as T. pose proof tiny_pos as T0.
  assert (U : 0 < u24 <= 6e-8) by (unfold u24; lra).
  assert (UT : 0 <= u24 * t <= 6e-8 * t) by (split; [apply Rmult_le_pos; lra|apply Rmult_le_compat_r; lra]).
  assert (TM : 0 <= u24 * M) by (apply Rmult_le_pos; lra). assert (TT : u24 * (m + t) <= u24 * M) by (apply Rmult_le_compat_l; lra). assert (T1 : 0 <= u24 * m) by (apply Rmult_le_pos; lra).
  assert (UTI : 0 <= u24 * tiny <= 6e-8 * tiny) by (split; [apply Rmult_le_pos; lra|apply Rmult_le_compat_r; lra]).
  assert (XS : Rabs (R_of x) <= 1.000001 * t + 4 * tiny). { replace (R_of x) with ((R_of x - q) + q) by ring. eapply Rle_trans; [apply Rabs_triang|]. lra. }
  assert (SX : Rabs (R_of s + R_of x) <= (1.001 * M + 5000 * tiny) + (1.000001 * t + 4 * tiny)). { eapply Rle_trans; [apply Rabs_triang|]. lra. }
  destruct A as (FS & A & E). destruct (fadd_e s x FS F) as [F2 E2]; [unfold huge; lra|].
  apply (acc_step n s r m _ q t); auto; [split; auto|]. replace (R_of (fadd s x) - (R_of s + q)) with ((R_of (fadd s x) - (R_of s + R_of x)) + (R_of x - q)) by ring.
  eapply Rle_trans; [apply Rabs_triang|].
  assert (K : u24 * Rabs (R_of s + R_of x) <= u24 * ((1.001 * M + 5000 * tiny) + (1.000001 * t + 4 * tiny))) by (apply Rmult_le_compat_l; lra). unfold unit_err. lra.
Qed.
Lemma acc_add : forall n s r m k x q t, acc n s r m -> acc k x q t -> m + t <= M -> (n <= 400)%nat -> (k <= 400)%nat -> acc (S (n + k)) (fadd s x) (r + q) (m + t).
Proof.
  intros n s r m k x q t A A2 B N K. pose proof tiny_40 as T. pose proof tiny_pos as T0.
  assert (M0 : 0 <= m) by (destruct A as (_ & A & _); pose proof (Rabs_pos r); lra). assert (T1 : 0 <= t) by (destruct A2 as (_ & A2 & _); pose proof (Rabs_pos q); lra).
  pose proof (acc_size n s r m A ltac:(lra) N) as S. pose proof (acc_size k x q t A2 ltac:(lra) K) as S2.
  assert (U : 0 < u24 <= 6e-8) by (unfold u24; lra). assert (UM : 0 <= u24 * M) by (apply Rmult_le_pos; lra).
  assert (UTI : 0 <= u24 * tiny <= 6e-8 * tiny) by (split; [apply Rmult_le_pos; lra|apply Rmult_le_compat_r; lra]).
  destruct A as (FS & A & E). destruct A2 as (FX & A2 & E2).
  assert (SX : Rabs (R_of s + R_of x) <= (1.001 * M + 5000 * tiny) + (1.001 * M + 5000 * tiny)). { eapply Rle_trans; [apply Rabs_triang|]. lra. }
  destruct (fadd_e s x FS FX) as [F D]; [unfold huge; lra|]. split; [exact F|]. split; [eapply Rle_trans; [apply Rabs_triang|]; lra|].
  rewrite S_INR, plus_INR. replace (R_of (fadd s x) - (r + q)) with ((R_of (fadd s x) - (R_of s + R_of x)) + ((R_of s - r) + (R_of x - q))) by ring.
  eapply Rle_trans; [apply Rabs_triang|]. pose proof (Rabs_triang (R_of s - r) (R_of x - q)).
  assert (K' : u24 * Rabs (R_of s + R_of x) <= u24 * ((1.001 * M + 5000 * tiny) + (1.001 * M + 5000 * tiny))) by (apply Rmult_le_compat_l; lra).
  assert (D' : Rabs (R_of (fadd s x) - (R_of s + R_of x)) <= unit_err) by (unfold unit_err; lra). lra.
Qed.
Lemma acc_final : forall n s r, acc n s r M -> (n <= 300)%nat -> ff s /\ Rabs (R_of s - r) <= M / 10000 + 1e-36.
Proof.
  intros n s r (F & A & E) N. split; [exact F|]. pose proof unit_pos as U. pose proof tiny_40 as T. pose proof tiny_pos as T0.
  assert (K : INR n * unit_err <= 300 * unit_err). { apply Rmult_le_compat_r; [exact U|]. apply le_INR in N. rewrite (INR_IZR_INZ 300) in N. exact N. }
  assert (Q : u24 * M <= 6e-8 * M) by (apply Rmult_le_compat_r; [lra|unfold u24; lra]). unfold unit_err in *. lra.
Qed.
(* four lanes *)
Definition acc4 (n : nat) (v : m128) (r m : R) : Prop := exists r0 r1 r2 r3 m0 m1 m2 m3,
  acc n (lane0 v) r0 m0 /\ acc n (lane1 v) r1 m1 /\ acc n (lane2 v) r2 m2 /\ acc n (lane3 v) r3 m3 /\ r = r0 + r1 + r2 + r3 /\ m = m0 + m1 + m2 + m3.
Lemma acc_nonneg : forall n s r m, acc n s r m -> 0 <= m.
Proof. intros n s r m (_ & A & _). pose proof (Rabs_pos r). lra. Qed.
Lemma acc4_zero : acc4 0 mm_setzero 0 0.
Proof. exists 0, 0, 0, 0, 0, 0, 0, 0. repeat (split; [apply acc_zero|]). lra. Qed.
(* a b is q up to one rounding, and t bounds q *)
Definition product (a b : f32) (q t : R) : Prop := ff a /\ ff b /\ Rabs q <= t /\ Rabs (R_of a * R_of b - q) <= u24 * t + 2 * tiny.
Lemma acc4_mac : forall f n v r m a b q0 q1 q2 q3 t0 t1 t2 t3, acc4 n v r m -> m + (t0 + t1 + t2 + t3) <= M -> (n <= 400)%nat ->
  product (lane0 a) (lane0 b) q0 t0 -> product (lane1 a) (lane1 b) q1 t1 -> product (lane2 a) (lane2 b) q2 t2 -> product (lane3 a) (lane3 b) q3 t3 ->
  acc4 (S n) (vmla f v a b) (r + (q0 + q1 + q2 + q3)) (m + (t0 + t1 + t2 + t3)).
Proof.
  intros f n v r m a b q0 q1 q2 q3 t0 t1 t2 t3 (r0 & r1 & r2 & r3 & m0 & m1 & m2 & m3 & A0 & A1 & A2 & A3 & -> & ->) B N (X0 & Y0 & Q0 & E0) (X1 & Y1 & Q1 & E1) (X2 & Y2 & Q2 & E2) (X3 & Y3 & Q3 & E3).
  pose proof (acc_nonneg _ _ _ _ A0). pose proof (acc_nonneg _ _ _ _ A1). pose proof (acc_nonneg _ _ _ _ A2). pose proof (acc_nonneg _ _ _ _ A3).
  pose proof (Rabs_pos q0). pose proof (Rabs_pos q1). pose proof (Rabs_pos q2). pose proof (Rabs_pos q3).
  exists (r0 + q0), (r1 + q1), (r2 + q2), (r3 + q3), (m0 + t0), (m1 + t1), (m2 + t2), (m3 + t3). unfold vmla. cbn [lane0 lane1 lane2 lane3].
  split; [apply acc_mac; auto; lra|]. split; [apply acc_mac; auto; lra|]. split; [apply acc_mac; auto; lra|]. split; [apply acc_mac; auto; lra|]. split; ring.
Qed.
Lemma acc4_hsum : forall n v r m, acc4 n v r m -> m <= M -> (4 * n + 3 <= 400)%nat -> acc (4 * n + 3) (hsum_neon v) r m.
Proof.
  intros n v r m (r0 & r1 & r2 & r3 & m0 & m1 & m2 & m3 & A0 & A1 & A2 & A3 & -> & ->) B N. unfold hsum_neon. cbv zeta.
  pose proof (acc_nonneg _ _ _ _ A0). pose proof (acc_nonneg _ _ _ _ A1). pose proof (acc_nonneg _ _ _ _ A2). pose proof (acc_nonneg _ _ _ _ A3).
  pose proof (acc_add _ _ _ _ _ _ _ _ A0 A2 ltac:(lra) ltac:(lia) ltac:(lia)) as L. pose proof (acc_add _ _ _ _ _ _ _ _ A1 A3 ltac:(lra) ltac:(lia) ltac:(lia)) as H'.
  pose proof (acc_add _ _ _ _ _ _ _ _ L H' ltac:(lra) ltac:(lia) ltac:(lia)) as T.
  replace (4 * n + 3)%nat with (S (S (n + n) + S (n + n))) by lia. replace (r0 + r1 + r2 + r3) with (r0 + r2 + (r1 + r3)) by ring. replace (m0 + m1 + m2 + m3) with (m0 + m2 + (m1 + m3)) by ring. exact T.
Qed.
End Acc.
Lemma upto_ints : forall L, upto L = ints 1 (L + 1).
Proof. intros L. unfold upto, ints. replace (L + 1 - 1)%Z with L by lia. rewrite <- seq_shift, map_map. apply map_ext. intros k. lia. Qed.
Lemma ints_snoc : forall a b, (a <= b)%Z -> ints a (b + 1) = ints a b ++ [b].
Proof. intros a b H. rewrite (ints_app a b (b + 1)) by lia. f_equal. rewrite ints_cons by lia. now rewrite ints_nil by lia. Qed.
Lemma rsum_one : forall f k, rsum f [k] = f k.
Proof. intros. cbn. ring. Qed.
Lemma rsum_step : forall f a b, (a <= b)%Z -> rsum f (ints a (b + 1)) = rsum f (ints a b) + f b.
Proof. intros f a b H. rewrite ints_snoc, rsum_app, rsum_one by exact H. reflexivity. Qed.
Lemma rsum_four : forall f a b, (a <= b)%Z -> rsum f (ints a (b + 4)) = rsum f (ints a b) + (f b + f (b + 1)%Z + f (b + 2)%Z + f (b + 3)%Z).
Proof.
  intros f a b H. replace (b + 4)%Z with (b + 1 + 1 + 1 + 1)%Z by lia. rewrite !rsum_step by lia. replace (b + 1 + 1)%Z with (b + 2)%Z by lia. replace (b + 2 + 1)%Z with (b + 3)%Z by lia. ring.
Qed.
Lemma rsum_part : forall f a b c, (a <= b <= c)%Z -> (forall k, 0 <= f k) -> rsum f (ints a b) <= rsum f (ints a c).
Proof. intros f a b c H P. rewrite (ints_app a b c), rsum_app by exact H. pose proof (rsum_pos f (ints b c) (fun k _ => P k)). lra. Qed.
Lemma rsum_nil : forall f a, rsum f (ints a a) = 0.
Proof. intros. rewrite ints_nil by lia. reflexivity. Qed.

(* ---- the sums of enhancement ---- *)
Lemma square_product : forall y, ff y -> product y y (R_of y * R_of y) (R_of y * R_of y).
Proof.
  intros y F. pose proof tiny_pos. assert (Q : 0 <= R_of y * R_of y) by nra. assert (0 <= u24 * (R_of y * R_of y)) by (apply Rmult_le_pos; [unfold u24; lra|lra]).
  split; [exact F|]. split; [exact F|]. split; [rewrite Rabs_pos_eq; lra|]. rewrite Rminus_diag_eq, Rabs_R0 by reflexivity. lra.
Qed.
Lemma abs_product : forall y, ff y -> product (fabs y) (fabs y) (R_of y * R_of y) (R_of y * R_of y).
Proof.
  intros y F. pose proof (square_product (fabs y) (fabs_ff y F)) as P. rewrite R_fabs in P. replace (Rabs (R_of y) * Rabs (R_of y)) with (R_of y * R_of y) in P; [exact P|].
  rewrite <- Rabs_mult, Rabs_pos_eq; [reflexivity|nra].
Qed.
Lemma sign_product : forall y, ff y -> let m := if flt y fzero then fopp y else y in product m m (R_of y * R_of y) (R_of y * R_of y).
Proof.
  intros y F m. unfold m. destruct (flt y fzero); [|now apply square_product]. pose proof (square_product (fopp y) (fopp_ff y F)) as P. rewrite R_fopp in P.
  replace (- R_of y * - R_of y) with (R_of y * R_of y) in P by ring. exact P.
Qed.
Lemma weighted_product : forall y c, ff y -> ff c -> Rabs (R_of y) <= 1e16 -> Rabs (R_of c) <= 1.2 ->
  product (fmul y y) c (R_of y * R_of y * R_of c) (1.2 * (R_of y * R_of y)).
Proof.
  intros y c F FC B BC. apply Rabs_le_inv in B. assert (Q : 0 <= R_of y * R_of y <= 1e32) by (split; nra). destruct (fmul_e y y F F) as [A E]; [rewrite Rabs_pos_eq by lra; unfold huge; lra|].
  set (q := R_of y * R_of y) in *. rewrite (Rabs_pos_eq q) in E by lra. pose proof tiny_pos as T0.
  split; [exact A|]. split; [exact FC|]. split.
  - rewrite Rabs_mult, (Rabs_pos_eq q) by lra. rewrite (Rmult_comm 1.2). apply Rmult_le_compat_l; lra.
  - replace (R_of (fmul y y) * R_of c - q * R_of c) with ((R_of (fmul y y) - q) * R_of c) by ring.
    apply (Rle_trans _ ((u24 * q + tiny) * 1.2)); [rewrite Rabs_mult; apply Rmult_le_compat; auto using Rabs_pos|]. lra.
Qed.
Lemma load4 : forall Ml l, length Ml = 57%nat -> (1 <= l)%Z -> (l + 3 <= 56)%Z ->
  mm_loadu Ml l = Ok (m4 (cell zero Ml l) (cell zero Ml (l + 1)) (cell zero Ml (l + 2)) (cell zero Ml (l + 3))).
Proof. intros Ml l HL H1 H2. unfold mm_loadu. rewrite !PPower.rd_at by lia. reflexivity. Qed.
Section Enh.
Context (k : contraction) (L : Z) (Ml : list f32) (HL : (0 <= L <= 56)%Z) (LM : length Ml = 57%nat) (H : amplitudes_under 1e16 L Ml).
Let sq (l : Z) : R := R_of (cell zero Ml l) * R_of (cell zero Ml l).
Let M := exact_energy L Ml.
Lemma sq_pos : forall l, 0 <= sq l. Proof. intros. unfold sq. nra. Qed.
Lemma M_size : 0 <= M <= 9e34. Proof. pose proof (energy_size L Ml HL H). unfold M. lra. Qed.
Lemma M_sum : M = rsum sq (ints 1 (L + 1)). Proof. unfold M, exact_energy. now rewrite upto_ints. Qed.
Lemma sq_part : forall i, (1 <= i <= L + 1)%Z -> rsum sq (ints 1 i) <= M.
Proof. intros i Hi. rewrite M_sum. apply rsum_part; [lia|apply sq_pos]. Qed.
Lemma tail_sum : forall l n s, (1 <= l <= L + 1)%Z -> acc M n s (rsum sq (ints 1 l)) (rsum sq (ints 1 l)) -> (n <= 100)%nat ->
  exists e, enh_sum_from_c k l L Ml s = Ok e /\ acc M (n + Z.to_nat (L + 1 - l)) e M M.
Proof.
  intros l n s Hl A N. unfold enh_sum_from_c.
  match goal with |- exists e, for_up _ _ ?b _ = _ /\ _ => destruct (for_up_ok (fun i s => acc M (n + Z.to_nat (i - l)) s (rsum sq (ints 1 i)) (rsum sq (ints 1 i))) b l (L + 1)%Z s) as (e & E & P) end; [lia| | |].
  - intros i s1 Hi A1. rewrite PPower.rd_at by lia. cbn [bind]. eexists. split; [reflexivity|]. destruct (H i ltac:(lia)) as [F B].
    replace (n + Z.to_nat (i + 1 - l))%nat with (S (n + Z.to_nat (i - l))) by lia. pose proof (sq_part (i + 1) ltac:(lia)) as Q. rewrite rsum_step in * by lia.
    destruct (sign_product _ F) as (X & Y & Z1 & Z2). apply acc_mac; auto using M_size. lia.
  - replace (n + Z.to_nat (l - l))%nat with n by lia. exact A.
  - exists e. split; [exact E|]. rewrite <- M_sum in P. exact P.
Qed.
Lemma sum_c : forall vec, exists e, enh_sum_c k vec L Ml = Ok e /\ ff e /\ Rabs (R_of e - M) <= M / 10000 + 1e-36.
Proof.
  intros vec. pose proof M_size as MS.
  assert (K : exists e n, enh_sum_c k vec L Ml = Ok e /\ acc M n e M M /\ (n <= 300)%nat).
  { unfold enh_sum_c. destruct (vec && (4 <=? L)%Z) eqn:E.
    - apply andb_true_iff in E as [_ E]. apply Z.leb_le in E. pose proof (Z.div_mod L 4 ltac:(lia)) as DM. pose proof (Z.mod_pos_bound L 4 ltac:(lia)) as MB. set (g := (L / 4)%Z) in *.
      match goal with |- context [loop _ _ _ ?b _] => destruct (loop_ok (fun i v => acc4 M (Z.to_nat ((i - 1) / 4)) v (rsum sq (ints 1 i)) (rsum sq (ints 1 i))) b 4 (Z.to_nat g) 1 mm_setzero) as (v & EV & P) end.
      + intros j v Hj A. set (i := (1 + j * 4)%Z) in *. replace (1 + (j + 1) * 4)%Z with (i + 4)%Z by (unfold i; lia).
        rewrite load4 by (assumption || lia). cbn [bind]. cbv zeta. eexists. split; [reflexivity|].
        replace (Z.to_nat ((i + 4 - 1) / 4)) with (S (Z.to_nat ((i - 1) / 4))).
        2:{ unfold i. replace (1 + j * 4 + 4 - 1)%Z with ((j + 1) * 4)%Z by lia. replace (1 + j * 4 - 1)%Z with (j * 4)%Z by lia. rewrite !Z.div_mul by lia. lia. }
        pose proof (sq_part (i + 4) ltac:(lia)) as Q. rewrite rsum_four in * by lia.
        destruct (H i) as [F0 _]; [lia|]. destruct (H (i + 1)%Z) as [F1 _]; [lia|]. destruct (H (i + 2)%Z) as [F2 _]; [lia|]. destruct (H (i + 3)%Z) as [F3 _]; [lia|].
        apply acc4_mac; auto; cbn [mm_abs lane0 lane1 lane2 lane3]; try (apply abs_product; assumption).
        unfold i. replace (1 + j * 4 - 1)%Z with (j * 4)%Z by lia. rewrite Z.div_mul by lia. lia.
      + rewrite rsum_nil. change (Z.to_nat ((1 - 1) / 4)) with 0%nat. apply acc4_zero.
      + rewrite EV. cbn [bind]. rewrite Z2Nat.id in P by lia. replace (1 + g * 4)%Z with (1 + 4 * g)%Z in P by lia.
        replace (Z.to_nat ((1 + 4 * g - 1) / 4)) with (Z.to_nat g) in P by (replace (1 + 4 * g - 1)%Z with (g * 4)%Z by lia; rewrite Z.div_mul by lia; reflexivity).
        apply acc4_hsum in P; auto; [|apply sq_part; lia|lia]. destruct (tail_sum (1 + 4 * g) _ _ ltac:(lia) P ltac:(lia)) as (e & E1 & A). exists e. eexists. split; [exact E1|]. split; [exact A|lia].
    - destruct (tail_sum 1 0 zero ltac:(lia)) as (e & E1 & A); [rewrite rsum_nil; apply acc_zero|lia|]. exists e. eexists. split; [exact E1|]. split; [exact A|lia]. }
  destruct K as (e & n & E & A & N). exists e. split; [exact E|]. exact (acc_final M MS n e M A N).
Qed.
Context (tab : list (option f32)) (c : Z -> f32) (HC : forall l, (1 <= l <= L)%Z -> rdi tab l = Ok (c l) /\ ff (c l) /\ Rabs (R_of (c l)) <= 1.2).
Let wq (l : Z) : R := R_of (cell zero Ml l) * R_of (cell zero Ml l) * R_of (c l).
Let wt (l : Z) : R := 1.2 * sq l.
Let W := exact_weighted L Ml (fun l => R_of (c l)).
Let N1 := 1.2 * M.
Lemma N1_size : 0 <= N1 <= 9e34. Proof. pose proof (energy_size L Ml HL H). unfold N1, M. lra. Qed.
Lemma wt_sum : forall a b, rsum wt (ints a b) = 1.2 * rsum sq (ints a b).
Proof. intros a b. unfold wt. apply rsum_scale. Qed.
Lemma wt_part : forall i, (1 <= i <= L + 1)%Z -> rsum wt (ints 1 i) <= N1.
Proof. intros i Hi. rewrite wt_sum. unfold N1. pose proof (sq_part i Hi). lra. Qed.
Lemma tail_moments : forall l n s0 s1, (1 <= l <= L + 1)%Z -> acc M n s0 (rsum sq (ints 1 l)) (rsum sq (ints 1 l)) -> acc N1 n s1 (rsum wq (ints 1 l)) (rsum wt (ints 1 l)) -> (n <= 100)%nat ->
  exists r0 r1, enh_energies_from_c k l L Ml tab (s0, s1) = Ok (r0, r1) /\ acc M (n + Z.to_nat (L + 1 - l)) r0 M M /\ acc N1 (n + Z.to_nat (L + 1 - l)) r1 W N1.
Proof.
  intros l n s0 s1 Hl A0 A1 N. unfold enh_energies_from_c.
  match goal with |- exists r0 r1, for_up _ _ ?b _ = _ /\ _ => destruct (for_up_ok (fun i (s : f32 * f32) => acc M (n + Z.to_nat (i - l)) (fst s) (rsum sq (ints 1 i)) (rsum sq (ints 1 i)) /\
    acc N1 (n + Z.to_nat (i - l)) (snd s) (rsum wq (ints 1 i)) (rsum wt (ints 1 i))) b l (L + 1)%Z (s0, s1)) as ([r0 r1] & E & P0 & P1) end; [lia| | |].
  - intros i [t0 t1] Hi [B0 B1]. cbn [fst snd] in *. destruct (HC i ltac:(lia)) as (T & FC & BC). rewrite PPower.rd_at by lia. rewrite T. cbn [bind]. cbv zeta. eexists. split; [reflexivity|]. cbn [fst snd]. destruct (H i ltac:(lia)) as [F B].
    replace (n + Z.to_nat (i + 1 - l))%nat with (S (n + Z.to_nat (i - l))) by lia. pose proof (sq_part (i + 1) ltac:(lia)) as Q. pose proof (wt_part (i + 1) ltac:(lia)) as Q1. rewrite (rsum_step sq) in Q by lia. rewrite (rsum_step wt) in Q1 by lia. rewrite (rsum_step sq), (rsum_step wq), (rsum_step wt) by lia.
    destruct (square_product _ F) as (X & Y & Z1 & Z2). destruct (weighted_product _ _ F FC B BC) as (X' & Y' & Z1' & Z2').
    split; [apply acc_mac; auto using M_size; lia|apply acc_mac; auto using N1_size; lia].
  - replace (n + Z.to_nat (l - l))%nat with n by lia. split; assumption.
  - cbn [fst snd] in *. exists r0, r1. split; [exact E|]. rewrite <- M_sum in P0. split; [exact P0|]. rewrite wt_sum, <- M_sum in P1. fold N1 in P1. unfold W, exact_weighted. rewrite upto_ints. exact P1.
Qed.
Lemma load4i : forall l, (1 <= l)%Z -> (l + 3 <= L)%Z -> mm_loadui tab l = Ok (m4 (c l) (c (l + 1)%Z) (c (l + 2)%Z) (c (l + 3)%Z)).
Proof.
  intros l H1 H2. unfold mm_loadui. destruct (HC l) as (T0 & _); [lia|]. destruct (HC (l + 1)%Z) as (T1 & _); [lia|]. destruct (HC (l + 2)%Z) as (T2 & _); [lia|]. destruct (HC (l + 3)%Z) as (T3 & _); [lia|].
  rewrite T0, T1, T2, T3. reflexivity.
Qed.
Lemma moments_c : forall vec, exists r0 r1, enh_energies_c k vec L Ml tab = Ok (r0, r1) /\
  (ff r0 /\ Rabs (R_of r0 - M) <= M / 10000 + 1e-36) /\ (ff r1 /\ Rabs (R_of r1 - W) <= N1 / 10000 + 1e-36).
Proof.
  intros vec. pose proof M_size as MS. pose proof N1_size as NS.
  assert (K : exists r0 r1 n, enh_energies_c k vec L Ml tab = Ok (r0, r1) /\ acc M n r0 M M /\ acc N1 n r1 W N1 /\ (n <= 300)%nat).
  { unfold enh_energies_c. destruct (vec && (4 <=? L)%Z) eqn:E.
    - apply andb_true_iff in E as [_ E]. apply Z.leb_le in E. pose proof (Z.div_mod L 4 ltac:(lia)) as DM. pose proof (Z.mod_pos_bound L 4 ltac:(lia)) as MB. set (g := (L / 4)%Z) in *.
      match goal with |- context [loop _ _ _ ?b _] => destruct (loop_ok (fun i (v : m128 * m128) => acc4 M (Z.to_nat ((i - 1) / 4)) (fst v) (rsum sq (ints 1 i)) (rsum sq (ints 1 i)) /\
        acc4 N1 (Z.to_nat ((i - 1) / 4)) (snd v) (rsum wq (ints 1 i)) (rsum wt (ints 1 i))) b 4 (Z.to_nat g) 1 (mm_setzero, mm_setzero)) as ([v0 v1] & EV & P0 & P1) end.
      + intros j [v0 v1] Hj [A0 A1]. cbn [fst snd] in *. set (i := (1 + j * 4)%Z) in *. replace (1 + (j + 1) * 4)%Z with (i + 4)%Z by (unfold i; lia).
        rewrite load4 by (assumption || lia). rewrite load4i by lia. cbn [bind]. cbv zeta. eexists. split; [reflexivity|]. cbn [fst snd].
        replace (Z.to_nat ((i + 4 - 1) / 4)) with (S (Z.to_nat ((i - 1) / 4))).
        2:{ unfold i. replace (1 + j * 4 + 4 - 1)%Z with ((j + 1) * 4)%Z by lia. replace (1 + j * 4 - 1)%Z with (j * 4)%Z by lia. rewrite !Z.div_mul by lia. lia. }
        assert (JN : (Z.to_nat ((i - 1) / 4) <= 400)%nat) by (unfold i; replace (1 + j * 4 - 1)%Z with (j * 4)%Z by lia; rewrite Z.div_mul by lia; lia).
        pose proof (sq_part (i + 4) ltac:(lia)) as Q. pose proof (wt_part (i + 4) ltac:(lia)) as Q1. rewrite (rsum_four sq) in Q by lia. rewrite (rsum_four wt) in Q1 by lia. rewrite (rsum_four sq), (rsum_four wq), (rsum_four wt) by lia.
        destruct (H i) as [F0 B0]; [lia|]. destruct (H (i + 1)%Z) as [F1 B1]; [lia|]. destruct (H (i + 2)%Z) as [F2 B2]; [lia|]. destruct (H (i + 3)%Z) as [F3 B3]; [lia|].
        destruct (HC i) as (_ & G0 & C0); [lia|]. destruct (HC (i + 1)%Z) as (_ & G1 & C1); [lia|]. destruct (HC (i + 2)%Z) as (_ & G2 & C2); [lia|]. destruct (HC (i + 3)%Z) as (_ & G3 & C3); [lia|].
        split; apply acc4_mac; auto; cbn [mm_mul lane0 lane1 lane2 lane3]; try (apply square_product; assumption); apply weighted_product; assumption.
      + cbn [fst snd]. rewrite !rsum_nil. change (Z.to_nat ((1 - 1) / 4)) with 0%nat. split; apply acc4_zero.
      + rewrite EV. cbn [bind fst snd] in *. rewrite Z2Nat.id in P0, P1 by lia. replace (1 + g * 4)%Z with (1 + 4 * g)%Z in P0, P1 by lia.
        replace (Z.to_nat ((1 + 4 * g - 1) / 4)) with (Z.to_nat g) in P0, P1 by (replace (1 + 4 * g - 1)%Z with (g * 4)%Z by lia; rewrite Z.div_mul by lia; reflexivity).
        apply acc4_hsum in P0; auto; [|apply sq_part; lia|lia]. apply acc4_hsum in P1; auto; [|apply wt_part; lia|lia].
        destruct (tail_moments (1 + 4 * g) _ _ _ ltac:(lia) P0 P1 ltac:(lia)) as (r0 & r1 & E1 & A & A1). exists r0, r1. eexists. split; [exact E1|]. split; [exact A|]. split; [exact A1|lia].
    - destruct (tail_moments 1 0 zero zero ltac:(lia)) as (r0 & r1 & E1 & A & A1); [rewrite rsum_nil; apply acc_zero|rewrite !rsum_nil; apply acc_zero|lia|]. exists r0, r1. eexists. split; [exact E1|]. split; [exact A|]. split; [exact A1|lia]. }
  destruct K as (r0 & r1 & n & E & A & A1 & N). exists r0, r1. split; [exact E|]. split; [exact (acc_final M MS n r0 M A N)|exact (acc_final N1 NS n r1 W A1 N)].
Qed.
End Enh.

(* ---- the power of a band ---- *)
Lemma pair_e : forall k i y z, ff y -> ff z -> Rabs (R_of y) <= 1e16 -> Rabs (R_of z) <= 1e16 ->
  ff (pair_c k i y z) /\ Rabs (R_of (pair_c k i y z) - (R_of y * R_of y + R_of z * R_of z)) <= 2.01 * (u24 * (R_of y * R_of y + R_of z * R_of z)) + 4 * tiny.
Proof.
  assert (G : forall f y z, ff y -> ff z -> Rabs (R_of y) <= 1e16 -> Rabs (R_of z) <= 1e16 ->
    ff (macc f (fmul z z) y y) /\ Rabs (R_of (macc f (fmul z z) y y) - (R_of y * R_of y + R_of z * R_of z)) <= 2.01 * (u24 * (R_of y * R_of y + R_of z * R_of z)) + 4 * tiny).
  { intros f y z FY FZ BY BZ. apply Rabs_le_inv in BY, BZ. assert (Q : 0 <= R_of y * R_of y <= 1e32) by (split; nra). assert (Q' : 0 <= R_of z * R_of z <= 1e32) by (split; nra).
    destruct (fmul_e z z FZ FZ) as [A' E']; [rewrite Rabs_pos_eq by lra; unfold huge; lra|]. destruct (fmul_e y y FY FY) as [A E]; [rewrite Rabs_pos_eq by lra; unfold huge; lra|].
    set (q := R_of y * R_of y) in *. set (q' := R_of z * R_of z) in *. rewrite (Rabs_pos_eq q) in E by lra. rewrite (Rabs_pos_eq q') in E' by lra.
    pose proof tiny_pos as T0. pose proof tiny_40 as T1. assert (U : 0 < u24 <= 6e-8) by (unfold u24; lra).
    set (w := u24 * q) in *. assert (W : 0 <= w <= 6e-8 * q) by (unfold w; split; [apply Rmult_le_pos; lra|apply Rmult_le_compat_r; lra]).
    set (w' := u24 * q') in *. assert (W' : 0 <= w' <= 6e-8 * q') by (unfold w'; split; [apply Rmult_le_pos; lra|apply Rmult_le_compat_r; lra]).
    assert (EW : u24 * (q + q') = w + w') by (unfold w, w'; ring). rewrite EW. apply Rabs_le_inv in E, E'.
    assert (UW : 0 <= u24 * (w + w' + 2 * tiny) <= 6e-8 * (w + w' + 2 * tiny)) by (split; [apply Rmult_le_pos; lra|apply Rmult_le_compat_r; lra]).
    assert (V : forall r, Rabs r <= q + q' + (w + w' + 2 * tiny) -> u24 * Rabs r <= (w + w') + 6e-8 * (w + w' + 2 * tiny)).
    { intros r R. eapply Rle_trans; [apply Rmult_le_compat_l; [lra|exact R]|]. rewrite Rmult_plus_distr_l, EW. lra. }
    destruct f; cbn [macc].
    - assert (S : Rabs (R_of (fmul z z) + q) <= q + q' + (w + w' + 2 * tiny)) by (apply Rabs_le; lra).
      destruct (ffma_e y y (fmul z z) FY FY A') as [F D]; [fold q; unfold huge; lra|fold q; rewrite Rabs_pos_eq by lra; unfold huge; lra|]. fold q in D. split; [exact F|].
      specialize (V _ S). apply Rabs_le_inv in D. apply Rabs_le. lra.
    - assert (S : Rabs (R_of (fmul z z) + R_of (fmul y y)) <= q + q' + (w + w' + 2 * tiny)) by (apply Rabs_le; lra).
      destruct (fadd_e _ _ A' A) as [F D]; [unfold huge; lra|]. split; [exact F|]. specialize (V _ S). apply Rabs_le_inv in D. apply Rabs_le. lra. }
  intros k i y z FY FZ BY BZ. unfold pair_c. destruct (k 10 i)%Z; [now apply G|]. rewrite (Rplus_comm (R_of y * R_of y)). now apply G.
Qed.
Section Power.
Context (k : contraction) (x : list f32) (LX : length x = 256%nat) (X : Forall (fun y => ff y /\ Rabs (R_of y) <= 1e15) x) (a b : Z) (Ha : (0 <= a < b)%Z) (Hb : (b <= 128)%Z).
Let bin := exact_bin x.
Let M := exact_band x a b.
Lemma bin_pos : forall i, 0 <= bin i. Proof. intros i. apply (bin_size x X). Qed.
Lemma P_size : 0 <= M <= 9e34. Proof. pose proof (band_size x X a b ltac:(lia)). unfold M. lra. Qed.
Lemma bin_part : forall i, (a <= i <= b)%Z -> rsum bin (ints a i) <= M.
Proof. intros i Hi. unfold M, exact_band. apply rsum_part; [lia|apply bin_pos]. Qed.
Lemma bin_inner : forall i, (1 <= i)%Z -> bin i = R_of (cell zero x (2 * i)) * R_of (cell zero x (2 * i)) + R_of (cell zero x (2 * i + 1)) * R_of (cell zero x (2 * i + 1)).
Proof. intros i Hi. unfold bin, exact_bin. destruct (Z.eqb_spec i 0); [lia|reflexivity]. Qed.
Lemma cells_at : forall i, (0 <= i < 256)%Z -> rd x i = Ok (cell zero x i).
Proof. intros i Hi. apply PPower.rd_at. lia. Qed.
Lemma load4x : forall i, (0 <= i)%Z -> (i + 3 < 256)%Z -> mm_loadu x i = Ok (m4 (cell zero x i) (cell zero x (i + 1)) (cell zero x (i + 2)) (cell zero x (i + 3))).
Proof. intros i H1 H2. unfold mm_loadu. rewrite !cells_at by lia. reflexivity. Qed.
(* the bins from st on, in pairs *)
Lemma tail_power : forall st n s, (1 <= st)%Z -> (a <= st <= b)%Z -> acc M n s (rsum bin (ints a st)) (rsum bin (ints a st)) -> (n <= 270)%nat -> (n + Z.to_nat (b - st) <= 400)%nat ->
  exists e, for_up 0 (b - st) (fun i sum => re <- rd x (2 * st + 2 * i)%Z ;; im <- rd x (2 * st + 2 * i + 1)%Z ;; Ok (fadd sum (pair_c k i re im))) s = Ok e /\ acc M (n + Z.to_nat (b - st)) e M M.
Proof.
  intros st n s H1 H2 A N N2. pose proof P_size as PS.
  match goal with |- exists e, for_up _ _ ?f _ = _ /\ _ => destruct (for_up_ok (fun i s => acc M (n + Z.to_nat i) s (rsum bin (ints a (st + i))) (rsum bin (ints a (st + i)))) f 0%Z (b - st)%Z s) as (e & E & P) end; [lia| | |].
  - intros i s1 Hi A1. replace (2 * st + 2 * i)%Z with (2 * (st + i))%Z by lia. rewrite !cells_at by lia. cbn [bind]. eexists. split; [reflexivity|].
    replace (n + Z.to_nat (i + 1))%nat with (S (n + Z.to_nat i)) by lia. replace (st + (i + 1))%Z with (st + i + 1)%Z by lia.
    pose proof (bin_part (st + i + 1) ltac:(lia)) as Q. rewrite (rsum_step bin) in Q by lia. rewrite (rsum_step bin) by lia.
    destruct (cell_ok x X (2 * (st + i))) as [F1 B1]. destruct (cell_ok x X (2 * (st + i) + 1)) as [F2 B2]. destruct (pair_e k i _ _ F1 F2 B1 B2) as [F E].
    rewrite <- bin_inner in E by lia. apply acc_term; auto; [lia|rewrite Rabs_pos_eq by apply bin_pos; lra].
  - replace (st + 0)%Z with st by lia. replace (n + Z.to_nat 0)%nat with n by lia. exact A.
  - exists e. split; [exact E|]. replace (st + (b - st))%Z with b in P by lia. exact P.
Qed.
Lemma inner_power : forall vec st n s, (1 <= st)%Z -> (a <= st <= b)%Z -> acc M n s (rsum bin (ints a st)) (rsum bin (ints a st)) -> (n <= 1)%nat ->
  exists e n', ('(sum, ptr, count) <- (if vec : bool then interior_vec_c k x (2 * st) (b - st) s else Ok (s, 2 * st, b - st)%Z) ;;
    for_up 0 count (fun i sum => re <- rd x (ptr + 2 * i)%Z ;; im <- rd x (ptr + 2 * i + 1)%Z ;; Ok (fadd sum (pair_c k i re im))) sum) = Ok e /\ acc M n' e M M /\ (n' <= 280)%nat.
Proof.
  intros vec st n s H1 H2 A N. pose proof P_size as PS.
  assert (S0 : exists e n', (for_up 0 (b - st) (fun i sum => re <- rd x (2 * st + 2 * i)%Z ;; im <- rd x (2 * st + 2 * i + 1)%Z ;; Ok (fadd sum (pair_c k i re im))) s) = Ok e /\ acc M n' e M M /\ (n' <= 280)%nat).
  { destruct (tail_power st n s H1 H2 A ltac:(lia) ltac:(lia)) as (e & E & P). exists e. eexists. split; [exact E|]. split; [exact P|lia]. }
  destruct vec; [|exact S0]. unfold interior_vec_c. destruct (Z.leb_spec 4 (b - st)) as [C|C]; [|exact S0]. clear S0.
  pose proof (Z.div_mod (b - st) 4 ltac:(lia)) as DM. pose proof (Z.mod_pos_bound (b - st) 4 ltac:(lia)) as MB. set (g := ((b - st) / 4)%Z) in *.
  match goal with |- context [loop _ _ _ ?f _] => destruct (loop_ok (fun i v => exists j, (i = 2 * st + 8 * j /\ 0 <= j)%Z /\ acc4 M (Z.to_nat (2 * j)) v (rsum bin (ints st (st + 4 * j))) (rsum bin (ints st (st + 4 * j)))) f 8 (Z.to_nat g) (2 * st)%Z mm_setzero) as (v & EV & P) end.
  - intros j0 v Hj (j & [EJ J0] & B). assert (j0 = j) by lia. subst j0. set (i := (2 * st + j * 8)%Z) in *. replace i with (2 * (st + 4 * j))%Z by (unfold i; lia). set (p := (st + 4 * j)%Z) in *.
    rewrite !load4x by (unfold p; lia). cbn [bind]. eexists. split; [reflexivity|]. exists (j + 1)%Z. split; [unfold p; lia|].
    replace (st + 4 * (j + 1))%Z with (p + 4)%Z by (unfold p; lia). replace (Z.to_nat (2 * (j + 1))) with (S (S (Z.to_nat (2 * j)))) by lia.
    assert (Q : rsum bin (ints st (p + 4)) <= M).
    { pose proof (bin_part (p + 4) ltac:(unfold p; lia)) as Q. rewrite (ints_app a st) in Q by (unfold p; lia). rewrite rsum_app in Q. pose proof (rsum_pos bin (ints a st) (fun k _ => bin_pos k)). lra. }
    rewrite (rsum_four bin) in Q by (unfold p; lia). rewrite (rsum_four bin) by (unfold p; lia). set (r := rsum bin (ints st p)) in *.
    rewrite !bin_inner in Q by (unfold p; lia). rewrite !bin_inner by (unfold p; lia).
    set (c := fun d => R_of (cell zero x (2 * p + d)) * R_of (cell zero x (2 * p + d))).
    assert (CP : forall d, 0 <= c d) by (intros d; unfold c; nra).
    replace (2 * (p + 1))%Z with (2 * p + 2)%Z in * by lia. replace (2 * (p + 2))%Z with (2 * p + 4)%Z in * by lia. replace (2 * (p + 3))%Z with (2 * p + 6)%Z in * by lia.
    replace (2 * p + 2 + 1)%Z with (2 * p + 3)%Z in * by lia. replace (2 * p + 4 + 1)%Z with (2 * p + 5)%Z in * by lia. replace (2 * p + 6 + 1)%Z with (2 * p + 7)%Z in * by lia.
    replace (2 * p + 4 + 2)%Z with (2 * p + 6)%Z by lia. replace (2 * p + 4 + 3)%Z with (2 * p + 7)%Z by lia.
    assert (R : forall z, z + (R_of (cell zero x (2 * p)) * R_of (cell zero x (2 * p)) + c 1%Z + (c 2%Z + c 3%Z) + (c 4%Z + c 5%Z) + (c 6%Z + c 7%Z)) =
      z + (R_of (cell zero x (2 * p)) * R_of (cell zero x (2 * p)) + c 1%Z + c 2%Z + c 3%Z) + (c 4%Z + c 5%Z + c 6%Z + c 7%Z)) by (intros; ring).
    fold (c 1%Z) (c 2%Z) (c 3%Z) (c 4%Z) (c 5%Z) (c 6%Z) (c 7%Z) in Q |- *. rewrite R in *.
    pose proof (CP 4%Z). pose proof (CP 5%Z). pose proof (CP 6%Z). pose proof (CP 7%Z).
    apply acc4_mac; auto; try (cbn [lane0 lane1 lane2 lane3]; apply square_product, (cell_ok x X)); [|lia].
    apply acc4_mac; auto; try (cbn [lane0 lane1 lane2 lane3]; apply square_product, (cell_ok x X)); [lra|lia].
  - exists 0%Z. split; [lia|]. replace (st + 4 * 0)%Z with st by lia. rewrite rsum_nil. apply acc4_zero.
  - destruct P as (j & [EJ J0] & P). rewrite Z2Nat.id in EJ by lia. assert (j = g) by lia. subst j.
    rewrite EV. cbn [bind]. replace (2 * st + 8 * g)%Z with (2 * (st + 4 * g))%Z by lia. replace (b - st - 4 * g)%Z with (b - (st + 4 * g))%Z by lia.
    assert (SM : rsum bin (ints a st) + rsum bin (ints st (st + 4 * g)) = rsum bin (ints a (st + 4 * g))) by (rewrite <- rsum_app, <- ints_app by lia; reflexivity).
    pose proof (bin_part (st + 4 * g) ltac:(lia)) as Q. pose proof (rsum_pos bin (ints a st) (fun k _ => bin_pos k)) as Q0.
    apply acc4_hsum in P; auto; [|lra|lia]. pose proof (acc_add M PS _ _ _ _ _ _ _ _ A P ltac:(lra) ltac:(lia) ltac:(lia)) as B. rewrite SM in B.
    destruct (tail_power (st + 4 * g) _ _ ltac:(lia) ltac:(lia) B ltac:(lia) ltac:(lia)) as (e & E & T). exists e. eexists. split; [exact E|]. split; [exact T|lia].
Qed.
Lemma power_c : forall vec, exists e, mbe_magnitude_squared_sum_c k vec x a b = Ok e /\ ff e /\ Rabs (R_of e - M) <= M / 10000 + 1e-36.
Proof.
  intros vec. pose proof P_size as PS. unfold mbe_magnitude_squared_sum_c. destruct (Z.leb_spec b a); [lia|]. destruct (Z.ltb_spec 128 b); [lia|]. cbv zeta.
  assert (FIN : forall e n', acc M n' e M M /\ (n' <= 280)%nat -> ff e /\ Rabs (R_of e - M) <= M / 10000 + 1e-36) by (intros e n' [A N]; apply (acc_final M PS n'); [exact A|lia]).
  destruct (Z.eqb_spec a 0) as [E|E].
  - rewrite cells_at by lia. cbn [bind]. destruct (cell_ok x X 0) as [F0 B0]. destruct (square_product _ F0) as (Y0 & Y1 & Y2 & Y3).
    assert (B1 : rsum bin (ints a 1) = 0 + R_of (cell zero x 0) * R_of (cell zero x 0)). { rewrite E. change 1%Z with (0 + 1)%Z. rewrite (rsum_step bin), rsum_nil by lia. reflexivity. }
    pose proof (bin_part 1 ltac:(lia)) as Q. rewrite B1 in Q.
    destruct (inner_power vec 1 1 (macc (k 9%Z 0%Z) fzero (cell zero x 0) (cell zero x 0))) as (e & n' & E1 & P); [lia|lia| |lia|].
    + rewrite B1. apply acc_mac; auto; [apply acc_zero|lia].
    + exists e. split; [|exact (FIN e n' P)]. destruct (if vec then _ else _) as [[[s p] c]|]; [|discriminate E1]. cbn [bind] in *. rewrite E1. reflexivity.
  - destruct (inner_power vec a 0 fzero) as (e & n' & E1 & P); [lia|lia|rewrite rsum_nil; apply acc_zero|lia|].
    exists e. split; [|exact (FIN e n' P)]. cbn [bind]. destruct (if vec then _ else _) as [[[s p] c]|]; [|discriminate E1]. cbn [bind] in *. rewrite E1. reflexivity.
Qed.
End Power.

(* ---- the statements ---- *)
Lemma ffma_nearest : forall a b c, ff a -> ff b -> ff c -> Rabs (R_of c + R_of a * R_of b) <= 1e38 -> nearest (ffma a b c) (R_of a * R_of b + R_of c).
Proof.
  intros a b c A B C H. destruct (ffma_r a b c A B C) as [F E]; [unfold huge; lra|]. split; [exact F|]. intros y [V Y]. rewrite E, (Rplus_comm (R_of a * R_of b)).
  assert (VE : Valid_exp (SpecFloat.fexp 24 128)) by (apply fexp_correct; reflexivity).
  destruct (round_N_pt radix2 (SpecFloat.fexp 24 128) (fun x => negb (Z.even x)) (R_of c + R_of a * R_of b)) as [_ N]. apply N.
  change (R_of y) with (SF2R radix2 y). rewrite <- (B2R_SF2B 24 128 y V). apply generic_format_B2R.
Qed.
Lemma energy_fused : forall k vec L Ml, (0 <= L <= 56)%Z -> length Ml = 57%nat -> amplitudes_under 1e16 L Ml ->
  exists e, enh_sum_c k vec L Ml = Ok e /\ sums_to e (exact_energy L Ml) (exact_energy L Ml).
Proof. intros k vec L Ml HL HM A. exact (sum_c k L Ml HL HM A vec). Qed.
Lemma moments_fused : forall k vec L Ml tab (c : Z -> f32), (0 <= L <= 56)%Z -> length Ml = 57%nat -> amplitudes_under 1e16 L Ml ->
  (forall l, (1 <= l <= L)%Z -> rdi tab l = Ok (c l) /\ ff (c l) /\ Rabs (R_of (c l)) <= 1.2) ->
  exists r0 r1, enh_energies_c k vec L Ml tab = Ok (r0, r1) /\ sums_to r0 (exact_energy L Ml) (exact_energy L Ml) /\ sums_to r1 (exact_weighted L Ml (fun l => R_of (c l))) (1.2 * exact_energy L Ml).
Proof. intros k vec L Ml tab c HL HM A HC. exact (moments_c k L Ml HL HM A tab c HC vec). Qed.
Lemma power_fused : forall k vec x a b, length x = 256%nat -> Forall (sized 1e15) x -> (0 <= a)%Z -> (b <= 128)%Z ->
  exists p, mbe_magnitude_squared_sum_c k vec x a b = Ok p /\ sums_to p (exact_band x a b) (exact_band x a b).
Proof.
  intros k vec x a b LX X Ha Hb. destruct (Z.le_gt_cases b a) as [C|C].
  - exists fzero. unfold mbe_magnitude_squared_sum_c. destruct (Z.leb_spec b a); [|lia]. split; [reflexivity|]. unfold exact_band, ints. replace (Z.to_nat (b - a)) with 0%nat by lia. cbn [seq map rsum fold_right].
    split; [split; reflexivity|]. change (R_of fzero) with 0. rewrite Rabs_pos_eq by lra. lra.
  - exact (power_c k x LX X a b ltac:(lia) Hb vec).
Qed.
Lemma not_fused : forall L Ml tab x a b,
  enh_sum_c no_fusing false L Ml = enh_sum Scalar L Ml /\ enh_sum_c no_fusing true L Ml = enh_sum Neon L Ml /\
  enh_energies_c no_fusing false L Ml tab = enh_energies Scalar L Ml tab /\ enh_energies_c no_fusing true L Ml tab = enh_energies Neon L Ml tab /\
  mbe_magnitude_squared_sum_c no_fusing false x a b = mbe_magnitude_squared_sum Scalar x a b /\ mbe_magnitude_squared_sum_c no_fusing true x a b = mbe_magnitude_squared_sum Neon x a b.
Proof. intros. repeat split; reflexivity. Qed.
Lemma fused_differ : exists L Ml x a b, (0 <= L <= 56)%Z /\ length Ml = 57%nat /\ length x = 256%nat /\ (0 <= a < b)%Z /\ (b <= 128)%Z /\
  enh_sum_c all_fusing false L Ml <> enh_sum Scalar L Ml /\ mbe_magnitude_squared_sum_c all_fusing true x a b <> mbe_magnitude_squared_sum Neon x a b.
Proof.
  exists 3%Z, (repeat (fdiv (f_of_Z 1) (f_of_Z 3)) 57), (repeat (fdiv (f_of_Z 1) (f_of_Z 3)) 256), 0%Z, 9%Z.
  repeat split; try lia; intros E; vm_compute in E; discriminate E.
Qed.
