(* Enhancement of moderate amplitudes: the weights are numbers, so are the enhanced amplitudes. *)
From Coq Require Import ZArith Reals Lra Lia List Bool.
From Verif Require Import Res F32 MParms MSynth SpecAdaptive SpecAmp SpecSynth SpecTrig SpecSum SpecEnh2 SpecFftErr SpecNum PFloat PFloat2 PReal PSumErr PPredict PNyq PGen PAmp PSynth POsc PEnh2 PEnh3 PNum PNum2.
From Flocq Require Import Core.Core.
From Flocq Require IEEE754.BinarySingleNaN.
Import ListNotations.
Local Open Scope R_scope.

(* ---- cosines away from 1 and -1 ---- *)
Lemma sin_low : forall y, 0 <= y <= 2 -> y - y * y * y / 6 <= sin y.
Proof.
  intros y [H0 H1]. destruct (pre_sin_bound y 0) as [A _]; [exact H0|lra|]. unfold sin_approx in A. cbn [Nat.mul Nat.add sum_f_R0] in A. unfold sin_term in A. cbn [Nat.mul Nat.add fact pow INR] in A. lra.
Qed.
Lemma cos_small : cos 0.049 <= 0.9988.
Proof.
  replace 0.049 with (2 * 0.0245) by lra. rewrite cos_2a_sin. pose proof (sin_low 0.0245 ltac:(lra)) as S.
  assert (K : 0.024497 <= sin 0.0245) by lra. assert (0.024497 * 0.024497 <= sin 0.0245 * sin 0.0245) by (apply Rmult_le_compat; lra). lra.
Qed.
Lemma cos_between : forall x, 0.049 <= x <= 3.09 -> Rabs (cos x) <= 0.9988.
Proof.
  intros x [H0 H1]. pose proof PI_bounds as P. pose proof cos_small as S. apply Rabs_le. split.
  - assert (cos (3.09) <= cos x) by (apply cos_decr_1; lra).
    assert (E : cos 3.09 = - cos (PI - 3.09)). { replace 3.09 with (PI - (PI - 3.09)) at 1 by ring. rewrite cos_minus, cos_PI, sin_PI. ring. }
    assert (cos (PI - 3.09) <= cos 0.049) by (apply cos_decr_1; lra). lra.
  - assert (cos x <= cos 0.049) by (apply cos_decr_1; lra). lra.
Qed.

(* ---- a sum of terms that are small next to y ---- *)
Lemma sum_size : forall simd (f : Z -> f32) (y : Z -> R) n, (0 <= n <= 56)%Z -> (forall k, (1 <= k <= n)%Z -> ff (f k) /\ Rabs (R_of (f k)) <= y k <= 1e30) ->
  ff (add_all simd (map f (upto n))) /\ Rabs (R_of (add_all simd (map f (upto n)))) <= (1 + 59 / 1000000) * rsum y (upto n) + 59 * 1e-36 /\ 0 <= rsum y (upto n) <= IZR n * 1e30.
Proof.
  intros simd f y n Hn H. u_hyps. pose proof tiny_40 as T40. assert (UU : u24 <= 6e-8) by (unfold u24; lra). assert (N : 0 <= IZR n <= 56) by (split; apply IZR_le; lia).
  set (Y := rsum y (upto n)). set (a := rsum (fun k => Rabs (R_of (f k))) (upto n)).
  assert (A0 : 0 <= a) by (apply rsum_pos; intros; apply Rabs_pos).
  assert (AY : a <= Y). { pose proof (rsum_lower y (fun k => Rabs (R_of (f k))) 1 0 (upto n)) as K. fold a Y in K. enough (1 * a - INR (length (upto n)) * 0 <= Y) by lra. apply K. intros k Hk. apply in_upto in Hk. destruct (H k Hk) as [_ B]. lra. }
  assert (YN : Y <= IZR n * 1e30). { rewrite <- (upto_count n) by lia. apply rsum_le. intros k Hk. apply in_upto in Hk. destruct (H k Hk) as [_ B]. lra. }
  destruct (sum_terms simd f n Hn (fun k Hk => proj1 (H k Hk))) as [F E]; [fold a; lra|]. fold a in E. split; [exact F|]. split; [|lra].
  assert (S : Rabs (rsum (fun k => R_of (f k)) (upto n)) <= a) by (rewrite <- rtot_rsum; unfold a; rewrite <- rabs_rsum; apply rtot_rabs).
  set (s := add_all simd (map f (upto n))) in *. set (z := rsum (fun k => R_of (f k)) (upto n)) in *.
  assert (UA : 0 <= u24 * a <= 6e-8 * a) by (split; [apply Rmult_le_pos; lra|apply Rmult_le_compat_r; lra]).
  assert (K : (IZR n + 3) * (1.01 * u24 * a + 2 * tiny) <= 59 * (1.01 * (6e-8 * a) + 2 * 1e-40)) by (apply Rmult_le_compat; lra).
  replace (R_of s) with (z + (R_of s - z)) by ring. eapply Rle_trans; [apply Rabs_triang|]. lra.
Qed.

(* ---- the two moments ---- *)
Section Frame.
Context (o : oracle) (m : parms) (HL : (1 <= p_L m <= 56)%Z) (TC : trig_close o (p_w0 m)) (FW : ff (p_w0 m)) (W0 : 0.049 <= R_of (p_w0 m) <= 1) (W1 : forall l, (1 <= l <= p_L m)%Z -> Rabs (cos (IZR l * R_of (p_w0 m))) <= 0.9988)
  (AM : amplitudes_to 268435456 m) (EN : 1e-6 <= energy m).
Let L := p_L m.
Let x l := cell zero (p_Ml m) l.
Let c l := harmonic_cos o (p_w0 m) l.
Lemma cosine_at : forall l, (1 <= l <= L)%Z -> ff (c l) /\ Rabs (R_of (c l)) <= 0.9989.
Proof.
  intros l Hl. destruct (harmonic_cos_near o (p_w0 m) l ltac:(subst L; lia) TC) as [F E]. split; [exact F|].
  pose proof (W1 l Hl) as C. replace (R_of (c l)) with (cos (IZR l * R_of (p_w0 m)) + (R_of (c l) - cos (IZR l * R_of (p_w0 m)))) by ring.
  eapply Rle_trans; [apply Rabs_triang|]. unfold c. lra.
Qed.
Lemma moments : let e := energy m in let r0 := R_of (moment0 o m) in let r1 := R_of (moment1 o m) in
  ff (moment0 o m) /\ ff (moment1 o m) /\ 0.99999 * e <= r0 <= 1.00001 * e /\ Rabs r1 <= 0.9991 * r0 /\ 1e-6 <= e <= 4.1e18.
Proof.
  cbv zeta. u_hyps. pose proof tiny_40 as T40. assert (UU : u24 <= 6e-8) by (unfold u24; lra).
  assert (NL : 1 <= IZR L <= 56) by (split; apply IZR_le; subst L; lia).
  assert (XB : forall k, (1 <= k <= L)%Z -> ff (x k) /\ 0 <= R_of (x k) <= 268435456) by (intros k Hk; apply AM, Hk).
  assert (XQ : forall k, (1 <= k <= L)%Z -> 0 <= R_of (x k) * R_of (x k) <= 72057594037927936).
  { intros k Hk. destruct (XB k Hk) as [_ K]. split; [apply Rle_0_sqr|]. replace 72057594037927936 with (268435456 * 268435456) by lra. apply Rmult_le_compat; lra. }
  destruct (sum_squares (o_simd o) x L ltac:(subst L; lia)) as (F0 & E0 & P0 & Q0). { intros k Hk. destruct (XB k Hk) as [A B]. split; [exact A|]. rewrite Rabs_pos_eq; lra. }
  change (add_all (o_simd o) (map (fun k => fmul (x k) (x k)) (upto L))) with (moment0 o m) in *. change (rsum (fun k => R_of (x k) * R_of (x k)) (upto L)) with (energy m) in *. set (e := energy m) in *.
  assert (EB : e <= 4.1e18).
  { pose proof (rsum_le (fun k => R_of (x k) * R_of (x k)) 72057594037927936 (upto L)) as K. change (rsum (fun k => R_of (x k) * R_of (x k)) (upto L)) with e in K.
    assert (LEN : INR (length (upto L)) <= 56) by (rewrite upto_length, INR_IZR_INZ; apply IZR_le; subst L; lia).
    assert (INR (length (upto L)) * 72057594037927936 <= 56 * 72057594037927936) by (apply Rmult_le_compat_r; lra).
    enough (e <= INR (length (upto L)) * 72057594037927936) by lra. apply K. intros k Hk. apply in_upto in Hk. apply XQ, Hk. }
  assert (R0 : 0.99999 * e <= R_of (moment0 o m) <= 1.00001 * e).
  { apply Rabs_le_inv in E0. assert (UE : 0 <= u24 * e <= 6e-8 * e) by (split; [apply Rmult_le_pos; lra|apply Rmult_le_compat_r; lra]).
    assert (A : (IZR L + 5) * (1.01 * u24 * e) <= 61 * (1.01 * 6e-8 * e)) by (apply Rmult_le_compat; lra). assert (B : (IZR L + 3) * (4 * tiny) <= 59 * (4 * 1e-40)) by (apply Rmult_le_compat; lra). lra. }
  destruct (sum_size (o_simd o) (fun l => fmul (fmul (x l) (x l)) (c l)) (fun l => 0.99891 * (R_of (x l) * R_of (x l)) + 1e-36) L ltac:(subst L; lia)) as (F1 & E1 & P1).
  { intros k Hk. destruct (XB k Hk) as [A B]. pose proof (XQ k Hk) as Q. destruct (cosine_at k Hk) as [CF CB]. split; [|split; [|lra]].
    - assert (S1 : sized 73e15 (fmul (x k) (x k))) by (apply (s_mul _ _ 268435456 268435456); try lra; split; auto; rewrite Rabs_pos_eq; lra).
      assert (S2 : sized 74e15 (fmul (fmul (x k) (x k)) (c k))) by (apply (s_mul _ _ 73e15 1); auto; try lra; split; auto; lra). apply S2.
    - destruct (fmul_e (x k) (x k) A A) as [G H]; [rewrite Rabs_pos_eq by lra; unfold huge; lra|]. rewrite (Rabs_pos_eq (R_of (x k) * R_of (x k))) in H by lra. apply Rabs_le_inv in H.
      set (q := R_of (x k) * R_of (x k)) in *. assert (UQ : 0 <= u24 * q <= 6e-8 * q) by (split; [apply Rmult_le_pos; lra|apply Rmult_le_compat_r; lra]).
      assert (HA : Rabs (R_of (fmul (x k) (x k))) <= 1.0000001 * q + 1e-40) by (apply Rabs_le; lra).
      assert (PB : Rabs (R_of (fmul (x k) (x k)) * R_of (c k)) <= (1.0000001 * q + 1e-40) * 0.9989) by (rewrite Rabs_mult; apply Rmult_le_compat; auto using Rabs_pos).
      destruct (fmul_e (fmul (x k) (x k)) (c k) G CF) as [G2 H2]; [unfold huge; lra|].
      set (z := R_of (fmul (x k) (x k)) * R_of (c k)) in *. pose proof (Rabs_pos z) as Z0.
      assert (UZ : u24 * Rabs z <= 6e-8 * Rabs z) by (apply Rmult_le_compat_r; lra).
      replace (R_of (fmul (fmul (x k) (x k)) (c k))) with (z + (R_of (fmul (fmul (x k) (x k)) (c k)) - z)) by ring. eapply Rle_trans; [apply Rabs_triang|]. lra. }
  assert (YS : rsum (fun l => 0.99891 * (R_of (x l) * R_of (x l)) + 1e-36) (upto L) <= 0.99891 * e + 56 * 1e-36).
  { pose proof (rsum_lower (fun l => 0.99891 * (R_of (x l) * R_of (x l))) (fun l => 0.99891 * (R_of (x l) * R_of (x l)) + 1e-36) 1 1e-36 (upto L)) as K.
    rewrite rsum_scale in K. change (rsum (fun k => R_of (x k) * R_of (x k)) (upto L)) with e in K.
    assert (LEN : INR (length (upto L)) <= 56) by (rewrite upto_length, INR_IZR_INZ; apply IZR_le; subst L; lia).
    assert (INR (length (upto L)) * 1e-36 <= 56 * 1e-36) by (apply Rmult_le_compat_r; lra).
    match type of K with ?A -> _ => assert (KA : A) by (intros; lra) end. specialize (K KA). lra. }
  change (add_all (o_simd o) (map (fun l => fmul (fmul (x l) (x l)) (c l)) (upto L))) with (moment1 o m) in *. set (Y := rsum _ (upto L)) in *.
  assert (R1 : Rabs (R_of (moment1 o m)) <= 0.99905 * e) by lra.
  repeat split; try apply F0; try apply F1; try lra.
Qed.

Lemma positive_sign : forall y, ff y -> 0 < R_of y -> BinarySingleNaN.sign_SF y = false.
Proof. intros y F P. destruct (nn_sign y (nn_ff y F ltac:(lra))) as [E|[s ->]]; [exact E|]. change (R_of (S754_zero s)) with 0 in P. lra. Qed.
Lemma number_over : forall y z, ff y -> 0 < R_of y -> (ff z /\ 0 < R_of z) \/ z = S754_infinity false -> nn (fdiv y z).
Proof.
  intros y z F P [[Fz Pz]| ->].
  - destruct (div_cases 24 128 Hp24 He24 y z (proj1 F) (proj1 Fz) (proj2 F)) as [[A B]|B]; [lra| |].
    + apply nn_ff; [split; [apply vf_fdiv; [apply F|apply Fz]|exact A]|]. unfold fdiv. rewrite B. apply rndf_nn. unfold Rdiv. apply Rmult_le_pos; [lra|]. left. apply Rinv_0_lt_compat, Pz.
    + unfold fdiv. rewrite B, (positive_sign y F P), (positive_sign z Fz Pz). split; reflexivity.
  - destruct y as [s|s| |s mm ee]; try (destruct F as [_ F]; discriminate F); [change (R_of (S754_zero s)) with 0 in P; lra|]. pose proof (positive_sign _ F P) as S. cbn [BinarySingleNaN.sign_SF] in S. subst s. split; reflexivity.
Qed.
Lemma positive_mul : forall y z, ff y -> ff z -> 0 < R_of y -> 0 < R_of z -> 1e-30 <= R_of y * R_of z -> (ff (fmul y z) /\ 0 < R_of (fmul y z)) \/ fmul y z = S754_infinity false.
Proof.
  intros y z Fy Fz Py Pz H. destruct (mul_cases 24 128 Hp24 He24 y z (proj1 Fy) (proj1 Fz) (proj2 Fy) (proj2 Fz)) as [[A B]|B].
  - left. split; [split; [apply vf_fmul; [apply Fy|apply Fz]|exact A]|]. unfold fmul. rewrite B. pose proof (PReal.rnd_rel (R_of y * R_of z)) as Q. rewrite (Rabs_pos_eq (R_of y * R_of z)) in Q by lra. apply Rabs_le_inv in Q. u_hyps. pose proof tiny_40.
    assert (u24 * (R_of y * R_of z) <= / 1000000 * (R_of y * R_of z)) by (apply Rmult_le_compat_r; lra). change (rnd 24 128 (R_of y * R_of z)) with (rndf (R_of y * R_of z)). lra.
  - right. unfold fmul. rewrite B, (positive_sign y Fy Py), (positive_sign z Fz Pz). reflexivity.
Qed.
Lemma rel_err : forall r s q, Rabs (s - r) <= u24 * Rabs r + tiny -> Rabs r <= 5 * q -> 1e-30 <= q -> Rabs (s - r) <= 3.1e-7 * q.
Proof.
  intros r s q H B Q. u_hyps. pose proof tiny_40. assert (u24 * Rabs r <= 6e-8 * (5 * q)) by (apply Rmult_le_compat; try lra; [apply Rabs_pos|unfold u24; lra]). lra.
Qed.
Lemma ratio_number : forall l, (1 <= l <= L)%Z ->
  let r0 := moment0 o m in let r1 := moment1 o m in
  nn (fdiv (fmul (fmul (flit 96 100) (d2f M_PI)) (fsub (fadd (fmul r0 r0) (fmul r1 r1)) (fmul (fmul (fmul (f_of_Z 2) r0) r1) (c l)))) (fmul (fmul (p_w0 m) r0) (fsub (fmul r0 r0) (fmul r1 r1)))).
Proof.
  intros l Hl. cbv zeta. destruct moments as (F0 & F1 & R0 & R1 & EB). destruct (cosine_at l Hl) as [CF CB]. set (r0 := moment0 o m) in *. set (r1 := moment1 o m) in *.
  set (a := R_of r0) in *. set (b := R_of r1) in *. set (cc := R_of (c l)) in *.
  assert (A0 : 9e-7 <= a <= 4.2e18) by lra. set (q := a * a). assert (Q0 : 8e-13 <= q <= 1.77e37) by (unfold q; split; [apply Rle_trans with (9e-7 * 9e-7); [lra|apply Rmult_le_compat; lra]|apply Rle_trans with (4.2e18 * 4.2e18); [apply Rmult_le_compat; lra|lra]]).
  pose proof (Rabs_pos b) as B0. assert (BB : 0 <= b * b <= 0.9983 * q).
  { split; [apply Rle_0_sqr|]. rewrite <- (Rabs_pos_eq (b * b)) by apply Rle_0_sqr. rewrite Rabs_mult. apply Rle_trans with (0.9991 * a * (0.9991 * a)); [apply Rmult_le_compat; lra|]. unfold q in *. lra. }
  assert (QT : q <= 1.7e37) by (unfold q; apply Rle_trans with ((1.00001 * 4.1e18) * (1.00001 * 4.1e18)); [apply Rmult_le_compat; lra|lra]).
  assert (ABq : Rabs (a * b) <= q) by (rewrite Rabs_mult, (Rabs_pos_eq a) by lra; unfold q; apply Rmult_le_compat_l; lra).
  assert (HU : forall r, Rabs r <= 5 * q -> Rabs r <= huge) by (intros r Hr; unfold huge; lra).
  (* the squares *)
  destruct (fmul_e r0 r0 F0 F0) as [G1 H1]; [apply HU; fold a; change (a * a) with q; rewrite Rabs_pos_eq; lra|]. fold a in H1. change (a * a) with q in H1. apply (rel_err _ _ q) in H1; [|rewrite Rabs_pos_eq; lra|lra].
  destruct (fmul_e r1 r1 F1 F1) as [G2 H2]; [apply HU; fold b; rewrite Rabs_pos_eq; lra|]. fold b in H2. apply (rel_err _ _ q) in H2; [|rewrite Rabs_pos_eq; lra|lra].
  set (A2 := fmul r0 r0) in *. set (B2 := fmul r1 r1) in *. apply Rabs_le_inv in H1, H2.
  destruct (fadd_e A2 B2 G1 G2) as [G3 H3]; [apply HU; apply Rabs_le; lra|]. apply (rel_err _ _ q) in H3; [|apply Rabs_le; lra|lra]. set (S := fadd A2 B2) in *. apply Rabs_le_inv in H3.
  destruct (fsub_e A2 B2 G1 G2) as [G4 H4]; [apply HU; apply Rabs_le; lra|]. apply (rel_err _ _ q) in H4; [|apply Rabs_le; lra|lra]. set (D := fsub A2 B2) in *. apply Rabs_le_inv in H4.
  (* twice the product times the cosine *)
  destruct two_R as [I2 E2]. u_hyps. pose proof tiny_40 as T40. assert (UU : u24 <= 6e-8) by (unfold u24; lra).
  destruct (fmul_e (f_of_Z 2) r0 I2 F0) as [G5 H5]; [rewrite E2; fold a; rewrite Rabs_pos_eq; unfold huge; lra|]. rewrite E2 in H5. fold a in H5. rewrite (Rabs_pos_eq (2 * a)) in H5 by lra. set (t1 := fmul (f_of_Z 2) r0) in *.
  assert (H5' : Rabs (R_of t1 - 2 * a) <= 1.3e-7 * a). { assert (u24 * (2 * a) <= 6e-8 * (2 * a)) by (apply Rmult_le_compat_r; lra). lra. }
  assert (Y1 : Rabs (R_of t1 * b - 2 * (a * b)) <= 1.3e-7 * q).
  { replace (R_of t1 * b - 2 * (a * b)) with ((R_of t1 - 2 * a) * b) by ring. rewrite Rabs_mult. apply Rle_trans with (1.3e-7 * a * a); [apply Rmult_le_compat; auto using Rabs_pos; lra|]. unfold q in *. lra. }
  assert (Y1' : Rabs (R_of t1 * b) <= 2.1 * q). { replace (R_of t1 * b) with (2 * (a * b) + (R_of t1 * b - 2 * (a * b))) by ring. eapply Rle_trans; [apply Rabs_triang|]. rewrite Rabs_mult, (Rabs_pos_eq 2) by lra. lra. }
  destruct (fmul_e t1 r1 G5 F1) as [G6 H6]; [apply HU; fold b; lra|]. fold b in H6. apply (rel_err _ _ q) in H6; [|lra|lra]. set (t2 := fmul t1 r1) in *.
  assert (Y2 : Rabs (R_of t2 - 2 * (a * b)) <= 4.5e-7 * q). { replace (R_of t2 - 2 * (a * b)) with ((R_of t2 - R_of t1 * b) + (R_of t1 * b - 2 * (a * b))) by ring. eapply Rle_trans; [apply Rabs_triang|]. lra. }
  assert (Y3 : Rabs (R_of t2 * cc - 2 * (a * b) * cc) <= 4.5e-7 * q).
  { replace (R_of t2 * cc - 2 * (a * b) * cc) with ((R_of t2 - 2 * (a * b)) * cc) by ring. rewrite Rabs_mult. apply Rle_trans with (4.5e-7 * q * 1); [apply Rmult_le_compat; auto using Rabs_pos; lra|lra]. }
  assert (Y3' : Rabs (R_of t2 * cc) <= 2.2 * q).
  { rewrite Rabs_mult. apply Rle_trans with (2.2 * q * 1); [|lra]. apply Rmult_le_compat; auto using Rabs_pos; [|lra].
    replace (R_of t2) with (2 * (a * b) + (R_of t2 - 2 * (a * b))) by ring. eapply Rle_trans; [apply Rabs_triang|]. rewrite Rabs_mult, (Rabs_pos_eq 2) by lra. lra. }
  destruct (fmul_e t2 (c l) G6 CF) as [G7 H7]; [apply HU; fold cc; lra|]. fold cc in H7. apply (rel_err _ _ q) in H7; [|lra|lra]. set (P := fmul t2 (c l)) in *.
  apply Rabs_le_inv in Y3, H7, Y3'.
  (* the difference: at least (1 - cos^2) r0^2 *)
  assert (C2 : cc * cc <= 0.99782). { rewrite <- (Rabs_pos_eq (cc * cc)) by apply Rle_0_sqr. rewrite Rabs_mult. apply Rle_trans with (0.9989 * 0.9989); [apply Rmult_le_compat; auto using Rabs_pos|lra]. }
  assert (LOW : 0.00218 * q <= q + b * b - 2 * (a * b) * cc).
  { replace (q + b * b - 2 * (a * b) * cc) with ((b - a * cc) * (b - a * cc) + q * (1 - cc * cc)) by (unfold q; ring). pose proof (Rle_0_sqr (b - a * cc)) as K. unfold Rsqr in K.
    assert (q * 0.00218 <= q * (1 - cc * cc)) by (apply Rmult_le_compat_l; lra). lra. }
  assert (UPP : q + b * b - 2 * (a * b) * cc <= 4 * q).
  { assert (K : Rabs (2 * (a * b) * cc) <= 2 * q). { rewrite !Rabs_mult, (Rabs_pos_eq 2) by lra. rewrite <- Rabs_mult. apply Rle_trans with (2 * q * 1); [apply Rmult_le_compat; try lra; try (apply Rmult_le_pos; [lra|apply Rabs_pos]); apply Rabs_pos|lra]. }
    apply Rabs_le_inv in K. lra. }
  destruct (fsub_e S P G3 G7) as [G8 H8]; [apply HU; apply Rabs_le; lra|]. apply (rel_err _ _ q) in H8; [|apply Rabs_le; lra|lra]. set (N := fsub S P) in *. apply Rabs_le_inv in H8.
  assert (NB : 0.002 * q <= R_of N <= 4.01 * q) by lra.
  set (K := fmul (flit 96 100) (d2f M_PI)). assert (KB : ff K /\ 3 <= R_of K <= 3.02) by (split; [apply ff_const; vm_compute; reflexivity|unfold K; R_val (fmul (flit 96 100) (d2f M_PI)); lra]). destruct KB as [KF KB].
  assert (KN : 3 * (0.002 * q) <= R_of K * R_of N <= 3.02 * (4.01 * q)) by (split; apply Rmult_le_compat; lra).
  destruct (fmul_e K N KF G8) as [G9 H9]; [rewrite Rabs_pos_eq by lra; unfold huge; lra|]. rewrite (Rabs_pos_eq (R_of K * R_of N)) in H9 by lra. apply Rabs_le_inv in H9.
  assert (KU : u24 * (R_of K * R_of N) <= 6e-8 * (R_of K * R_of N)) by (apply Rmult_le_compat_r; lra).
  apply number_over; [exact G9|lra|].
  (* below: w0 r0 (r0^2 - r1^2), perhaps infinite *)
  assert (DB : 0.0016 * q <= R_of D) by lra.
  assert (WA : 0.049 * a <= R_of (p_w0 m) * a <= 1 * a) by (split; apply Rmult_le_compat_r; lra).
  destruct (fmul_e (p_w0 m) r0 FW F0) as [G10 H10]; [fold a; rewrite Rabs_pos_eq by lra; unfold huge; lra|]. fold a in H10. rewrite (Rabs_pos_eq (R_of (p_w0 m) * a)) in H10 by lra. apply Rabs_le_inv in H10.
  assert (KW : u24 * (R_of (p_w0 m) * a) <= 6e-8 * (R_of (p_w0 m) * a)) by (apply Rmult_le_compat_r; lra).
  set (V := fmul (p_w0 m) r0) in *. assert (VB : 4e-8 <= R_of V) by lra.
  apply positive_mul; auto; try lra. apply Rle_trans with (4e-8 * (0.0016 * q)); [lra|]. apply Rmult_le_compat; lra.
Qed.
Lemma root_positive : forall y, ff y -> 0 < R_of y <= 1e30 -> ff (fsqrt y) /\ 0 < R_of (fsqrt y).
Proof.
  intros y F P. destruct (sqrt_R 24 128 Hp24 He24 y (proj1 F) (proj2 F)) as [A B]; [lra|]. split; [split; [apply vf_fsqrt, F|exact A]|].
  unfold fsqrt. rewrite B. destruct (of_Z_R 1 ltac:(lia)) as [F1 E1]. pose proof (sqrt_pos (R_of y)) as S0.
  assert (MX : forall r, r <= 1e30 -> 0 <= r -> r <= R_of FLT_MAX) by (intros r H1 H2; apply in_max; rewrite Rabs_pos_eq by exact H2; unfold huge; lra).
  assert (SY : sqrt (R_of y) * sqrt (R_of y) = R_of y) by (apply sqrt_sqrt; lra).
  destruct (Rle_or_lt 1 (R_of y)) as [H|H].
  - assert (K : 1 <= sqrt (R_of y)) by (rewrite <- sqrt_1; apply sqrt_le_1; lra).
    assert (sqrt (R_of y) * 1 <= sqrt (R_of y) * sqrt (R_of y)) by (apply Rmult_le_compat_l; lra).
    destruct (rnd_between 24 128 Hp24 (f_of_Z 1) FLT_MAX (sqrt (R_of y)) (proj1 F1) (proj1 ff_max)) as [Q _]; [split; [lra|apply MX; lra]|]. lra.
  - assert (K1 : sqrt (R_of y) <= 1) by (rewrite <- sqrt_1; apply sqrt_le_1; lra).
    assert (sqrt (R_of y) * sqrt (R_of y) <= sqrt (R_of y) * 1) by (apply Rmult_le_compat_l; lra).
    destruct (rnd_between 24 128 Hp24 y FLT_MAX (sqrt (R_of y)) (proj1 F) (proj1 ff_max)) as [Q _]; [split; [lra|apply MX; lra]|]. lra.
Qed.
Lemma nn_root : forall y, nn y -> nn (fsqrt y).
Proof.
  intros y N. destruct (nn_inv y N) as [->|[F P]]; [split; reflexivity|]. destruct (sqrt_R 24 128 Hp24 He24 y (proj1 F) (proj2 F) P) as [A B].
  apply nn_ff; [split; [apply vf_fsqrt, F|exact A]|]. unfold fsqrt. rewrite B. apply rndf_nn, sqrt_pos.
Qed.
Lemma weight_number : forall l, (1 <= l <= L)%Z -> R_of (x l) <> 0 -> nn (weight o m l).
Proof.
  intros l Hl N. destruct (AM l Hl) as [F B]. fold (x l) in F, B. destruct (root_positive (x l) F) as [RF RP]; [lra|].
  unfold weight. cbv zeta. apply nn_mul; [exact RF|exact RP|]. do 2 apply nn_root. exact (ratio_number l Hl).
Qed.
Lemma scaled_from0 : forall k y, ff k -> ff y -> 0 <= R_of k <= 3 -> 0 <= R_of y <= 1e10 -> ff (fmul k y) /\ 0 <= R_of (fmul k y).
Proof.
  intros k y K Y HK HY. assert (B : 0 <= R_of k * R_of y <= 3 * 1e10) by (split; [apply Rmult_le_pos; lra|apply Rmult_le_compat; lra]).
  destruct (fmul_b k y zero FLT_MAX K Y) as (A & C & _); [split; reflexivity|exact ff_max| |split; [exact A|exact (proj1 C)]].
  change (R_of zero) with 0. split; [lra|]. apply in_max. rewrite Rabs_pos_eq by lra. unfold huge. lra.
Qed.
Lemma reweighted_number : forall l, (1 <= l <= L)%Z -> ff (reweighted o m l) /\ 0 <= R_of (reweighted o m l).
Proof.
  intros l Hl. destruct (AM l Hl) as [F B]. unfold reweighted. cbv zeta. fold (x l) in F, B |- *.
  destruct (SFeqb (x l) zero) eqn:Z0; [split; [exact F|apply B]|]. destruct (8 * l <=? p_L m)%Z; [split; [exact F|apply B]|].
  assert (N : R_of (x l) <> 0).
  { intro E. destruct (x l) as [s|s| |s mm ee]; [destruct s; discriminate Z0|destruct F as [_ F]; discriminate F|destruct F as [_ F]; discriminate F|].
    unfold R_of, BinarySingleNaN.SF2R in E. apply eq_0_F2R in E. destruct s; discriminate E. }
  pose proof (weight_number l Hl N) as W. set (w := weight o m l) in *.
  assert (C12 : ff (flit 12 10) /\ 1.19 <= R_of (flit 12 10) <= 1.21) by (split; [apply ff_const; vm_compute; reflexivity|R_val (flit 12 10); lra]).
  assert (C05 : ff (flit 1 2) /\ R_of (flit 1 2) = 1 / 2) by (split; [apply ff_const; vm_compute; reflexivity|R_val (flit 1 2); lra]).
  destruct C12 as [C1 C2], C05 as [C3 C4].
  destruct (flt (flit 12 10) w) eqn:G1; [apply scaled_from0; auto; lra|]. destruct (flt w (flit 1 2)) eqn:G2; [apply scaled_from0; auto; lra|].
  destruct (nn_inv w W) as [E|[Fw Pw]]; [rewrite E in G1; discriminate G1|]. apply flt_false in G1; auto. apply flt_false in G2; auto. apply scaled_from0; auto; lra.
Qed.
End Frame.
Section Whole.
Context (o : oracle) (m : parms) (HL : (1 <= p_L m <= 56)%Z) (TC : trig_close o (p_w0 m)) (FW : ff (p_w0 m)) (W0 : 0.049 <= R_of (p_w0 m) <= 1) (W1 : forall l, (1 <= l <= p_L m)%Z -> Rabs (cos (IZR l * R_of (p_w0 m))) <= 0.9988)
  (AM : amplitudes_to 268435456 m) (EN : 1e-6 <= energy m).
Lemma restore_number : ff (restore o m) /\ 0.7 <= R_of (restore o m) <= 2.4.
Proof.
  destruct u_facts as [U T]. pose proof tiny_40 as T40. set (L := p_L m) in *.
  assert (H : forall k, (1 <= k <= L)%Z -> ff (cell zero (p_Ml m) k) /\ Rabs (R_of (cell zero (p_Ml m) k)) <= 1e9) by (intros k Hk; destruct (AM k Hk) as [A B]; split; [exact A|rewrite Rabs_pos_eq; lra]).
  assert (RW : forall k, (1 <= k <= L)%Z -> ff (reweighted o m k) /\ same_size (R_of (cell zero (p_Ml m) k)) (R_of (reweighted o m k))).
  { intros k Hk. apply reweighted_size; auto; [apply FW|]. apply (reweighted_number o m HL TC FW W0 W1 AM EN k Hk). }
  assert (N : 0 <= IZR L <= 56) by (split; apply IZR_le; lia).
  assert (LEN : INR (length (upto L)) <= 56) by (rewrite upto_length; rewrite INR_IZR_INZ; apply IZR_le; lia).
  destruct (sum_squares (o_simd o) (fun k => cell zero (p_Ml m) k) L ltac:(lia)) as (F0 & E0 & P0 & Q0). { intros k Hk. destruct (H k Hk). split; [assumption|lra]. }
  change (add_all (o_simd o) (map (fun k => fmul (cell zero (p_Ml m) k) (cell zero (p_Ml m) k)) (upto L))) with (moment0 o m) in *.
  change (rsum (fun k => R_of (cell zero (p_Ml m) k) * R_of (cell zero (p_Ml m) k)) (upto L)) with (energy m) in *.
  destruct (sum_squares (o_simd o) (fun k => reweighted o m k) L ltac:(lia)) as (F1 & E1 & P1 & Q1).
  { intros k Hk. destruct (RW k Hk) as [A (B & _)]. destruct (H k Hk) as [_ C]. split; [exact A|]. lra. }
  set (e1 := add_all (o_simd o) (map (fun k => fmul (reweighted o m k) (reweighted o m k)) (upto L))) in *. set (S := rsum (fun k => R_of (reweighted o m k) * R_of (reweighted o m k)) (upto L)) in *.
  set (En := energy m) in *.
  assert (LEN1 : INR (length (upto L)) * 1e-30 <= 56 * 1e-30) by (apply Rmult_le_compat_r; lra).
  assert (SL : 0.2 * En - 56 * 1e-30 <= S).
  { pose proof (rsum_lower (fun k => R_of (reweighted o m k) * R_of (reweighted o m k)) (fun k => R_of (cell zero (p_Ml m) k) * R_of (cell zero (p_Ml m) k)) 0.2 1e-30 (upto L)) as Q.
    change (rsum (fun k => R_of (cell zero (p_Ml m) k) * R_of (cell zero (p_Ml m) k)) (upto L)) with En in Q. fold S in Q.
    enough (0.2 * En - INR (length (upto L)) * 1e-30 <= S) by lra. apply Q. intros k Hk. apply in_upto in Hk. apply (RW k Hk). }
  assert (SU : S <= 1.5 * En + 56 * 1e-30).
  { pose proof (rsum_lower (fun k => 1.5 * (R_of (cell zero (p_Ml m) k) * R_of (cell zero (p_Ml m) k))) (fun k => R_of (reweighted o m k) * R_of (reweighted o m k)) 1 1e-30 (upto L)) as Q.
    rewrite rsum_scale in Q. change (rsum (fun k => R_of (cell zero (p_Ml m) k) * R_of (cell zero (p_Ml m) k)) (upto L)) with En in Q. fold S in Q.
    enough (1 * S - INR (length (upto L)) * 1e-30 <= 1.5 * En) by lra. apply Q. intros k Hk. apply in_upto in Hk. pose proof (proj2 (proj2 (proj2 (RW k Hk)))). lra. }
  assert (V : u24 = / 16777216) by reflexivity.
  assert (CL : forall e r, 1e-8 <= r -> Rabs (e - r) <= (IZR L + 5) * (1.01 * u24 * r) + (IZR L + 3) * (4 * tiny) -> 0.9999 * r <= e <= 1.0001 * r).
  { intros e r R1 R3. assert (A : (IZR L + 5) * (1.01 * u24 * r) <= 61 * (1.01 * u24 * r)) by (apply Rmult_le_compat_r; [apply Rmult_le_pos; lra|lra]).
    assert (B : (IZR L + 3) * (4 * tiny) <= 59 * (4 * tiny)) by (apply Rmult_le_compat_r; lra). apply Rabs_le_inv in R3. rewrite V in *. lra. }
  apply CL in E0; [|lra]. apply CL in E1; [|lra]. clear CL.
  set (e0 := R_of (moment0 o m)) in *. set (d1 := R_of e1) in *.
  assert (D1 : 0.19 * En <= d1 <= 1.51 * En) by lra. assert (D0 : 0.999 * En <= e0 <= 1.001 * En) by lra.
  assert (QB : 0.6 <= e0 / d1 <= 5.3). { split; [apply Rle_div_r_pos|apply Rle_div_l_pos]; lra. }
  destruct (fdiv_e (moment0 o m) e1 F0 F1) as [Fq Eq]; [fold d1; lra|fold e0 d1; rewrite Rabs_right; unfold huge; lra|]. fold e0 d1 in Eq. rewrite (Rabs_right (e0 / d1)) in Eq by lra. set (q := R_of (fdiv (moment0 o m) e1)) in *.
  rewrite V in Eq. apply Rabs_le_inv in Eq. assert (QQ : 0.59 <= q <= 5.4) by lra.
  destruct (fsqrt_e (fdiv (moment0 o m) e1) Fq) as [Fg Eg]; [fold q; lra|]. fold q in Eg.
  assert (GE : restore o m = fsqrt (fdiv (moment0 o m) e1)).
  { unfold restore. cbv zeta. fold L e1. destruct (SFeqb e1 zero) eqn:Z; [|reflexivity]. exfalso. assert (d1 = 0); [|lra]. exact (eqb_zero_R e1 Z). }
  rewrite GE. split; [exact Fg|].
  assert (R0 : 0.76 <= sqrt q <= 2.33). { split; [apply Rsqr_incr_0_var|apply Rsqr_incr_0_var]; try (rewrite Rsqr_sqrt by lra; unfold Rsqr); unfold Rsqr; try lra; try apply sqrt_pos. }
  rewrite V in Eg. apply Rabs_le_inv in Eg. lra.
Qed.
Lemma enhanced_number : forall l, (1 <= l <= p_L m)%Z -> let y := R_of (cell zero (enhanced_amplitudes o m) l) in
  ff (cell zero (enhanced_amplitudes o m) l) /\ 0 <= y <= 3.2 * R_of (cell zero (p_Ml m) l) + 1e-30.
Proof.
  intros l Hl. cbv zeta. unfold enhanced_amplitudes. rewrite cell_replaced by lia. replace ((1 <=? l) && (l <=? p_L m))%Z with true by lia.
  destruct (reweighted_number o m HL TC FW W0 W1 AM EN l Hl) as [RF RP]. destruct restore_number as [GF GB]. destruct (AM l Hl) as [MF MB].
  assert (S : same_size (R_of (cell zero (p_Ml m) l)) (R_of (reweighted o m l))).
  { apply (reweighted_size o m l); auto; [apply FW| |apply RF]. intros k Hk. destruct (AM k Hk) as [A B]. split; [exact A|rewrite Rabs_pos_eq; lra]. }
  destruct S as [S _]. rewrite !Rabs_pos_eq in S by lra. pose proof tiny_40 as T40. pose proof tiny_pos as T0.
  destruct (scaled_from0 (restore o m) (reweighted o m l) GF RF) as [PF PP]; [lra|lra|]. split; [exact PF|]. split; [exact PP|].
  assert (PB : 0 <= R_of (restore o m) * R_of (reweighted o m l) <= 2.4 * (1.3 * R_of (cell zero (p_Ml m) l) + tiny)) by (split; [apply Rmult_le_pos; lra|apply Rmult_le_compat; lra]).
  destruct (fmul_e (restore o m) (reweighted o m l) GF RF) as [_ E]; [rewrite Rabs_pos_eq by lra; unfold huge; lra|]. rewrite (Rabs_pos_eq (R_of (restore o m) * R_of (reweighted o m l))) in E by lra. apply Rabs_le_inv in E.
  assert (u24 * (R_of (restore o m) * R_of (reweighted o m l)) <= / 1000000 * (R_of (restore o m) * R_of (reweighted o m l))) by (apply Rmult_le_compat_r; [lra|]; apply u_facts). lra.
Qed.
Lemma enhance_numbers : forall a t, length (p_Ml m) = 57%nat -> exists m' t', mbe_spectralAmpEnhance o a m t = Ok (m', t') /\
  (forall l, (1 <= l <= p_L m)%Z -> ff (cell zero (p_Ml m') l) /\ 0 <= R_of (cell zero (p_Ml m') l) <= 3.2 * R_of (cell zero (p_Ml m) l) + 1e-30) /\
  Rabs (energy m' - energy m) <= energy m / 100000.
Proof.
  intros a t LM. pose proof (enhance_formula o a m t LM ltac:(lia)) as E. eexists _, _. split; [exact E|]. split; [exact enhanced_number|].
  assert (K : forall k, (1 <= k <= p_L m)%Z -> ff (cell zero (p_Ml m) k) /\ Rabs (R_of (cell zero (p_Ml m) k)) <= 1e9) by (intros k Hk; destruct (AM k Hk) as [A B]; split; [exact A|rewrite Rabs_pos_eq; lra]).
  apply (enhance_energy o a m t _ _ LM (proj1 FW) ltac:(lia) K ltac:(lra) E). intros k Hk. apply (enhanced_number k Hk).
Qed.
End Whole.
