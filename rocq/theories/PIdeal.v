(* Correct rounding of a real number to a float, and the library functions that are correctly rounded. *)
From Coq Require Import ZArith Reals Lra Lia List Bool.
From Verif Require Import Res F32 MParms SpecBound SpecTrig PFloat PReal PFftF32.
From Flocq Require Import Core.Core IEEE754.BinarySingleNaN.
Import ListNotations.
Local Open Scope R_scope.

(* the float nearest to r *)
Definition fl (r : R) : f32 :=
  SpecFloat.binary_normalize 24 128 (ZnearestE (scaled_mantissa radix2 (SpecFloat.fexp 24 128) r)) (cexp radix2 (SpecFloat.fexp 24 128) r) false.
Lemma fl_vf : forall r, vf (fl r). Proof. intros r. apply (vb_norm 24 128 Hp24 He24). Qed.
Lemma fl_R : forall r, R_of (fopp FLT_MAX) <= r <= R_of FLT_MAX -> ff (fl r) /\ R_of (fl r) = rndf r.
Proof.
  intros r H. assert (E : F2R (Float radix2 (ZnearestE (scaled_mantissa radix2 (SpecFloat.fexp 24 128) r)) (cexp radix2 (SpecFloat.fexp 24 128) r)) = rndf r) by reflexivity.
  assert (Q : R_of (fopp FLT_MAX) <= rndf r <= R_of FLT_MAX) by (apply (rnd_between 24 128 Hp24); [apply fopp_max|apply ff_max|exact H]).
  destruct (norm_R 24 128 Hp24 He24 (ZnearestE (scaled_mantissa radix2 (SpecFloat.fexp 24 128) r)) (cexp radix2 (SpecFloat.fexp 24 128) r) false (fopp FLT_MAX) FLT_MAX) as [A B].
  { split; [apply fopp_max|]. split; [apply ff_max|]. rewrite E. exact Q. }
  split; [split; [apply fl_vf|exact A]|]. unfold fl. rewrite B, E. unfold rndf, rnd. apply round_generic; [apply valid_rnd_N|]. apply generic_format_round; [apply fexp_correct; reflexivity|apply valid_rnd_N].
Qed.
Lemma fl_e : forall r, Rabs r <= huge -> ff (fl r) /\ Rabs (R_of (fl r) - r) <= u24 * Rabs r + tiny.
Proof. intros r H. destruct (fl_R r (in_max _ H)) as [A B]. split; [exact A|]. rewrite B. apply rnd_rel. Qed.
(* the float nearest to a float is that float, zeros apart *)
Lemma fl_float : forall x, ff x -> R_of x <> 0 -> fl (R_of x) = x.
Proof.
  intros x [V F] N. destruct (fl_R (R_of x)) as [[V2 F2] E].
  { rewrite R_fopp. pose proof (le_FLT_MAX x V). split; [|assumption].
    pose proof (le_FLT_MAX (fopp x) (vf_fopp x V)) as Q2. rewrite R_fopp in Q2. lra. }
  unfold rndf in E. rewrite (rnd_vb 24 128 x V) in E.
  destruct (lift 24 128 _ V) as [a Ea]. destruct (lift 24 128 _ V2) as [b Eb]. rewrite Eb, Ea in *. f_equal.
  rewrite !R_B2SF in E. rewrite R_B2SF in N. rewrite !fin_B2SF in *. apply B2R_inj; [| |exact E].
  - destruct b; try discriminate F2; [exfalso; apply N; rewrite <- E; reflexivity|reflexivity].
  - destruct a; try discriminate F; [exfalso; apply N; reflexivity|reflexivity].
Qed.

(* every function of the C library correctly rounded *)
Definition ideal : oracle :=
  mkoracle (fun x => fl (cos (R_of x))) (fun x => fl (sin (R_of x))) (fun x => fl (Rpower 2 (R_of x))) (fun x => fl (ln (R_of x) / ln 2)) (fun x => fl (exp (R_of x)))
    (fun _ _ => S754_zero false) (fun _ _ => S754_zero false) true Scalar true.
Lemma ideal_cosf : forall x, cosf ideal x = fl (cos (R_of x)). Proof. intros x. apply canon_id, fl_vf. Qed.
Lemma ideal_sinf : forall x, sinf ideal x = fl (sin (R_of x)). Proof. intros x. apply canon_id, fl_vf. Qed.
Lemma ideal_exp2f : forall x, exp2f ideal x = fl (Rpower 2 (R_of x)). Proof. intros x. apply canon_id, fl_vf. Qed.
Lemma fl_unit : forall r, -1 <= r <= 1 -> ff (fl r) /\ Rabs (R_of (fl r)) <= 1 /\ Rabs (R_of (fl r) - r) <= / 8388608.
Proof.
  intros r H. destruct (of_Z_R 1) as [O1 O2]; [lia|]. destruct (of_Z_R (-1)) as [M1 M2]; [lia|].
  destruct (fl_R r) as [A B]; [apply in_max; unfold huge; apply Rabs_le; lra|]. split; [exact A|].
  assert (Q : R_of (f_of_Z (-1)) <= rndf r <= R_of (f_of_Z 1)) by (apply (rnd_between 24 128 Hp24); [apply M1|apply O1|rewrite O2, M2; exact H]).
  rewrite O2, M2 in Q. rewrite B. split; [apply Rabs_le; lra|]. pose proof (rnd_rel r) as E. pose proof tiny_small. assert (Rabs r <= 1) by (apply Rabs_le; lra).
  unfold u24 in E. lra.
Qed.
Lemma ideal_unit : cosine_in_unit ideal.
Proof. intros x _. rewrite ideal_cosf. destruct (fl_unit (cos (R_of x)) (COS_bound _)) as (A & B & _). split; assumption. Qed.
Lemma ideal_trig : forall x, trig_close ideal x.
Proof.
  intros x. unfold trig_close. rewrite ideal_cosf, ideal_sinf. destruct (fl_unit (cos (R_of x)) (COS_bound _)) as (A & _ & B). destruct (fl_unit (sin (R_of x)) (SIN_bound _)) as (C & _ & D). auto.
Qed.
Lemma ideal_powers : exact_powers ideal.
Proof.
  intros k Hk. rewrite ideal_exp2f. destruct (of_Z_R k) as [_ E]; [lia|]. assert (P : (1 <= 2 ^ k <= 512)%Z).
  { split; [pose proof (Z.pow_pos_nonneg 2 k); lia|]. change 512%Z with (2 ^ 9)%Z. apply Z.pow_le_mono_r; lia. }
  destruct (of_Z_R (2 ^ k)) as [F G]; [lia|]. replace (Rpower 2 (R_of (f_of_Z k))) with (R_of (f_of_Z (2 ^ k))).
  - apply fl_float; [exact F|]. rewrite G. intros Q. apply (eq_IZR _ 0) in Q. lia.
  - rewrite G, E. replace k with (Z.of_nat (Z.to_nat k)) at 2 by lia. rewrite <- INR_IZR_INZ, Rpower_pow by lra. rewrite pow_IZR. f_equal. f_equal. lia.
Qed.
Lemma ideal_exp2 : forall x, Rabs (R_of x) <= 108 -> ff (exp2f ideal x) /\ Rabs (R_of (exp2f ideal x) - Rpower 2 (R_of x)) <= Rpower 2 (R_of x) / 1000.
Proof.
  intros x H. rewrite ideal_exp2f. apply Rabs_le_inv in H. set (r := Rpower 2 (R_of x)).
  assert (P : 0 < r) by apply exp_pos.
  assert (UB : forall n, R_of x <= INR n -> r <= 2 ^ n) by (intros n Hn; rewrite <- Rpower_pow by lra; apply Rle_Rpower; lra).
  assert (LB : / 2 ^ 108 <= r).
  { apply (Rmult_le_reg_r (2 ^ 108)); [apply pow_lt; lra|]. rewrite Rinv_l by (apply pow_nonzero; lra). rewrite <- (Rpower_pow 108) by lra. unfold r. rewrite <- Rpower_plus.
    rewrite <- (Rpower_O 2) at 1 by lra. apply Rle_Rpower; [lra|]. rewrite INR_IZR_INZ. cbn. lra. }
  assert (UB2 : r <= 2 ^ 108) by (apply UB; rewrite INR_IZR_INZ; cbn; lra).
  assert (T : tiny <= / 1000000 * / 2 ^ 108).
  { unfold tiny. change (-150)%Z with (-108 + -42)%Z. rewrite bpow_plus. rewrite Rmult_comm. change (bpow radix2 (-108)) with (/ IZR (Z.pow_pos 2 108)). rewrite (pow_IZR 2 108). change (2 ^ Z.of_nat 108)%Z with (Z.pow_pos 2 108).
    apply Rmult_le_compat_r; [apply Rlt_le, Rinv_0_lt_compat, IZR_lt; reflexivity|]. cbn. lra. }
  destruct (fl_R r) as [A B].
  { rewrite R_fopp. R_val FLT_MAX. rewrite pow_IZR in UB2. change (2 ^ Z.of_nat 108)%Z with 324518553658426726783156020576256%Z in UB2. lra. }
  split; [exact A|]. rewrite B. eapply Rle_trans; [apply rnd_rel|]. rewrite (Rabs_pos_eq r) by lra. unfold u24. lra.
Qed.
