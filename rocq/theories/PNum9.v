(* The fundamentals of AMBE frames keep their harmonics away from multiples of half the sampling rate. *)
From Coq Require Import ZArith Reals Lra Lia List Bool.
From Verif Require Import Res F32 TabAmbe2450 TabAmbe2400 MParms MAmbe SpecFrame SpecAmbe SpecAmbeMachine SpecNum PBase PFloat PFloat2 PReal PExp2 PNyq PGen PNum4 PNum5.
From Flocq Require Import Core.Core.
Import ListNotations.
Local Open Scope R_scope.

(* ---- 2450 ---- *)
Definition low2450_b (b : Z) : bool :=
  match radians (nth (Z.to_nat b) AmbeW0table fzero) with
  | S754_finite false m e => (e <? 0)%Z && SpecFloat.valid_binary 24 128 (S754_finite false m e) && (49 * 2 ^ (- e) <=? 1000 * Z.pos m)%Z && (Z.pos m <=? 2 ^ (- e))%Z && (1 <=? harmonics2450 b)%Z && (harmonics2450 b <=? 56)%Z
  | _ => false
  end.
Lemma low2450_all : forallb low2450_b (zrange 120) = true.
Proof. vm_compute. reflexivity. Qed.
Lemma low2450 : forall b, (0 <= b < 120)%Z -> ff (w0_2450 b) /\ 0.049 <= R_of (w0_2450 b) <= 1 /\ (1 <= harmonics2450 b <= 56)%Z.
Proof.
  intros b Hb. pose proof (zrange_forallb 120 _ low2450_all b ltac:(lia)) as A. unfold low2450_b in A. unfold w0_2450.
  replace (silence2450 b) with false by (unfold silence2450; lia).
  destruct (radians (nth (Z.to_nat b) AmbeW0table fzero)) as [s|s| |s m e]; try discriminate A. destruct s; [discriminate A|].
  apply andb_true_iff in A as [A A6]. apply andb_true_iff in A as [A A5]. apply andb_true_iff in A as [A A4]. apply andb_true_iff in A as [A A3]. apply andb_true_iff in A as [A1 A2].
  apply Z.ltb_lt in A1. apply Z.leb_le in A3, A4, A5, A6. split; [split; [exact A2|reflexivity]|]. rewrite R_neg_exp by exact A1. cbn [cond_Zopp].
  assert (P : (0 < 2 ^ (- e))%Z) by (apply Z.pow_pos_nonneg; lia). apply IZR_lt in P. apply IZR_le in A3. apply IZR_le in A4. rewrite !mult_IZR in A3. split; [|lia].
  set (E := IZR (2 ^ (- e))) in *. set (M := IZR (Z.pos m)) in *. assert (Q : M / E * E = M) by (field; lra). split; apply (Rmult_le_reg_r E); try exact P; lra.
Qed.
Lemma silence_harmonics : forall x L, 0.6168 <= x <= 0.6170 -> (1 <= L <= 15)%Z -> forall l, (1 <= l <= L)%Z -> Rabs (cos (IZR l * x)) <= 0.9988.
Proof.
  intros x L HX HL l Hl. pose proof PI_bounds as P. assert (B : 1 <= IZR l <= 15) by (split; apply IZR_le; lia).
  destruct (Z_le_gt_dec l 5) as [H5|H5].
  - assert (IZR l <= 5) by (apply IZR_le, H5). apply cos_between. split; nra.
  - assert (6 <= IZR l) by (apply IZR_le; lia). destruct (Z_le_gt_dec l 10) as [H10|H10].
    + assert (IZR l <= 10) by (apply IZR_le, H10). replace (IZR l * x) with ((IZR l * x - PI) + PI) by ring. rewrite neg_cos, Rabs_Ropp. apply cos_between. split; nra.
    + assert (11 <= IZR l) by (apply IZR_le; lia). replace (IZR l * x) with ((IZR l * x - 2 * PI) + 2 * INR 1 * PI) by (cbn [INR]; ring). rewrite cos_period. apply cos_between. split; nra.
Qed.
Lemma silence_R : ff (fmul (fdiv (d2f M_PI) (f_of_Z 32)) (d2f (dmul (d_of_Z 2) M_PI))) /\ 0.6168 <= R_of (fmul (fdiv (d2f M_PI) (f_of_Z 32)) (d2f (dmul (d_of_Z 2) M_PI))) <= 0.6170.
Proof. split; [apply ff_const; vm_compute; reflexivity|]. R_val (fmul (fdiv (d2f M_PI) (f_of_Z 32)) (d2f (dmul (d_of_Z 2) M_PI))). lra. Qed.
Lemma pitched2450 : forall b m, (0 <= b < 120 \/ b = 124 \/ b = 125)%Z -> p_w0 m = w0_2450 b -> p_L m = harmonics2450 b -> pitched m /\ ff (p_w0 m).
Proof.
  intros b m Hb EW EL. destruct Hb as [Hb|Hb].
  - destruct (low2450 b Hb) as (F & R & HL). pose proof (top2450 b Hb) as T. rewrite EW. split; [|exact F]. apply low_harmonics; rewrite ?EW, ?EL; [exact HL|exact R|lra].
  - assert (E : w0_2450 b = fmul (fdiv (d2f M_PI) (f_of_Z 32)) (d2f (dmul (d_of_Z 2) M_PI))) by (destruct Hb as [-> | -> ]; reflexivity). rewrite E in EW. destruct silence_R as [F R].
    assert (HL : (1 <= harmonics2450 b <= 15)%Z) by (destruct Hb as [-> | -> ]; split; vm_compute; discriminate). rewrite EW. split; [|exact F]. unfold pitched. rewrite EW, EL. split; [lia|]. split; [lra|]. apply silence_harmonics; assumption.
Qed.

(* ---- 2400 ---- *)
Lemma root256 : Rpower 2 (1 / 256) <= 1002712 / 1000000.
Proof.
  destruct (Rle_or_lt (Rpower 2 (1 / 256)) (1002712 / 1000000)) as [H|H]; [exact H|exfalso].
  assert (P : Rpower 2 (1 / 256) ^ 256 = 2).
  { rewrite <- Rpower_pow by apply exp_pos. rewrite Rpower_mult. replace (1 / 256 * INR 256) with 1 by (rewrite INR_IZR_INZ; change (Z.of_nat 256) with 256%Z; lra). apply Rpower_1. lra. }
  assert (Q : (1002712 / 1000000) ^ 256 <= Rpower 2 (1 / 256) ^ 256) by (apply pow_incr; lra).
  rewrite P in Q. revert Q. apply Rlt_not_le. unfold Rdiv. rewrite Rpow_mult_distr, pow_inv. rewrite !pow_IZR.
  assert (E : (2 * 1000000 ^ Z.of_nat 256 < 1002712 ^ Z.of_nat 256)%Z) by (vm_compute; reflexivity).
  apply (Rmult_lt_reg_r (IZR (1000000 ^ Z.of_nat 256))); [apply IZR_lt; vm_compute; reflexivity|].
  rewrite Rmult_assoc, Rinv_l by (apply not_0_IZR; vm_compute; discriminate). rewrite Rmult_1_r, <- mult_IZR. apply IZR_lt. exact E.
Qed.
(* upper bounds for 2^24 * 2^(r/256) *)
Fixpoint fine (r : nat) : Z := match r with O => 16777216%Z | S r => (fine r * 1002712 / 1000000 + 1)%Z end.
Lemma fine_ge : forall r, 16777216 * Rpower 2 (INR r / 256) <= IZR (fine r).
Proof.
  induction r as [|r IH].
  - cbn [fine INR]. replace (0 / 256) with 0 by lra. rewrite Rpower_O by lra. lra.
  - rewrite S_INR. replace ((INR r + 1) / 256) with (INR r / 256 + 1 / 256) by lra. rewrite Rpower_plus. pose proof root256 as H64.
    assert (P0 : 0 < Rpower 2 (INR r / 256)) by apply exp_pos. assert (P1 : 0 < Rpower 2 (1 / 256)) by apply exp_pos.
    set (a := Rpower 2 (INR r / 256)) in *. set (c := Rpower 2 (1 / 256)) in *. cbn [fine]. set (u := fine r) in *.
    assert (D : (u * 1002712 <= (u * 1002712 / 1000000 + 1) * 1000000)%Z).
    { pose proof (Z.div_mod (u * 1002712) 1000000 ltac:(lia)). pose proof (Z.mod_pos_bound (u * 1002712) 1000000 ltac:(lia)). lia. }
    apply IZR_le in D. rewrite !mult_IZR in D. set (v := IZR (u * 1002712 / 1000000 + 1)) in *.
    assert (16777216 * a * c <= IZR u * (1002712 / 1000000)); [|nra].
    apply Rmult_le_compat; lra || nra.
Qed.
(* whether L 2^x <= 0.491 and x >= -7 for the exponent x of code b *)
Definition top2400_b (b : Z) : bool :=
  match exponent2400 b with
  | S754_finite true m e =>
      let q := (256 * Z.pos m / 2 ^ (- e))%Z in let r := (- q mod 256)%Z in let k := ((q + r) / 256)%Z in
      (e <? 0)%Z && (harmonics2400 b * fine (Z.to_nat r) * 1000 <=? 491 * 2 ^ (24 + k))%Z && (0 <=? k)%Z && (Z.pos m <=? 7 * 2 ^ (- e))%Z
  | _ => false
  end.
Lemma top2400_all : forallb top2400_b (zrange 126) = true.
Proof. vm_compute. reflexivity. Qed.
Lemma top2400 : forall b, (0 <= b < 126)%Z -> / 128 <= Rpower 2 (R_of (exponent2400 b)) /\ IZR (harmonics2400 b) * Rpower 2 (R_of (exponent2400 b)) <= 0.491.
Proof.
  intros b Hb. pose proof (zrange_forallb 126 _ top2400_all b ltac:(lia)) as A. destruct (power_bound b Hb) as (_ & _ & HL).
  unfold top2400_b in A. destruct (exponent2400 b) as [s|s| |s m e]; try discriminate A. destruct s; [|discriminate A]. cbv zeta in A.
  set (q := (256 * Z.pos m / 2 ^ (- e))%Z) in *. set (r := (- q mod 256)%Z) in *. set (k := ((q + r) / 256)%Z) in *.
  apply andb_true_iff in A as [A A4]. apply andb_true_iff in A as [A A3]. apply andb_true_iff in A as [A1 A2].
  apply Z.ltb_lt in A1. apply Z.leb_le in A2, A3, A4. rewrite R_neg_exp by exact A1. cbn [cond_Zopp].
  assert (P : (0 < 2 ^ (- e))%Z) by (apply Z.pow_pos_nonneg; lia). pose proof (Z.mod_pos_bound (- q) 256 ltac:(lia)) as Hr. fold r in Hr.
  assert (Hk : (q + r = 256 * k)%Z).
  { unfold k. pose proof (Z.div_mod (- q) 256 ltac:(lia)) as D. fold r in D. replace (q + r)%Z with (- (- q / 256) * 256)%Z by lia. rewrite Z.div_mul by lia. lia. }
  set (x := IZR (- Z.pos m) / IZR (2 ^ (- e))).
  assert (D : (q * 2 ^ (- e) <= 256 * Z.pos m)%Z) by (unfold q; rewrite Z.mul_comm; apply Z.mul_div_le; exact P).
  apply IZR_le in D. rewrite !mult_IZR in D. apply IZR_lt in P. apply IZR_le in A4. rewrite mult_IZR in A4.
  assert (X7 : - IZR 7 <= x).
  { unfold x. rewrite opp_IZR. apply (Rmult_le_reg_r (IZR (2 ^ (- e)))); [exact P|]. unfold Rdiv at 1. rewrite Rmult_assoc, Rinv_l by lra. lra. }
  assert (X : x <= INR (Z.to_nat r) / 256 + - IZR k).
  { rewrite INR_IZR_INZ, Z2Nat.id by lia. assert (K : IZR q + IZR r = 256 * IZR k) by (rewrite <- plus_IZR, <- mult_IZR; f_equal; exact Hk).
    unfold x. rewrite opp_IZR. apply (Rmult_le_reg_r (IZR (2 ^ (- e)))); [exact P|]. unfold Rdiv at 1. rewrite Rmult_assoc, Rinv_l by lra. nra. }
  apply Rpower_le2 in X7. rewrite Rpower_Zneg in X7 by lia. change (2 ^ 7)%Z with 128%Z in X7. split; [exact X7|].
  apply Rpower_le2 in X. rewrite Rpower_plus, Rpower_Zneg in X by exact A3. pose proof (fine_ge (Z.to_nat r)) as U.
  assert (Pk : 0 < IZR (2 ^ k)) by (apply IZR_lt, Z.pow_pos_nonneg; lia).
  assert (PX : 0 < Rpower 2 x) by apply exp_pos. set (w := Rpower 2 x) in *. set (a := Rpower 2 (INR (Z.to_nat r) / 256)) in *.
  assert (X2 : w * IZR (2 ^ k) * 16777216 <= IZR (fine (Z.to_nat r))).
  { apply Rle_trans with (16777216 * a); [|exact U]. assert (w * IZR (2 ^ k) <= a); [|lra].
    apply (Rmult_le_reg_r (/ IZR (2 ^ k))); [apply Rinv_0_lt_compat, Pk|]. rewrite Rmult_assoc, Rinv_r by lra. lra. }
  rewrite Z.pow_add_r in A2 by lia. change (2 ^ 24)%Z with 16777216%Z in A2. apply IZR_le in A2. repeat rewrite mult_IZR in A2.
  set (K := IZR (2 ^ k)) in *. set (u := IZR (fine (Z.to_nat r))) in *. assert (HL0 : 0 <= IZR (harmonics2400 b)) by (apply IZR_le; lia). set (L := IZR (harmonics2400 b)) in *. clearbody w K u L.
  apply (Rmult_le_reg_r (K * 16777216)); [nra|]. assert (H : L * (w * K * 16777216) <= L * u) by (apply Rmult_le_compat_l; lra). lra.
Qed.
Lemma pitched2400 : forall o b m, (0 <= b < 126)%Z -> exp2_fine o (exponent2400 b) -> p_w0 m = radians (exp2f o (exponent2400 b)) -> p_L m = harmonics2400 b -> pitched m /\ ff (p_w0 m).
Proof.
  intros o b m Hb [FE HE] EW EL. destruct (top2400 b Hb) as [T0 T1]. destruct (power_bound b Hb) as (PB & _ & HL). apply Rabs_le_inv in HE.
  set (x := Rpower 2 (R_of (exponent2400 b))) in *. set (y := R_of (exp2f o (exponent2400 b))) in *.
  destruct (radians_small _ FE) as [FR _]; [fold y; lra|]. pose proof (radians_near _ FE ltac:(fold y; lra)) as N. fold y in N. apply Rabs_le_inv in N. pose proof PI_bounds as P.
  rewrite EW. split; [|exact FR]. set (w := radians (exp2f o (exponent2400 b))) in *. assert (H9 : 9 <= IZR (harmonics2400 b)) by (apply IZR_le; lia). apply low_harmonics; rewrite ?EW, ?EL.
  - lia.
  - assert (2 * 3.1415926 * y <= 2 * PI * y <= 2 * 3.1415927 * y) by (split; apply Rmult_le_compat_r; lra). lra.
  - set (L := IZR (harmonics2400 b)) in *. set (v := R_of w) in *. assert (V : v <= 6.2833 * (1.001 * x)) by (assert (2 * PI * y <= 2 * 3.1415927 * y) by (apply Rmult_le_compat_r; lra); lra).
    apply Rle_trans with (6.2833 * (1.001 * x) * L); [apply Rmult_le_compat_r; lra|lra].
Qed.
