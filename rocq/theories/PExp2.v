(* Bounds for the AMBE 2400 fundamental 2^x, with x the exponent of a pitch code. *)
From Coq Require Import ZArith List Bool Lia Reals Lra.
From Verif Require Import Res F32 TabAmbe2400 MParms MAdaptive MUnvoiced MSynth MImbe MAmbe SpecImbe SpecAmbe PBase PFloat.
From Flocq Require Import Core.Core IEEE754.BinarySingleNaN.
Import ListNotations.
Local Open Scope R_scope.

Definition sq (x : Z) : Z := (x * x)%Z.
Lemma root64 : Rpower 2 (1 / 64) <= 1010890 / 1000000.
Proof.
  destruct (Rle_or_lt (Rpower 2 (1 / 64)) (1010890 / 1000000)) as [H|H]; [exact H|exfalso].
  assert (P : Rpower 2 (1 / 64) ^ 64 = 2).
  { rewrite <- Rpower_pow by apply exp_pos. rewrite Rpower_mult. replace (1 / 64 * INR 64) with 1 by (rewrite INR_IZR_INZ; change (Z.of_nat 64) with 64%Z; lra). apply Rpower_1. lra. }
  assert (Q : (1010890 / 1000000) ^ 64 <= Rpower 2 (1 / 64) ^ 64) by (apply pow_incr; lra).
  rewrite P in Q. revert Q. apply Rlt_not_le. unfold Rdiv. rewrite Rpow_mult_distr, pow_inv. rewrite !pow_IZR.
  assert (E : (2 * 1000000 ^ Z.of_nat 64 < 1010890 ^ Z.of_nat 64)%Z) by (vm_compute; reflexivity).
  apply (Rmult_lt_reg_r (IZR (1000000 ^ Z.of_nat 64))); [apply IZR_lt; vm_compute; reflexivity|].
  rewrite Rmult_assoc, Rinv_l by (apply not_0_IZR; vm_compute; discriminate). rewrite Rmult_1_r, <- mult_IZR. apply IZR_lt. exact E.
Qed.
(* upper bounds for 2^24 * 2^(r/64) *)
Fixpoint up (r : nat) : Z := match r with O => 16777216%Z | S r => (up r * 1010890 / 1000000 + 1)%Z end.
Lemma up_pos : forall r, (0 < up r)%Z.
Proof. induction r as [|r IH]; cbn [up]; [lia|]. pose proof (Z.div_pos (up r * 1010890) 1000000). lia. Qed.
Lemma up_ge : forall r, 16777216 * Rpower 2 (INR r / 64) <= IZR (up r).
Proof.
  induction r as [|r IH].
  - cbn [up INR]. replace (0 / 64) with 0 by lra. rewrite Rpower_O by lra. lra.
  - rewrite S_INR. replace ((INR r + 1) / 64) with (INR r / 64 + 1 / 64) by lra. rewrite Rpower_plus. pose proof root64 as H64.
    assert (P0 : 0 < Rpower 2 (INR r / 64)) by apply exp_pos. assert (P1 : 0 < Rpower 2 (1 / 64)) by apply exp_pos.
    set (a := Rpower 2 (INR r / 64)) in *. set (c := Rpower 2 (1 / 64)) in *. cbn [up]. set (u := up r) in *.
    assert (D : (u * 1010890 <= (u * 1010890 / 1000000 + 1) * 1000000)%Z).
    { pose proof (Z.div_mod (u * 1010890) 1000000 ltac:(lia)). pose proof (Z.mod_pos_bound (u * 1010890) 1000000 ltac:(lia)). lia. }
    apply IZR_le in D. rewrite !mult_IZR in D. set (v := IZR (u * 1010890 / 1000000 + 1)) in *.
    assert (16777216 * a * c <= IZR u * (1010890 / 1000000)); [|nra].
    apply Rmult_le_compat; lra || nra.
Qed.
Lemma Rpower_le2 : forall x y, x <= y -> Rpower 2 x <= Rpower 2 y.
Proof. intros x y H. apply Rle_Rpower; lra. Qed.
Lemma Rpower_Zneg : forall k, (0 <= k)%Z -> Rpower 2 (- IZR k) = / IZR (2 ^ k).
Proof.
  intros k Hk. rewrite Rpower_Ropp. f_equal. rewrite <- (Z2Nat.id k) by exact Hk. rewrite <- INR_IZR_INZ, Rpower_pow by lra.
  rewrite <- pow_IZR. reflexivity.
Qed.
(* whether 16 L (1.01 * 2^x) <= 1023/128 and 2^x <= 1/16 for the exponent x of code b *)
Definition code_b (b : Z) : bool :=
  match exponent2400 b with
  | S754_finite true m e =>
      let q := (64 * Z.pos m / 2 ^ (- e))%Z in let r := (- q mod 64)%Z in let k := ((q + r) / 64)%Z in
      (e <? 0)%Z && (16 * 101 * harmonics2400 b * 128 * up (Z.to_nat r) <=? 1023 * 100 * 2 ^ (24 + k))%Z && (0 <=? k)%Z && (16 * up (Z.to_nat r) <=? 2 ^ (24 + k))%Z
  | _ => false
  end.
Lemma code_b_all : forallb (fun b => code_b b && match sf_trunc (nth (Z.to_nat b) AmbePlusLtable fzero) with Some z => (9 <=? z)%Z && (z <=? 56)%Z | None => false end) (zrange 126) = true.
Proof. vm_compute. reflexivity. Qed.
Lemma power_bound : forall b, (0 <= b < 126)%Z -> 0 < Rpower 2 (R_of (exponent2400 b)) <= 1 / 16 /\
  16 * IZR (harmonics2400 b) * (101 / 100 * Rpower 2 (R_of (exponent2400 b))) <= 1023 / 128 /\ (9 <= harmonics2400 b <= 56)%Z.
Proof.
  intros b Hb. pose proof (zrange_forallb 126 _ code_b_all b ltac:(lia)) as A. cbv beta in A. apply andb_true_iff in A as [A AL].
  assert (HL : (9 <= harmonics2400 b <= 56)%Z) by (unfold harmonics2400, whole; destruct (sf_trunc (nth (Z.to_nat b) AmbePlusLtable fzero)); [lia|discriminate AL]). clear AL.
  unfold code_b in A. destruct (exponent2400 b) as [s|s| |s m e]; try discriminate A. destruct s; [|discriminate A]. cbv zeta in A.
  set (q := (64 * Z.pos m / 2 ^ (- e))%Z) in *. set (r := (- q mod 64)%Z) in *. set (k := ((q + r) / 64)%Z) in *.
  apply andb_true_iff in A as [A A4]. apply andb_true_iff in A as [A A3]. apply andb_true_iff in A as [A1 A2].
  apply Z.ltb_lt in A1. apply Z.leb_le in A2, A3, A4. rewrite R_neg_exp by exact A1. cbn [cond_Zopp].
  assert (P : (0 < 2 ^ (- e))%Z) by (apply Z.pow_pos_nonneg; lia).
  pose proof (Z.mod_pos_bound (- q) 64 ltac:(lia)) as Hr. fold r in Hr.
  assert (Hk : (q + r = 64 * k)%Z).
  { unfold k. pose proof (Z.div_mod (- q) 64 ltac:(lia)) as D. fold r in D. replace (q + r)%Z with (- (- q / 64) * 64)%Z by lia. rewrite Z.div_mul by lia. lia. }
  set (x := IZR (- Z.pos m) / IZR (2 ^ (- e))).
  assert (X : x <= INR (Z.to_nat r) / 64 + - IZR k).
  { rewrite INR_IZR_INZ, Z2Nat.id by lia. assert (D : (q * 2 ^ (- e) <= 64 * Z.pos m)%Z) by (unfold q; rewrite Z.mul_comm; apply Z.mul_div_le; exact P).
    apply IZR_le in D. rewrite !mult_IZR in D. apply IZR_lt in P. assert (K : IZR q + IZR r = 64 * IZR k) by (rewrite <- plus_IZR, <- mult_IZR; f_equal; exact Hk).
    unfold x. rewrite opp_IZR. apply (Rmult_le_reg_r (IZR (2 ^ (- e)))); [exact P|]. unfold Rdiv at 1. rewrite Rmult_assoc, Rinv_l by lra. nra. }
  apply Rpower_le2 in X. rewrite Rpower_plus, Rpower_Zneg in X by exact A3. pose proof (up_ge (Z.to_nat r)) as U.
  assert (Pk : 0 < IZR (2 ^ k)) by (apply IZR_lt, Z.pow_pos_nonneg; lia).
  assert (PX : 0 < Rpower 2 x) by apply exp_pos. set (w := Rpower 2 x) in *. set (a := Rpower 2 (INR (Z.to_nat r) / 64)) in *.
  assert (X2 : w * IZR (2 ^ k) * 16777216 <= IZR (up (Z.to_nat r))).
  { apply Rle_trans with (16777216 * a); [|exact U]. assert (w * IZR (2 ^ k) <= a); [|lra].
    apply (Rmult_le_reg_r (/ IZR (2 ^ k))); [apply Rinv_0_lt_compat, Pk|]. rewrite Rmult_assoc, Rinv_r by lra. lra. }
  rewrite Z.pow_add_r in A2, A4 by lia. change (2 ^ 24)%Z with 16777216%Z in A2, A4. apply IZR_le in A2, A4. repeat rewrite mult_IZR in A2. repeat rewrite mult_IZR in A4.
  set (K := IZR (2 ^ k)) in *. set (u := IZR (up (Z.to_nat r))) in *.
  assert (HL0 : 0 <= IZR (harmonics2400 b)) by (apply IZR_le; lia). set (L := IZR (harmonics2400 b)) in *. split; [split; [exact PX|]|split; [|exact HL]].
  - apply (Rmult_le_reg_r (K * 16777216)); [nra|]. nra.
  - clearbody w K u L. apply (Rmult_le_reg_r (K * 16777216)); [nra|]. assert (H : 16 * 101 * L * 128 * (w * K * 16777216) <= 16 * 101 * L * 128 * u) by (apply Rmult_le_compat_l; [lra|exact X2]).
    lra.
Qed.

(* ---- conversions between single and double precision, by bounds ---- *)
Lemma d2f_b : forall x lo hi, fd x -> ff lo -> ff hi -> R_of lo <= R_of x <= R_of hi -> ff (d2f x) /\ R_of lo <= R_of (d2f x) <= R_of hi.
Proof.
  intros [s|s| |s m e] lo hi [V F] Hl Hh H; try discriminate F.
  - split; [split; reflexivity|exact H].
  - destruct (round_R 24 128 Hp24 He24 s m e lo hi) as [A B]; [split; [apply Hl|split; [apply Hh|exact H]]|].
    split; [split; [apply (vb_round 24 128 Hp24 He24)|exact A]|]. change (d2f (S754_finite s m e)) with (SpecFloat.binary_round 24 128 s m e). rewrite B.
    apply rnd_between; [exact Hp24|apply Hl|apply Hh|exact H].
Qed.
Lemma f2d_b : forall x lo hi, ff x -> fd lo -> fd hi -> R_of lo <= R_of x <= R_of hi -> fd (f2d x) /\ R_of lo <= R_of (f2d x) <= R_of hi.
Proof.
  intros [s|s| |s m e] lo hi [V F] Hl Hh H; try discriminate F.
  - split; [split; reflexivity|exact H].
  - destruct (round_R 53 1024 Hp53 He53 s m e lo hi) as [A B]; [split; [apply Hl|split; [apply Hh|exact H]]|].
    split; [split; [apply (vb_round 53 1024 Hp53 He53)|exact A]|]. change (f2d (S754_finite s m e)) with (SpecFloat.binary_round 53 1024 s m e). rewrite B.
    apply rnd_between; [exact Hp53|apply Hl|apply Hh|exact H].
Qed.
Lemma dmul_b : forall x y lo hi, fd x -> fd y -> fd lo -> fd hi -> R_of lo <= R_of x * R_of y <= R_of hi -> fd (dmul x y) /\ R_of lo <= R_of (dmul x y) <= R_of hi.
Proof.
  intros x y lo hi [Vx Fx] [Vy Fy] [Vl _] [Vh _] H. destruct (mul_R 53 1024 Hp53 He53 x y lo hi Vx Vy Fx Fy (conj Vl (conj Vh H))) as [A B].
  split; [split; [apply vd_dmul; assumption|exact A]|]. change (dmul x y) with (SFmul 53 1024 x y). rewrite B. apply rnd_between; [exact Hp53|assumption|assumption|exact H].
Qed.
Lemma radians_small : forall f0, ff f0 -> 0 <= R_of f0 <= 1 / 8 -> ff (radians f0) /\ 0 <= R_of (radians f0) <= 1.
Proof.
  intros f0 F H. unfold radians. destruct (of_Z_R 2 ltac:(lia)) as [F2 R2].
  assert (C0 : ff fzero) by (split; reflexivity). assert (D0 : fd (d_of_Z 0)) by (split; reflexivity).
  assert (Z0 : R_of fzero = 0) by reflexivity. assert (Z1 : R_of (d_of_Z 0) = 0) by reflexivity.
  pose (h := fdiv fone (f_of_Z 4)). assert (Fh : ff h) by (split; reflexivity). assert (Rh : R_of h = 1 / 4) by (unfold h; R_val (fdiv fone (f_of_Z 4)); intros; lra).
  pose (dh := ddiv (d_of_Z 1) (d_of_Z 4)). assert (Fdh : fd dh) by (split; reflexivity). assert (Rdh : R_of dh = 1 / 4) by (unfold dh; R_val (ddiv (d_of_Z 1) (d_of_Z 4)); intros; lra).
  assert (Fd1 : fd (d_of_Z 1)) by (split; reflexivity). assert (Rd1 : R_of (d_of_Z 1) = 1) by (R_val (d_of_Z 1); intros; lra).
  assert (Fone : ff fone) by (split; reflexivity). assert (Rone : R_of fone = 1) by (R_val fone; intros; lra).
  assert (FPI : fd M_PI) by (split; reflexivity). assert (RPI : 3 <= R_of M_PI <= 4) by (R_val M_PI; intros; lra).
  destruct (fmul_b f0 (f_of_Z 2) fzero h F F2 C0 Fh) as (A1 & B1 & _); [rewrite R2, Rh, Z0; lra|].
  destruct (f2d_b (fmul f0 (f_of_Z 2)) (d_of_Z 0) dh A1 D0 Fdh) as (A2 & B2); [rewrite Z1, Rdh; rewrite Z0, Rh in B1; lra|].
  destruct (dmul_b (f2d (fmul f0 (f_of_Z 2))) M_PI (d_of_Z 0) (d_of_Z 1) A2 FPI D0 Fd1) as (A3 & B3).
  { rewrite Z1, Rd1. rewrite Z1, Rdh in B2. set (y := R_of (f2d (fmul f0 (f_of_Z 2)))) in *. set (p := R_of M_PI) in *. clearbody y p. nra. }
  destruct (d2f_b _ fzero fone A3 C0 Fone) as (A4 & B4); [rewrite Z0, Rone; rewrite Z1, Rd1 in B3; exact B3|].
  rewrite Z0, Rone in B4. split; assumption.
Qed.

(* ---- codes of 3600x2400 ---- *)
Lemma f0_bounds : forall o b, (0 <= b < 126)%Z -> exp2_close o (exponent2400 b) ->
  ff (exp2f o (exponent2400 b)) /\ 0 < R_of (exp2f o (exponent2400 b)) <= 1 / 8 /\ 16 * IZR (harmonics2400 b) * R_of (exp2f o (exponent2400 b)) <= 1023 / 128.
Proof.
  intros o b Hb [F H]. destruct (power_bound b Hb) as (P1 & P2 & P3). split; [exact F|]. set (x := R_of (exp2f o (exponent2400 b))) in *. set (w := Rpower 2 (R_of (exponent2400 b))) in *.
  clearbody x w. apply Rabs_le_inv in H. split; [lra|]. assert (0 <= IZR (harmonics2400 b)) by (apply IZR_le; lia). set (L := IZR (harmonics2400 b)) in *. clearbody L.
  apply Rle_trans with (16 * L * (101 / 100 * w)); [|exact P2]. apply Rmult_le_compat_l; lra.
Qed.
Lemma band2400 : forall o b l, (0 <= b < 126)%Z -> exp2_close o (exponent2400 b) -> (1 <= l <= harmonics2400 b)%Z ->
  exists z, sf_trunc (fmul (f_of_Z (16 * l)) (exp2f o (exponent2400 b))) = Some z /\ (0 <= z < 8)%Z.
Proof.
  intros o b l Hb HE Hl. destruct (f0_bounds o b Hb HE) as (F & R0 & R1). destruct (power_bound b Hb) as (_ & _ & HL). set (f0 := exp2f o (exponent2400 b)) in *.
  destruct (of_Z_R (16 * l) ltac:(lia)) as [Fl Rl]. pose (h := fdiv (f_of_Z 1023) (f_of_Z 128)). assert (Fh : ff h) by (split; reflexivity).
  assert (Rh : R_of h = 1023 / 128) by (unfold h; R_val (fdiv (f_of_Z 1023) (f_of_Z 128)); intros; lra).
  destruct (fmul_b (f_of_Z (16 * l)) f0 fzero h Fl F ltac:(split; reflexivity) Fh) as (A & B & _).
  - rewrite Rl, Rh, mult_IZR. change (R_of fzero) with 0. assert (1 <= IZR l <= IZR (harmonics2400 b)) by (split; apply IZR_le; lia). set (L := IZR (harmonics2400 b)) in *. set (k := IZR l) in *. set (x := R_of f0) in *.
    clearbody L k x. nra.
  - change (R_of fzero) with 0 in B. rewrite Rh in B. rewrite trunc_R by apply A. eexists. split; [reflexivity|]. set (x := R_of (fmul (f_of_Z (16 * l)) f0)) in *. clearbody x.
    rewrite Ztrunc_floor by apply B. split; [apply Zfloor_lub; cbn; lra|]. apply lt_IZR. eapply Rle_lt_trans; [apply Zfloor_lb|]. lra.
Qed.

(* ---- an exp2f that is close to the power of two at every pitch exponent ---- *)
Definition near_exp2 (x : f32) : f32 :=
  match x with
  | S754_finite true m e =>
      let q := (64 * Z.pos m / 2 ^ (- e))%Z in let r := (- q mod 64)%Z in let k := ((q + r) / 64)%Z in
      SpecFloat.binary_normalize 24 128 (9945 * up (Z.to_nat r) / 10000) (- (24 + k)) false
  | _ => fone
  end.
Fixpoint low (r : nat) : Z := match r with O => 16777216%Z | S r => (low r * 1010889 / 1000000)%Z end.
Lemma root64_low : 1010889 / 1000000 <= Rpower 2 (1 / 64).
Proof.
  destruct (Rle_or_lt (1010889 / 1000000) (Rpower 2 (1 / 64))) as [H|H]; [exact H|exfalso].
  assert (P : Rpower 2 (1 / 64) ^ 64 = 2).
  { rewrite <- Rpower_pow by apply exp_pos. rewrite Rpower_mult. replace (1 / 64 * INR 64) with 1 by (rewrite INR_IZR_INZ; change (Z.of_nat 64) with 64%Z; lra). apply Rpower_1. lra. }
  assert (Q : Rpower 2 (1 / 64) ^ 64 <= (1010889 / 1000000) ^ 64) by (apply pow_incr; split; [left; apply exp_pos|lra]).
  rewrite P in Q. revert Q. apply Rlt_not_le. unfold Rdiv. rewrite Rpow_mult_distr, pow_inv. rewrite !pow_IZR.
  assert (E : (1010889 ^ Z.of_nat 64 < 2 * 1000000 ^ Z.of_nat 64)%Z) by (vm_compute; reflexivity).
  apply (Rmult_lt_reg_r (IZR (1000000 ^ Z.of_nat 64))); [apply IZR_lt; vm_compute; reflexivity|].
  rewrite Rmult_assoc, Rinv_l by (apply not_0_IZR; vm_compute; discriminate). rewrite Rmult_1_r, <- mult_IZR. apply IZR_lt. exact E.
Qed.
Lemma low_le : forall r, (0 <= low r)%Z /\ IZR (low r) <= 16777216 * Rpower 2 (INR r / 64).
Proof.
  induction r as [|r [I0 IH]].
  - split; [cbn; lia|]. cbn [low INR]. replace (0 / 64) with 0 by lra. rewrite Rpower_O by lra. lra.
  - rewrite S_INR. replace ((INR r + 1) / 64) with (INR r / 64 + 1 / 64) by lra. rewrite Rpower_plus. pose proof root64_low as H64.
    assert (P0 : 0 < Rpower 2 (INR r / 64)) by apply exp_pos. assert (P1 : 0 < Rpower 2 (1 / 64)) by apply exp_pos.
    set (a := Rpower 2 (INR r / 64)) in *. set (c := Rpower 2 (1 / 64)) in *. cbn [low]. set (u := low r) in *. split; [apply Z.div_pos; lia|].
    assert (D : (1000000 * (u * 1010889 / 1000000) <= u * 1010889)%Z) by (apply Z.mul_div_le; lia).
    apply IZR_le in D. rewrite !mult_IZR in D. set (v := IZR (u * 1010889 / 1000000)) in *. apply IZR_le in I0.
    assert (IZR u * (1010889 / 1000000) <= 16777216 * a * c); [|nra].
    apply Rmult_le_compat; lra || nra.
Qed.
Definition close_b (b : Z) : bool :=
  match exponent2400 b with
  | S754_finite true m e =>
      let q := (64 * Z.pos m / 2 ^ (- e))%Z in let r := (- q mod 64)%Z in let k := ((q + r) / 64)%Z in
      match near_exp2 (exponent2400 b) with
      | S754_finite false m' e' => (e <? 0)%Z && (0 <=? k)%Z && (e' <? 0)%Z && valid_binary 24 128 (S754_finite false m' e') &&
          (Z.pos m' * 100 * 2 ^ (24 + k) * 1010890 <=? 101 * low (Z.to_nat r) * 1000000 * 2 ^ (- e'))%Z && (99 * up (Z.to_nat r) * 2 ^ (- e') <=? Z.pos m' * 100 * 2 ^ (24 + k))%Z
      | _ => false
      end
  | _ => false
  end.
Lemma close_all : forallb close_b (zrange 126) = true.
Proof. vm_compute. reflexivity. Qed.
Lemma near_close : forall b, (0 <= b < 126)%Z -> ff (near_exp2 (exponent2400 b)) /\
  Rabs (R_of (near_exp2 (exponent2400 b)) - Rpower 2 (R_of (exponent2400 b))) <= Rpower 2 (R_of (exponent2400 b)) / 100.
Proof.
  intros b Hb. pose proof (zrange_forallb 126 _ close_all b ltac:(lia)) as A. unfold close_b in A.
  destruct (near_exp2 (exponent2400 b)) as [s'|s'| |s' m' e']; try (destruct (exponent2400 b) as [s|s| |[|] m e]; discriminate A).
  destruct (exponent2400 b) as [s|s| |s m e]; try discriminate A. destruct s; [|discriminate A]. cbv zeta in A. destruct s'; [discriminate A|].
  set (q := (64 * Z.pos m / 2 ^ (- e))%Z) in *. set (r := (- q mod 64)%Z) in *. set (k := ((q + r) / 64)%Z) in *.
  apply andb_true_iff in A as [A A6]. apply andb_true_iff in A as [A A5]. apply andb_true_iff in A as [A A4]. apply andb_true_iff in A as [A A3]. apply andb_true_iff in A as [A1 A2].
  apply Z.ltb_lt in A1, A3. apply Z.leb_le in A2, A5, A6. split; [split; [exact A4|reflexivity]|]. rewrite !R_neg_exp by assumption. cbn [cond_Zopp].
  assert (P : (0 < 2 ^ (- e))%Z) by (apply Z.pow_pos_nonneg; lia). assert (P' : (0 < 2 ^ (- e'))%Z) by (apply Z.pow_pos_nonneg; lia).
  pose proof (Z.mod_pos_bound (- q) 64 ltac:(lia)) as Hr. fold r in Hr.
  assert (Hk : (q + r = 64 * k)%Z).
  { unfold k. pose proof (Z.div_mod (- q) 64 ltac:(lia)) as D. fold r in D. replace (q + r)%Z with (- (- q / 64) * 64)%Z by lia. rewrite Z.div_mul by lia. lia. }
  assert (K : IZR q + IZR r = 64 * IZR k) by (rewrite <- plus_IZR, <- mult_IZR; f_equal; exact Hk).
  set (x := IZR (- Z.pos m) / IZR (2 ^ (- e))).
  assert (X : x <= INR (Z.to_nat r) / 64 + - IZR k /\ INR (Z.to_nat r) / 64 + - IZR k - 1 / 64 <= x).
  { rewrite INR_IZR_INZ, Z2Nat.id by lia. assert (D : (q * 2 ^ (- e) <= 64 * Z.pos m)%Z) by (unfold q; rewrite Z.mul_comm; apply Z.mul_div_le; exact P).
    assert (D2 : (64 * Z.pos m <= (q + 1) * 2 ^ (- e))%Z).
    { unfold q. pose proof (Z.mul_succ_div_gt (64 * Z.pos m) (2 ^ (- e)) P). lia. }
    apply IZR_le in D. apply IZR_le in D2. rewrite !mult_IZR in D. rewrite !mult_IZR, plus_IZR in D2. apply IZR_lt in P.
    assert (XE : x * IZR (2 ^ (- e)) = - IZR (Z.pos m)) by (unfold x; rewrite opp_IZR; field; lra).
    split; apply (Rmult_le_reg_r (IZR (2 ^ (- e)))); try exact P; rewrite XE; nra. }
  destruct X as [X Y]. apply Rpower_le2 in X. apply Rpower_le2 in Y. rewrite Rpower_plus, Rpower_Zneg in X by exact A2.
  replace (INR (Z.to_nat r) / 64 + - IZR k - 1 / 64) with (INR (Z.to_nat r) / 64 + - IZR k + - (1 / 64)) in Y by lra.
  rewrite !Rpower_plus, Rpower_Zneg, (Rpower_Ropp _ (1 / 64)) in Y by exact A2.
  pose proof (up_ge (Z.to_nat r)) as U. destruct (low_le (Z.to_nat r)) as [_ W]. pose proof root64 as H64. assert (P64 : 0 < Rpower 2 (1 / 64)) by apply exp_pos.
  assert (Pk : 0 < IZR (2 ^ k)) by (apply IZR_lt, Z.pow_pos_nonneg; lia).
  assert (PX : 0 < Rpower 2 x) by apply exp_pos. set (w := Rpower 2 x) in *. set (a := Rpower 2 (INR (Z.to_nat r) / 64)) in *. set (c := Rpower 2 (1 / 64)) in *.
  assert (X2 : w * IZR (2 ^ k) * 16777216 <= IZR (up (Z.to_nat r))).
  { apply Rle_trans with (16777216 * a); [|exact U]. assert (w * IZR (2 ^ k) <= a); [|lra].
    apply (Rmult_le_reg_r (/ IZR (2 ^ k))); [apply Rinv_0_lt_compat, Pk|]. rewrite Rmult_assoc, Rinv_r by lra. lra. }
  assert (Y2 : IZR (low (Z.to_nat r)) * 1000000 <= w * IZR (2 ^ k) * 16777216 * 1010890).
  { assert (a <= w * IZR (2 ^ k) * c).
    { apply Rmult_le_reg_r with (/ IZR (2 ^ k) * / c); [apply Rmult_lt_0_compat; apply Rinv_0_lt_compat; assumption|].
      replace (w * IZR (2 ^ k) * c * (/ IZR (2 ^ k) * / c)) with w by (field; split; lra). lra. }
    assert (w * IZR (2 ^ k) * c <= w * IZR (2 ^ k) * (1010890 / 1000000)) by (apply Rmult_le_compat_l; [nra|exact H64]). lra. }
  rewrite Z.pow_add_r in A5, A6 by lia. change (2 ^ 24)%Z with 16777216%Z in A5, A6. apply IZR_le in A5. apply IZR_le in A6. repeat rewrite mult_IZR in A5. repeat rewrite mult_IZR in A6.
  apply IZR_lt in P'. set (E := IZR (2 ^ (- e'))) in *. set (M := IZR (Z.pos m')) in *. set (Kk := IZR (2 ^ k)) in *. set (u := IZR (up (Z.to_nat r))) in *. set (v := IZR (low (Z.to_nat r))) in *.
  clearbody w E M Kk u v. apply Rabs_le. split.
  - assert (99 / 100 * w <= M / E); [|lra]. apply (Rmult_le_reg_r (E * (Kk * 16777216 * 100))); [nra|].
    replace (M / E * (E * (Kk * 16777216 * 100))) with (M * 100 * (16777216 * Kk)) by (field; lra).
    apply Rle_trans with (99 * u * E); [|exact A6]. replace (99 / 100 * w * (E * (Kk * 16777216 * 100))) with (99 * E * (w * Kk * 16777216)) by field. nra.
  - assert (M / E <= 101 / 100 * w); [|lra]. apply (Rmult_le_reg_r (E * (Kk * 16777216 * 100 * 1010890))); [nra|].
    replace (M / E * (E * (Kk * 16777216 * 100 * 1010890))) with (M * 100 * (16777216 * Kk) * 1010890) by (field; lra).
    apply Rle_trans with (101 * v * 1000000 * E); [exact A5|]. replace (101 / 100 * w * (E * (Kk * 16777216 * 100 * 1010890))) with (101 * E * (w * Kk * 16777216 * 1010890)) by field. nra.
Qed.
