(* Fundamental frequencies: their value in terms of pi and the highest harmonic. *)
From Coq Require Import ZArith List Bool Lia Reals Lra Machin.
From Verif Require Import Res F32 TabAmbe2450 TabAmbe2400 MFrame MParms MAdaptive MUnvoiced MSynth MImbe MAmbe SpecEcc SpecFrame SpecImbe SpecAmbe PBase PFloat PFloat2 PExp2.
From Flocq Require Import Core.Core IEEE754.BinarySingleNaN Relative.
Import ListNotations.
Local Open Scope R_scope.

Lemma PI_bounds : 314159265 / 100000000 <= PI <= 314159266 / 100000000.
Proof.
  destruct (PI_2_3_7_ineq 4) as [A B]. cbn [Nat.mul Nat.add] in A, B. unfold PI_2_3_7_tg, tg_alt, Ratan_seq in A, B. cbn [sum_f_R0 pow Nat.mul Nat.add INR] in A, B. lra.
Qed.
(* relative rounding error *)
Lemma rnd_rel : forall prec emax x, Prec_gt_0 prec -> bpow radix2 (3 - emax - prec + prec - 1) <= Rabs x -> Rabs (rnd prec emax x - x) <= / 2 * bpow radix2 (- prec + 1) * Rabs x.
Proof. intros prec emax x Hp H. apply (relative_error_N_FLT radix2 (3 - emax - prec) prec Hp (fun n => negb (Z.even n)) x H). Qed.
Lemma bpow_neg_small : forall k, (k <= -100)%Z -> bpow radix2 k <= 1 / 10000000000.
Proof. intros k H. apply Rle_trans with (bpow radix2 (-100)); [apply bpow_le, H|]. cbn. lra. Qed.
Lemma rndf_rel : forall x, 1 / 10000000000 <= x -> x * (1 - / 16777216) <= rndf x <= x * (1 + / 16777216).
Proof.
  intros x H. pose proof (rnd_rel 24 128 x Hp24) as R. change (bpow radix2 (- (24) + 1)) with (/ 8388608) in R. rewrite (Rabs_pos_eq x) in R by lra.
  specialize (R ltac:(eapply Rle_trans; [apply bpow_neg_small; lia|exact H])). fold rndf in R. apply Rabs_le_inv in R. lra.
Qed.
Lemma rndd_rel : forall x, 1 / 10000000000 <= x -> x * (1 - / 16777216) <= rndd x <= x * (1 + / 16777216).
Proof.
  intros x H. pose proof (rnd_rel 53 1024 x Hp53) as R. change (bpow radix2 (- (53) + 1)) with (/ 4503599627370496) in R. rewrite (Rabs_pos_eq x) in R by lra.
  specialize (R ltac:(eapply Rle_trans; [apply bpow_neg_small; lia|exact H])). fold rndd in R. apply Rabs_le_inv in R. lra.
Qed.
Lemma MPI_near : 314159265 / 100000000 <= R_of M_PI <= 314159266 / 100000000.
Proof. R_val M_PI. intros; lra. Qed.

(* ---- IMBE ---- *)
(* |2 w0 (b + 39.5) - 8 pi| in units: w0 = m / 2^-e *)
Definition imbe_w0_b (b : Z) : bool :=
  match imbe_w0_of_b0 b with
  | S754_finite false m e => (e <? 0)%Z && valid_binary 24 128 (S754_finite false m e) &&
      (1256637060 * 2 ^ (- e) - 300 * 2 ^ (- e) <=? 50000000 * (2 * b + 79) * Z.pos m)%Z && (50000000 * (2 * b + 79) * Z.pos m <=? 1256637064 * 2 ^ (- e) + 300 * 2 ^ (- e))%Z
      && (imbe_harmonics b * Z.pos m <=? 3 * 2 ^ (- e))%Z
  | _ => false
  end.
Lemma imbe_w0_all : forallb imbe_w0_b (zrange 208) = true.
Proof. vm_compute. reflexivity. Qed.
Lemma imbe_w0_near : forall b, (0 <= b <= 207)%Z -> ff (imbe_w0_of_b0 b) /\ Rabs (R_of (imbe_w0_of_b0 b) * (IZR b + 79 / 2) - 4 * PI) <= 4 / 1000000
  /\ IZR (imbe_harmonics b) * R_of (imbe_w0_of_b0 b) <= 3.
Proof.
  intros b Hb. pose proof (zrange_forallb 208 _ imbe_w0_all b ltac:(lia)) as A. unfold imbe_w0_b in A.
  destruct (imbe_w0_of_b0 b) as [s|s| |s m e]; try discriminate A. destruct s; [discriminate A|].
  apply andb_true_iff in A as [A A5]. apply andb_true_iff in A as [A A4]. apply andb_true_iff in A as [A A3]. apply andb_true_iff in A as [A1 A2]. apply Z.ltb_lt in A1. apply Z.leb_le in A3, A4, A5.
  split; [split; [exact A2|reflexivity]|]. rewrite R_neg_exp by exact A1. cbn [cond_Zopp]. assert (P : (0 < 2 ^ (- e))%Z) by (apply Z.pow_pos_nonneg; lia).
  apply IZR_lt in P. apply IZR_le in A3. apply IZR_le in A4. apply IZR_le in A5. rewrite minus_IZR in A3. rewrite plus_IZR in A4.
  repeat rewrite mult_IZR in A3. repeat rewrite mult_IZR in A4. repeat rewrite mult_IZR in A5. rewrite plus_IZR, mult_IZR in A3. rewrite plus_IZR, mult_IZR in A4.
  set (E := IZR (2 ^ (- e))) in *. set (M := IZR (Z.pos m)) in *. set (B := IZR b) in *. set (L := IZR (imbe_harmonics b)) in *. clearbody E M B L. pose proof PI_bounds as HP. split.
  - apply Rabs_le. assert (Q : M / E * E = M) by (field; lra). split; apply (Rmult_le_reg_r E); try exact P.
    + replace ((M / E * (B + 79 / 2) - 4 * PI) * E) with (M * (B + 79 / 2) - 4 * PI * E) by (field; lra). nra.
    + replace ((M / E * (B + 79 / 2) - 4 * PI) * E) with (M * (B + 79 / 2) - 4 * PI * E) by (field; lra). nra.
  - apply (Rmult_le_reg_r E); [exact P|]. replace (L * (M / E) * E) with (L * M) by (field; lra). lra.
Qed.

(* ---- AMBE 3600x2450 ---- *)
Definition top2450_b (b : Z) : bool :=
  match radians (nth (Z.to_nat b) AmbeW0table fzero) with
  | S754_finite false m e => (e <? 0)%Z && (harmonics2450 b * Z.pos m <=? 3 * 2 ^ (- e))%Z
  | _ => false
  end.
Lemma top2450_all : forallb top2450_b (zrange 120) = true.
Proof. vm_compute. reflexivity. Qed.
Lemma top2450 : forall b, (0 <= b < 120)%Z -> IZR (harmonics2450 b) * R_of (w0_2450 b) <= 3.
Proof.
  intros b Hb. pose proof (zrange_forallb 120 _ top2450_all b ltac:(lia)) as A. unfold top2450_b in A. unfold w0_2450.
  replace (silence2450 b) with false by (unfold silence2450; lia).
  destruct (radians (nth (Z.to_nat b) AmbeW0table fzero)) as [s|s| |s m e]; try discriminate A. destruct s; [discriminate A|].
  apply andb_true_iff in A as [A1 A2]. apply Z.ltb_lt in A1. apply Z.leb_le in A2. rewrite R_neg_exp by exact A1. cbn [cond_Zopp].
  assert (P : (0 < 2 ^ (- e))%Z) by (apply Z.pow_pos_nonneg; lia). apply IZR_lt in P. apply IZR_le in A2. repeat rewrite mult_IZR in A2.
  apply (Rmult_le_reg_r (IZR (2 ^ (- e)))); [exact P|]. replace (IZR (harmonics2450 b) * (IZR (Z.pos m) / IZR (2 ^ (- e))) * IZR (2 ^ (- e))) with (IZR (harmonics2450 b) * IZR (Z.pos m)) by (field; lra). lra.
Qed.
Lemma silence_top : forall b, b = 124%Z \/ b = 125%Z -> 2 * PI <= IZR (harmonics2450 b) * R_of (w0_2450 b).
Proof.
  intros b Hb. assert (E : w0_2450 b = fmul (fdiv (d2f M_PI) (f_of_Z 32)) (d2f (dmul (d_of_Z 2) M_PI))) by (destruct Hb as [-> | -> ]; reflexivity). rewrite E.
  assert (H : (14 <= harmonics2450 b)%Z) by (destruct Hb as [-> | -> ]; vm_compute; discriminate). apply IZR_le in H.
  assert (W : 6 / 10 <= R_of (fmul (fdiv (d2f M_PI) (f_of_Z 32)) (d2f (dmul (d_of_Z 2) M_PI)))) by (R_val (fmul (fdiv (d2f M_PI) (f_of_Z 32)) (d2f (dmul (d_of_Z 2) M_PI))); intros; lra).
  pose proof PI_bounds. nra.
Qed.

(* ---- AMBE 3600x2400 ---- *)
Lemma radians_near : forall f0, ff f0 -> 1 / 1000 <= R_of f0 <= 1 / 8 -> Rabs (R_of (radians f0) - 2 * PI * R_of f0) <= R_of f0 / 100000.
Proof.
  intros f0 F H. unfold radians. destruct (of_Z_R 2 ltac:(lia)) as [F2 R2].
  assert (C0 : ff fzero) by (split; reflexivity). assert (D0 : fd (d_of_Z 0)) by (split; reflexivity).
  assert (Z0 : R_of fzero = 0) by reflexivity. assert (Z1 : R_of (d_of_Z 0) = 0) by reflexivity.
  assert (Fd1 : fd (d_of_Z 1)) by (split; reflexivity). assert (Rd1 : R_of (d_of_Z 1) = 1) by (R_val (d_of_Z 1); intros; lra).
  assert (Fone : ff fone) by (split; reflexivity). assert (Rone : R_of fone = 1) by (R_val fone; intros; lra).
  assert (FPI : fd M_PI) by (split; reflexivity). pose proof MPI_near as RPI. pose proof PI_bounds as HP.
  destruct (fmul_b f0 (f_of_Z 2) fzero fone F F2 C0 Fone) as (A1 & B1 & E1); [rewrite R2, Rone, Z0; lra|].
  pose proof (rndf_rel (R_of f0 * R_of (f_of_Z 2)) ltac:(rewrite R2; lra)) as G1. rewrite <- E1, R2 in G1. set (x := R_of f0) in *. set (a := fmul f0 (f_of_Z 2)) in *.
  assert (X : 1 / 1000 <= R_of a <= 26 / 100) by lra.
  assert (E2 : fd (f2d a) /\ R_of (f2d a) = rndd (R_of a)).
  { destruct a as [s|s| |s m e]; try (destruct A1 as [_ A1]; discriminate A1); [exfalso; cbn in X; lra|].
    destruct (round_R 53 1024 Hp53 He53 s m e (d_of_Z 0) (d_of_Z 1)) as [U V]; [split; [reflexivity|split; [reflexivity|rewrite Z1, Rd1; lra]]|].
    split; [split; [apply (vb_round 53 1024 Hp53 He53)|exact U]|exact V]. }
  destruct E2 as [A2 E2]. pose proof (rndd_rel (R_of a) ltac:(lra)) as G2. rewrite <- E2 in G2. set (b := f2d a) in *.
  destruct (mul_R 53 1024 Hp53 He53 b M_PI (d_of_Z 0) (d_of_Z 1)) as [U E3]; [apply A2|reflexivity|apply A2|reflexivity| |].
  { split; [reflexivity|split; [reflexivity|]]. rewrite Z1, Rd1. set (y := R_of b) in *. set (p := R_of M_PI) in *. clearbody y p. assert (0 <= y <= 27 / 100) by lra. nra. }
  assert (A3 : fd (dmul b M_PI)) by (split; [apply vd_dmul; [apply A2|reflexivity]|exact U]). change (SFmul 53 1024 b M_PI) with (dmul b M_PI) in E3. set (c := dmul b M_PI) in *.
  pose proof (rndd_rel (R_of b * R_of M_PI)) as G3. change (rnd 53 1024) with rndd in E3. rewrite <- E3 in G3. 
  set (y := R_of b) in *. set (p := R_of M_PI) in *. assert (Y : 1 / 1001 <= y <= 27 / 100) by lra. specialize (G3 ltac:(clearbody y p; nra)).
  assert (W : 1 / 1000 <= R_of c <= 9 / 10) by (clearbody y p; nra).
  assert (E4 : R_of (d2f c) = rndf (R_of c)).
  { destruct c as [s|s| |s m e]; try (destruct A3 as [_ A3]; discriminate A3); [exfalso; cbn in W; lra|].
    destruct (round_R 24 128 Hp24 He24 s m e fzero fone) as [U' V']; [split; [reflexivity|split; [reflexivity|rewrite Z0, Rone; lra]]|]. exact V'. }
  pose proof (rndf_rel (R_of c) ltac:(lra)) as G4. rewrite <- E4 in G4. set (z := R_of (d2f c)) in *. set (w := R_of c) in *. set (v := R_of a) in *. clearbody z w v y x p. clear - G1 G2 G3 G4 RPI HP H.
  set (u := / 16777216) in *. assert (U : 0 < u <= 1 / 10000000) by (unfold u; lra). clearbody u. apply Rabs_le.
  assert (Y1 : 2 * x * (1 - 3 * u) <= y <= 2 * x * (1 + 3 * u)) by nra.
  assert (Y2 : 2 * x * p * (1 - 5 * u) <= w <= 2 * x * p * (1 + 5 * u)).
  { assert (Q : 2 * x * (1 - 3 * u) * p <= y * p <= 2 * x * (1 + 3 * u) * p) by (split; apply Rmult_le_compat_r; lra). assert (0 < x * p) by nra. set (q := x * p) in *. 
    replace (2 * x * (1 - 3 * u) * p) with (2 * q * (1 - 3 * u)) in Q by (unfold q; ring). replace (2 * x * (1 + 3 * u) * p) with (2 * q * (1 + 3 * u)) in Q by (unfold q; ring).
    replace (2 * x * p) with (2 * q) by (unfold q; ring). set (t := y * p) in *. clearbody t q. nra. }
  assert (Y3 : 2 * x * p * (1 - 7 * u) <= z <= 2 * x * p * (1 + 7 * u)).
  { assert (0 < x * p) by nra. set (q := x * p) in *. replace (2 * x * p) with (2 * q) in * by (unfold q; ring). clearbody q. nra. }
  assert (T : 2 * x * p * (7 * u) <= x * (5 / 1000000)) by (assert (p * (7 * u) <= 23 / 10000000) by nra; set (r := p * (7 * u)) in *; replace (2 * x * p * (7 * u)) with (2 * x * r) by (unfold r; ring); clearbody r; nra).
  assert (Q : - (2 / 100000000) * x <= x * p - x * PI <= 2 / 100000000 * x) by nra. lra.
Qed.
Definition exp_low_b (b : Z) : bool := match exponent2400 b with S754_finite true m e => (e <? 0)%Z && (Z.pos m <=? 8 * 2 ^ (- e))%Z | _ => false end.
Lemma exp_low_all : forallb exp_low_b (zrange 126) = true.
Proof. vm_compute. reflexivity. Qed.
Lemma f0_low : forall o b, (0 <= b < 126)%Z -> exp2_close o (exponent2400 b) -> 1 / 1000 <= R_of (exp2f o (exponent2400 b)).
Proof.
  intros o b Hb [_ H]. apply Rabs_le_inv in H. pose proof (zrange_forallb 126 _ exp_low_all b ltac:(lia)) as A. unfold exp_low_b in A.
  assert (B : -8 <= R_of (exponent2400 b)).
  { destruct (exponent2400 b) as [s|s| |s m e]; try discriminate A. destruct s; [|discriminate A]. apply andb_true_iff in A as [A1 A2]. apply Z.ltb_lt in A1. apply Z.leb_le in A2.
    rewrite R_neg_exp by exact A1. cbn [cond_Zopp]. assert (P : (0 < 2 ^ (- e))%Z) by (apply Z.pow_pos_nonneg; lia). apply IZR_lt in P. apply IZR_le in A2. rewrite mult_IZR in A2.
    apply (Rmult_le_reg_r (IZR (2 ^ (- e)))); [exact P|]. replace (IZR (- Z.pos m) / IZR (2 ^ (- e)) * IZR (2 ^ (- e))) with (IZR (- Z.pos m)) by (field; lra). rewrite opp_IZR. lra. }
  apply Rpower_le2 in B. replace (-8) with (- IZR 8) in B by lra. rewrite (Rpower_Zneg 8) in B by lia. change (2 ^ 8)%Z with 256%Z in B.
  set (w := Rpower 2 (R_of (exponent2400 b))) in *. clearbody w. lra.
Qed.
Lemma top2400 : forall o b, (0 <= b < 126)%Z -> exp2_close o (exponent2400 b) ->
  IZR (harmonics2400 b) * R_of (radians (exp2f o (exponent2400 b))) <= PI.
Proof.
  intros o b Hb HE. pose proof (f0_low o b Hb HE) as H0. destruct (f0_bounds o b Hb HE) as (F & R0 & R1). pose proof (radians_near _ F ltac:(lra)) as N. apply Rabs_le_inv in N.
  destruct (power_bound b Hb) as (_ & _ & HL). assert (H9 : 9 <= IZR (harmonics2400 b)) by (apply IZR_le, HL).
  set (x := R_of (exp2f o (exponent2400 b))) in *. set (L := IZR (harmonics2400 b)) in *. set (w := R_of (radians (exp2f o (exponent2400 b)))) in *. pose proof PI_bounds. set (p := PI) in *.
  clearbody x L w p. assert (L * w <= L * (x * (2 * p + 1 / 100000))) by (apply Rmult_le_compat_l; lra).
  assert (L * x * (2 * p + 1 / 100000) <= 1023 / 2048 * (2 * p + 1 / 100000)) by (apply Rmult_le_compat_r; lra). lra.
Qed.

(* ---- statements for the property file ---- *)
From Verif Require Import PConv PImbe PAmbeDec PAmbeDec2.
Lemma imbe_fundamental : forall o d cur prev bad cur' prev', is_bits 88 d -> (pitch7200 d <= 207)%Z -> length (p_Vl cur) = 57%nat ->
  mbe_decodeImbe4400Parms o d cur prev = Ok (bad, cur', prev') ->
  ff (p_w0 cur') /\ Rabs (R_of (p_w0 cur') * (IZR (pitch7200 d) + 79 / 2) - 4 * PI) <= 4 / 1000000.
Proof.
  intros o d cur prev bad cur' prev' H1 H2 H3 H4. destruct (imbe_decode_inv _ _ _ _ _ _ _ H1 H2 H3 H4) as (_ & _ & ->). pose proof (pitch7200_range d H1).
  destruct (imbe_w0_near (pitch7200 d) ltac:(lia)) as (A & B & _). auto.
Qed.
Lemma imbe_nyquist : forall o d cur prev bad cur' prev', is_bits 88 d -> (pitch7200 d <= 207)%Z -> length (p_Vl cur) = 57%nat ->
  mbe_decodeImbe4400Parms o d cur prev = Ok (bad, cur', prev') -> IZR (p_L cur') * R_of (p_w0 cur') <= PI.
Proof.
  intros o d cur prev bad cur' prev' H1 H2 H3 H4. destruct (imbe_decode_inv _ _ _ _ _ _ _ H1 H2 H3 H4) as (_ & [-> _] & ->). pose proof (pitch7200_range d H1).
  destruct (imbe_w0_near (pitch7200 d) ltac:(lia)) as (_ & _ & B). pose proof PI_bounds. lra.
Qed.
Lemma ambe2450_nyquist : forall o d cur prev e bad cur' prev', is_bits 49 d -> length (p_Vl cur) = 57%nat -> ~ (tone2450 d /\ (e < 6)%Z) -> (pitch2450 d < 120)%Z ->
  mbe_decodeAmbe2450ParmsInternal o d cur prev e = Ok (bad, cur', prev') -> IZR (p_L cur') * R_of (p_w0 cur') <= PI.
Proof.
  intros o d cur prev e bad cur' prev' H1 H2 H3 H4 H5. pose proof (pitch2450_range d H1).
  destruct (ambe2450_accepted _ _ _ _ _ _ _ _ H1 H2 H3 ltac:(unfold erasure2450; lia) H5) as (_ & -> & -> & _). pose proof (top2450 (pitch2450 d) ltac:(lia)). pose proof PI_bounds. lra.
Qed.
Lemma ambe2450_silence_top : forall o d cur prev e bad cur' prev', is_bits 49 d -> length (p_Vl cur) = 57%nat -> ~ (tone2450 d /\ (e < 6)%Z) -> pitch2450 d = 124%Z \/ pitch2450 d = 125%Z ->
  mbe_decodeAmbe2450ParmsInternal o d cur prev e = Ok (bad, cur', prev') -> 2 * PI <= IZR (p_L cur') * R_of (p_w0 cur').
Proof.
  intros o d cur prev e bad cur' prev' H1 H2 H3 H4 H5. pose proof (pitch2450_range d H1).
  destruct (ambe2450_accepted _ _ _ _ _ _ _ _ H1 H2 H3 ltac:(unfold erasure2450; lia) H5) as (_ & -> & -> & _). apply silence_top, H4.
Qed.
Lemma ambe2400_nyquist : forall o d cur prev bad cur' prev', is_bits 49 d -> length (p_Vl cur) = 57%nat -> (pitch2400 d < 126)%Z -> exp2_close o (exponent2400 (pitch2400 d)) ->
  mbe_decodeAmbe2400Parms o d cur prev = Ok (bad, cur', prev') -> IZR (p_L cur') * R_of (p_w0 cur') <= PI.
Proof.
  intros o d cur prev bad cur' prev' H1 H2 H3 H4 H5. pose proof (pitch2400_range d H1).
  destruct (ambe2400_accepted _ _ _ _ _ _ _ H1 H2 H3 H4 H5) as (_ & -> & -> & _). apply top2400; [lia|exact H4].
Qed.
Definition near_oracle : oracle := mkoracle (fun _ => fzero) (fun _ => fzero) near_exp2 (fun _ => fzero) (fun _ => fzero) (fun _ _ => fzero) (fun _ _ => fzero) true Scalar true.
(* bringing a binary32 datum to canonical form changes nothing *)
Lemma canon_ff : forall x, ff x -> f_canon x = x.
Proof.
  intros [s|s| |s m e] [V F]; try reflexivity. unfold f_canon.
  change (SpecFloat.valid_binary 24 128 (S754_finite s m e) = true) in V.
  rewrite (binary_round_equiv 24 128). destruct (binary_round_correct 24 128 Hp24 He24 mode_NE s m e) as [V2 C]. cbv zeta in C.
  set (b := SF2B (prec := 24) (emax := 128) (S754_finite s m e) V). set (c := SF2B (prec := 24) (emax := 128) _ V2).
  assert (Eb : B2SF b = S754_finite s m e) by apply B2SF_SF2B. assert (Ec : B2SF c = binary_round 24 128 mode_NE s m e) by apply B2SF_SF2B.
  rewrite <- Eb, <- Ec. f_equal.
  assert (Rb : F2R {| Fnum := cond_Zopp s (Z.pos m); Fexp := e |} = B2R b) by (rewrite <- SF2R_B2SF, Eb; reflexivity). rewrite Rb in C.
  rewrite round_generic in C; [|apply valid_rnd_round_mode|apply generic_format_B2R].
  rewrite Rlt_bool_true in C by apply abs_B2R_lt_emax. destruct C as (C1 & C2 & C3).
  apply B2R_Bsign_inj.
  - rewrite <- is_finite_SF_B2SF, Ec. exact C2.
  - rewrite <- is_finite_SF_B2SF, Eb. reflexivity.
  - rewrite <- SF2R_B2SF, Ec. exact C1.
  - assert (S : forall x : binary_float 24 128, Bsign x = sign_SF (B2SF x)) by (intros [ | | | ]; reflexivity). rewrite !S, Ec, Eb. exact C3.
Qed.
Lemma near_oracle_close : forall b, (0 <= b < 126)%Z -> exp2_close near_oracle (exponent2400 b).
Proof. intros b Hb. destruct (near_close b Hb) as [A B]. unfold exp2_close, exp2f. change (o_exp2f near_oracle) with near_exp2. rewrite canon_ff by exact A. auto. Qed.
(* silence frames: pitch code 124, all other bits zero *)
Definition silence_bits : list Z := [1; 1; 1; 1; 0; 0]%Z ++ repeat 0%Z 31 ++ [1; 0; 0]%Z ++ repeat 0%Z 9.
From Verif Require Import SpecState PState.
Lemma ambe2450_return_public : forall o d cur prev bad cur' prev', is_bits 49 d -> length (p_Vl cur) = 57%nat -> mbe_decodeAmbe2450Parms o d cur prev = Ok (bad, cur', prev') ->
  (bad = 7%Z <-> tone2450 d) /\ (bad = 2%Z <-> ~ tone2450 d /\ erasure2450 (pitch2450 d)) /\ (bad = 0%Z <-> ~ tone2450 d /\ ~ erasure2450 (pitch2450 d)).
Proof.
  intros o d cur prev bad cur' prev' H1 H2 H3. destruct (ambe2450_return o d cur prev (-1) bad cur' prev' H1 H2 H3) as (A & B & C).
  assert (E : (tone2450 d /\ (-1 < 6)%Z) <-> tone2450 d) by (split; [tauto|intros; split; [assumption|lia]]). tauto.
Qed.
Lemma silence2450_facts : harmonics2450 124 = 15%Z /\ harmonics2450 125 = 14%Z /\ forall d l, pitch2450 d = 124%Z \/ pitch2450 d = 125%Z -> voicing2450 d l = 0%Z.
Proof. split; [reflexivity|]. split; [reflexivity|]. intros d l [H|H]; unfold voicing2450; rewrite H; reflexivity. Qed.
Lemma harmonics2450_bits : forall d, is_bits 49 d -> ~ erasure2450 (pitch2450 d) -> (9 <= harmonics2450 (pitch2450 d) <= 56)%Z.
Proof. intros d H1 H2. apply harmonics2450_range. pose proof (pitch2450_range d H1). unfold voice2450, erasure2450 in *. lia. Qed.
Lemma silence_refutes : exists o d cur prev cur' prev', is_bits 49 d /\ wf_parms cur /\ wf_parms prev /\ mbe_decodeAmbe2450Parms o d cur prev = Ok (0%Z, cur', prev')
  /\ PI < IZR (p_L cur') * R_of (p_w0 cur').
Proof.
  assert (B : is_bits 49 silence_bits) by (split; [reflexivity|repeat (constructor; [first [left; reflexivity|right; reflexivity]|]); constructor]).
  assert (T : pitch2450 silence_bits = 124%Z) by reflexivity.
  assert (N : ~ (tone2450 silence_bits /\ (-1 < 6)%Z)) by (intros [[X _] _]; vm_compute in X; discriminate X).
  destruct (ambe2450_defined near_oracle silence_bits ambe_initial ambe_initial (-1) B ambe_initial_wf) as (bad & c & p & E).
  { split; [exact ambe_initial_wf|left; vm_compute; split; discriminate]. }
  destruct (ambe2450_accepted _ _ _ _ _ _ _ _ B (proj1 ambe_initial_wf) N ltac:(rewrite T; unfold erasure2450; lia) E) as (-> & _).
  exists near_oracle, silence_bits, ambe_initial, ambe_initial, c, p. split; [exact B|]. split; [exact ambe_initial_wf|]. split; [exact ambe_initial_wf|]. split; [exact E|].
  pose proof (ambe2450_silence_top _ _ _ _ _ _ _ _ B (proj1 ambe_initial_wf) N (or_introl T) E). pose proof PI_bounds. lra.
Qed.
