(* Bounds of the IMBE residuals, in units of 2^-30. *)
From Coq Require Import ZArith Reals Lra Lia List Bool.
From Verif Require Import Res F32 TabImbe MParms MImbe SpecEcc SpecFrame SpecImbe SpecAmp SpecBound PBase PFloat PDec PImbe PReal PAmp PPredict.
From Verif Require PExp2.
From Flocq Require Import Core.Core IEEE754.BinarySingleNaN.
Import ListNotations.
Local Open Scope R_scope.

Definition unit30 : R := 1073741824.
Definition bnd (x : f32) (z : Z) : Prop := ff x /\ Rabs (R_of x) * unit30 <= IZR z.
Definition ub (x : f32) : Z :=
  match x with
  | S754_finite _ m e => if (-30 <=? e)%Z then (Z.pos m * 2 ^ (e + 30))%Z else (Z.pos m / 2 ^ (-30 - e) + 1)%Z
  | _ => 0%Z
  end.
Lemma ub_bnd : forall x, ff x -> bnd x (ub x).
Proof.
  intros x [V F]. split; [split; assumption|]. destruct x as [s|s| |s m e]; try discriminate; unfold ub.
  - rewrite R_zero, Rabs_R0. lra.
  - unfold R_of. unfold SF2R. rewrite <- F2R_Zabs. replace (Z.abs (cond_Zopp s (Z.pos m))) with (Z.pos m) by now destruct s.
    unfold F2R. cbn [Fnum Fexp]. assert (U : unit30 = bpow radix2 30) by (cbn; unfold unit30; lra). rewrite U. rewrite Rmult_assoc, <- bpow_plus.
    destruct (Z.leb_spec (-30) e).
    + rewrite mult_IZR. apply Rmult_le_compat_l; [apply IZR_le; lia|]. rewrite <- IZR_Zpower by lia. apply IZR_le. apply Z.le_refl.
    + assert (P : (0 < 2 ^ (-30 - e))%Z) by (apply Z.pow_pos_nonneg; lia).
      assert (E : bpow radix2 (e + 30) = / IZR (2 ^ (-30 - e))).
      { replace (e + 30)%Z with (- (-30 - e))%Z by lia. rewrite bpow_opp. f_equal. change 2%Z with (radix_val radix2). rewrite IZR_Zpower by lia. reflexivity. }
      rewrite E. set (p := (2 ^ (-30 - e))%Z) in *. apply (Rmult_le_reg_r (IZR p)); [apply IZR_lt; exact P|]. rewrite Rmult_assoc, Rinv_l by (apply not_0_IZR; lia). rewrite Rmult_1_r, <- mult_IZR.
      apply IZR_le. pose proof (Z.div_mod (Z.pos m) p ltac:(lia)). pose proof (Z.mod_pos_bound (Z.pos m) p P). nia.
Qed.
Lemma bnd_weak : forall x a b, bnd x a -> (a <= b)%Z -> bnd x b.
Proof. intros x a b [F H] L. split; [exact F|]. apply IZR_le in L. lra. Qed.
Lemma bnd_abs : forall x a, bnd x a -> Rabs (R_of x) <= IZR a / unit30.
Proof. intros x a [F H]. unfold unit30 in *. lra. Qed.
Lemma bnd_zero : forall z, (0 <= z)%Z -> bnd (S754_zero false) z.
Proof. intros z H. split; [split; reflexivity|]. rewrite R_zero, Rabs_R0. apply IZR_le in H. lra. Qed.
Lemma bnd_pos : forall x a, bnd x a -> (0 <= a)%Z.
Proof. intros x a [_ H]. apply le_IZR. pose proof (Rabs_pos (R_of x)). unfold unit30 in H. lra. Qed.
Lemma bnd_add : forall x y a b, bnd x a -> bnd y b -> (a + b <= 2 ^ 38)%Z -> bnd (fadd x y) (a + b + 32768).
Proof.
  intros x y a b X Y H. pose proof (bnd_abs _ _ X) as BX. pose proof (bnd_abs _ _ Y) as BY. destruct X as [FX _], Y as [FY _].
  pose proof u24_small as U. pose proof tiny_u as T. apply IZR_le in H. rewrite plus_IZR in H. cbn in H.
  assert (B : Rabs (R_of x + R_of y) <= (IZR a + IZR b) / unit30) by (eapply Rle_trans; [apply Rabs_triang|unfold unit30 in *; lra]).
  assert (HM : (IZR a + IZR b) / unit30 <= 256) by (unfold unit30; lra). assert (B6 := Rle_trans _ _ _ B HM).
  destruct (fadd_e x y FX FY) as (A & E); [unfold huge; lra|]. split; [exact A|]. apply (fun h => err_le _ _ 256 h B6) in E.
  assert (Q : Rabs (R_of (fadd x y)) <= (IZR a + IZR b) / unit30 + (u24 * 256 + tiny)).
  { replace (R_of (fadd x y)) with ((R_of (fadd x y) - (R_of x + R_of y)) + (R_of x + R_of y)) by ring. eapply Rle_trans; [apply Rabs_triang|lra]. }
  rewrite !plus_IZR. unfold unit30 in *. lra.
Qed.
(* multiplication by a number of size at most w *)
Lemma bnd_mul : forall w x y a, (0 <= w)%Z -> ff x -> Rabs (R_of x) <= IZR w -> bnd y a -> (w * a <= 2 ^ 38)%Z -> bnd (fmul x y) (w * a + 32768).
Proof.
  intros w x y a W FX BX Y H. pose proof (bnd_abs _ _ Y) as BY. destruct Y as [FY _].
  pose proof u24_small as U. pose proof tiny_u as T. apply IZR_le in H. rewrite mult_IZR in H. cbn in H.
  pose proof (abs_mul_le _ _ _ _ BX BY) as B. replace (IZR w * (IZR a / unit30)) with (IZR w * IZR a / unit30) in B by (unfold Rdiv; ring).
  assert (HM : IZR w * IZR a / unit30 <= 256) by (unfold unit30; lra). assert (B6 := Rle_trans _ _ _ B HM).
  destruct (fmul_e x y FX FY) as (A & E); [unfold huge; lra|]. split; [exact A|]. apply (fun h => err_le _ _ 256 h B6) in E.
  assert (Q : Rabs (R_of (fmul x y)) <= IZR w * IZR a / unit30 + (u24 * 256 + tiny)).
  { replace (R_of (fmul x y)) with ((R_of (fmul x y) - R_of x * R_of y) + R_of x * R_of y) by ring. eapply Rle_trans; [apply Rabs_triang|lra]. }
  rewrite plus_IZR, mult_IZR. unfold unit30 in *. lra.
Qed.
Lemma bnd_cos : forall y c a, bnd y a -> ff c -> Rabs (R_of c) <= 1 -> (a <= 2 ^ 38)%Z -> bnd (fmul y c) (a + 32768).
Proof.
  intros y c a Y C B H. assert (Q : bnd (fmul c y) (1 * a + 32768)) by (apply bnd_mul; auto; lia).
  destruct Q as [[V F] Q]. destruct Y as [FY Y']. pose proof (bnd_abs _ _ (conj FY Y')) as BY. pose proof u24_small as U. pose proof tiny_u as T. apply IZR_le in H. cbn in H.
  pose proof (abs_mul_le _ _ _ _ BY B) as BB. assert (HM : IZR a / unit30 * 1 <= 256) by (unfold unit30; lra). assert (B6 := Rle_trans _ _ _ BB HM).
  destruct (fmul_e y c FY C) as (A & E); [unfold huge; lra|]. split; [exact A|]. apply (fun h => err_le _ _ 256 h B6) in E.
  assert (Q2 : Rabs (R_of (fmul y c)) <= IZR a / unit30 * 1 + (u24 * 256 + tiny)).
  { replace (R_of (fmul y c)) with ((R_of (fmul y c) - R_of y * R_of c) + R_of y * R_of c) by ring. eapply Rle_trans; [apply Rabs_triang|lra]. }
  rewrite plus_IZR. unfold unit30 in *. lra.
Qed.

Local Open Scope Z_scope.
(* the inverse cosine transform *)
Definition idct_ub (n : Z) (b : Z -> Z) : Z := fold_left (fun s k => s + ((if (k =? 1)%Z then 1 else 2) * b k + 98304)) (upto n) 0.
Lemma idct_ub_step : forall n b, 1 <= n -> idct_ub n b = idct_ub (n - 1) b + ((if (n =? 1)%Z then 1 else 2) * b n + 98304).
Proof. intros n b H. unfold idct_ub. rewrite (upto_snoc n H), fold_left_app. reflexivity. Qed.
(* the angles of the transforms are finite *)
Definition dct_angle (n k j : Z) : f32 := d2f (ddiv (dmul (dmul M_PI (f2d (f_of_Z (k - 1)))) (f2d (fsub (f_of_Z j) (flit 1 2)))) (f2d (f_of_Z n))).
Lemma angle_ff : forall n k j, 1 <= n <= 17 -> 1 <= k <= 17 -> 1 <= j <= 17 -> ff (dct_angle n k j).
Proof.
  intros n k j Hn Hk Hj. unfold dct_angle. destruct (of_Z_R (k - 1) ltac:(lia)) as [FK RK]. destruct (of_Z_R j ltac:(lia)) as [FJ RJ]. destruct (of_Z_R n ltac:(lia)) as [FN RN].
  assert (BK : (0 <= IZR (k - 1) <= 16)%R) by (split; apply IZR_le; lia). assert (BJ : (1 <= IZR j <= 17)%R) by (split; apply IZR_le; lia). assert (BN : (1 <= IZR n <= 17)%R) by (split; apply IZR_le; lia).
  assert (FH : ff (flit 1 2)) by (split; reflexivity). assert (RH : R_of (flit 1 2) = (1 / 2)%R) by (R_val (flit 1 2); intros; lra). pose proof u24_small as U. pose proof tiny_u as T.
  assert (D0 : fd (d_of_Z 0)) by (split; reflexivity). assert (Z0 : R_of (d_of_Z 0) = 0%R) by reflexivity. assert (D1 : fd (d_of_Z 1)) by (split; reflexivity). assert (Z1 : R_of (d_of_Z 1) = 1%R) by (R_val (d_of_Z 1); intros; lra).
  assert (DB : fd (d_of_Z 4096)) by (split; reflexivity). assert (ZB : R_of (d_of_Z 4096) = 4096%R) by (R_val (d_of_Z 4096); intros; lra).
  assert (DS : fd (d_of_Z 64)) by (split; reflexivity). assert (ZS : R_of (d_of_Z 64) = 64%R) by (R_val (d_of_Z 64); intros; lra).
  assert (DC : fd (d_of_Z 16)) by (split; reflexivity). assert (ZC : R_of (d_of_Z 16) = 16%R) by (R_val (d_of_Z 16); intros; lra).
  assert (C0 : ff (f_of_Z 0)) by (split; reflexivity). assert (ZF : R_of (f_of_Z 0) = 0%R) by reflexivity. assert (CB : ff (f_of_Z 4096)) by (split; reflexivity). assert (ZG : R_of (f_of_Z 4096) = 4096%R) by (R_val (f_of_Z 4096); intros; lra).
  assert (FPI : fd M_PI) by (split; reflexivity). assert (RPI : (3 <= R_of M_PI <= 4)%R) by (R_val M_PI; intros; lra).
  destruct (fsub_e _ _ FJ FH) as [FS ES]; [rewrite RJ, RH; unfold huge; apply Rabs_le; lra|]. rewrite RJ, RH, (Rabs_pos_eq (IZR j - 1 / 2)) in ES by lra. apply Rabs_le_inv in ES.
  destruct (PExp2.f2d_b _ (d_of_Z 0) (d_of_Z 16) FK D0 DC) as (A1 & B1); [rewrite RK, Z0, ZC; exact BK|]. rewrite Z0, ZC in B1.
  destruct (PExp2.f2d_b _ (d_of_Z 0) (d_of_Z 64) FS D0 DS) as (A2 & B2); [rewrite Z0, ZS; unfold u24 in *; lra|]. rewrite Z0, ZS in B2.
  destruct (PExp2.f2d_b _ (d_of_Z 1) (d_of_Z 64) FN D1 DS) as (A3 & B3); [rewrite RN, Z1, ZS; lra|]. rewrite Z1, ZS in B3.
  destruct (PExp2.dmul_b M_PI _ (d_of_Z 0) (d_of_Z 64) FPI A1 D0 DS) as (A4 & B4); [rewrite Z0, ZS; split; [apply Rmult_le_pos; lra|]; eapply Rle_trans; [apply (Rmult_le_compat _ 4 _ 16); lra|lra]|]. rewrite Z0, ZS in B4.
  destruct (PExp2.dmul_b _ _ (d_of_Z 0) (d_of_Z 4096) A4 A2 D0 DB) as (A5 & B5); [rewrite Z0, ZB; split; [apply Rmult_le_pos; lra|]; eapply Rle_trans; [apply (Rmult_le_compat _ 64 _ 64); lra|lra]|]. rewrite Z0, ZB in B5.
  set (p := dmul (dmul M_PI _) _) in *. set (q := f2d (f_of_Z n)) in *.
  destruct (div_R 53 1024 Hp53 He53 p q (d_of_Z 0) (d_of_Z 4096)) as [U1 U2]; [apply A5|apply A3|apply A5|lra| |].
  { split; [reflexivity|]. split; [reflexivity|]. rewrite Z0, ZB. split; [apply Rmult_le_pos; [lra|left; apply Rinv_0_lt_compat; lra]|].
    apply (Rmult_le_reg_r (R_of q)); [lra|]. unfold Rdiv. rewrite Rmult_assoc, Rinv_l by lra. lra. }
  assert (A6 : fd (ddiv p q)) by (split; [apply (vb_div 53 1024 Hp53 He53); [apply A5|apply A3]|exact U1]).
  assert (B6 : (0 <= R_of (ddiv p q) <= 4096)%R).
  { change (ddiv p q) with (SFdiv 53 1024 p q). rewrite U2, <- Z0, <- ZB. apply rnd_between; [exact Hp53|reflexivity|reflexivity|]. rewrite Z0, ZB. split; [apply Rmult_le_pos; [lra|left; apply Rinv_0_lt_compat; lra]|].
    apply (Rmult_le_reg_r (R_of q)); [lra|]. unfold Rdiv. rewrite Rmult_assoc, Rinv_l by lra. lra. }
  apply (PExp2.d2f_b (ddiv p q) (f_of_Z 0) (f_of_Z 4096) A6 C0 CB). rewrite ZF, ZG. exact B6.
Qed.
Lemma idct_bnd : forall o n c b j, 0 <= n <= 17 -> 1 <= j <= 17 -> cosine_in_unit o -> (forall k, 1 <= k <= n -> bnd (c k) (b k)) -> idct_ub n b <= 2 ^ 37 -> bnd (idct o n c j) (idct_ub n b).
Proof.
  intros o n c b j Hn Hj CO H HU. unfold idct. 
  assert (Q : forall m, (Z.of_nat m <= n) -> idct_ub (Z.of_nat m) b <= idct_ub n b /\ 0 <= idct_ub (Z.of_nat m) b /\
     bnd (fsum (Z.of_nat m) (fun k => fmul (fmul (f_of_Z (if (k =? 1)%Z then 1 else 2)) (c k)) (dct_cosine o n k j))) (idct_ub (Z.of_nat m) b)).
  { intros m Hm. split; [|split].
    - assert (G : forall q, (Z.of_nat m + Z.of_nat q <= n) -> idct_ub (Z.of_nat m) b <= idct_ub (Z.of_nat m + Z.of_nat q) b).
      { induction q as [|q IH]; intros Hq; [rewrite Z.add_0_r; lia|]. rewrite (idct_ub_step (Z.of_nat m + Z.of_nat (S q))) by lia. replace (Z.of_nat m + Z.of_nat (S q) - 1) with (Z.of_nat m + Z.of_nat q) by lia.
        specialize (IH ltac:(lia)). assert (0 <= b (Z.of_nat m + Z.of_nat (S q))) by (eapply bnd_pos, H; lia). destruct (_ =? 1)%Z; lia. }
      specialize (G (Z.to_nat (n - Z.of_nat m)) ltac:(lia)). replace (Z.of_nat m + Z.of_nat (Z.to_nat (n - Z.of_nat m))) with n in G by lia. exact G.
    - induction m as [|m IH]; [reflexivity|]. rewrite idct_ub_step by lia. replace (Z.of_nat (S m) - 1) with (Z.of_nat m) by lia. specialize (IH ltac:(lia)).
      assert (0 <= b (Z.of_nat (S m))) by (eapply bnd_pos, H; lia). destruct (_ =? 1)%Z; lia.
    - assert (G : forall q, (q <= m)%nat -> idct_ub (Z.of_nat q) b <= 2 ^ 37 /\ 0 <= idct_ub (Z.of_nat q) b).
      { intros q Hq. split.
        - assert (G : forall r, (Z.of_nat q + Z.of_nat r <= n) -> idct_ub (Z.of_nat q) b <= idct_ub (Z.of_nat q + Z.of_nat r) b).
          { induction r as [|r IH]; intros Hr; [rewrite Z.add_0_r; lia|]. rewrite (idct_ub_step (Z.of_nat q + Z.of_nat (S r))) by lia. replace (Z.of_nat q + Z.of_nat (S r) - 1) with (Z.of_nat q + Z.of_nat r) by lia.
            specialize (IH ltac:(lia)). assert (0 <= b (Z.of_nat q + Z.of_nat (S r))) by (eapply bnd_pos, H; lia). destruct (_ =? 1)%Z; lia. }
          specialize (G (Z.to_nat (n - Z.of_nat q)) ltac:(lia)). replace (Z.of_nat q + Z.of_nat (Z.to_nat (n - Z.of_nat q))) with n in G by lia. lia.
        - clear -H Hq Hm. induction q as [|q IH]; [reflexivity|]. rewrite idct_ub_step by lia. replace (Z.of_nat (S q) - 1) with (Z.of_nat q) by lia. specialize (IH ltac:(lia)).
          assert (0 <= b (Z.of_nat (S q))) by (eapply bnd_pos, H; lia). destruct (_ =? 1)%Z; lia. }
      clear HU. induction m as [|m IH]; [apply bnd_zero; reflexivity|].
      destruct (G (S m) ltac:(lia)) as [G1 _]. destruct (G m ltac:(lia)) as [_ G2]. rewrite fsum_step by lia. rewrite idct_ub_step in G1 |- * by lia.
      replace (Z.of_nat (S m) - 1) with (Z.of_nat m) in * by lia. set (k := Z.of_nat (S m)) in *. pose proof (H k ltac:(lia)) as HB. pose proof (bnd_pos _ _ HB).
      change (2 ^ 37) with 137438953472 in *.
      assert (W : bnd (fmul (f_of_Z (if k =? 1 then 1 else 2)) (c k)) ((if k =? 1 then 1 else 2) * b k + 32768)).
      { destruct (of_Z_R (if k =? 1 then 1 else 2)) as [F V]; [destruct (k =? 1); lia|]. apply bnd_mul; [destruct (k =? 1); lia|exact F| |exact HB|change (2 ^ 38) with 274877906944; destruct (k =? 1); lia].
        rewrite V. rewrite Rabs_pos_eq; [lra|]. destruct (k =? 1); lra. }
      destruct (CO (dct_angle n k j) (angle_ff n k j ltac:(lia) ltac:(lia) Hj)) as [C1 C2]. change (cosf o (dct_angle n k j)) with (dct_cosine o n k j) in C1, C2.
      assert (V := bnd_cos _ _ _ W C1 C2 ltac:(change (2 ^ 38) with 274877906944; destruct (k =? 1); lia)).
      eapply bnd_weak; [apply bnd_add; [apply IH; [lia|intros q Hq; apply G; lia]|exact V|change (2 ^ 38) with 274877906944; destruct (k =? 1); lia]|destruct (k =? 1); lia]. }
  specialize (Q (Z.to_nat n) ltac:(lia)). rewrite Z2Nat.id in Q by lia. apply Q.
Qed.

(* ---- the quantisers ---- *)
Definition ffb (x : f32) : bool := valid_binary 24 128 x && is_finite_sf x.
Lemma ffb_ff : forall x, ffb x = true -> ff x.
Proof. intros x H. apply andb_true_iff in H as [A B]. split; assumption. Qed.
Lemma bnd_mul2 : forall x y a b, bnd x a -> bnd y b -> a * b <= 2 ^ 68 -> bnd (fmul x y) (a * b / 2 ^ 30 + 32769).
Proof.
  intros x y a b X Y H. pose proof (bnd_pos _ _ X) as PA. pose proof (bnd_pos _ _ Y) as PB. pose proof (bnd_abs _ _ X) as BX. pose proof (bnd_abs _ _ Y) as BY. destruct X as [FX _], Y as [FY _].
  pose proof u24_small as U. pose proof tiny_u as T. pose proof (abs_mul_le _ _ _ _ BX BY) as B.
  assert (D : a * b <= (a * b / 2 ^ 30 + 1) * 2 ^ 30) by (pose proof (Z.div_mod (a * b) (2 ^ 30) ltac:(lia)); pose proof (Z.mod_pos_bound (a * b) (2 ^ 30) ltac:(lia)); lia).
  assert (D2 : a * b / 2 ^ 30 <= 2 ^ 38) by (apply Z.div_le_upper_bound; lia).
  set (q := a * b / 2 ^ 30) in *. apply IZR_le in D, D2. rewrite !mult_IZR, plus_IZR in D. cbn in D, D2.
  assert (B2 : (Rabs (R_of x * R_of y) <= (IZR q + 1) / unit30)%R).
  { eapply Rle_trans; [exact B|]. unfold unit30. replace (IZR a / 1073741824 * (IZR b / 1073741824))%R with (IZR a * IZR b / 1073741824 / 1073741824)%R by field. lra. }
  assert (HM : ((IZR q + 1) / unit30 <= 257)%R) by (unfold unit30; lra). assert (B6 := Rle_trans _ _ _ B2 HM).
  destruct (fmul_e x y FX FY) as (A & E); [unfold huge; lra|]. split; [exact A|]. apply (fun h => err_le _ _ 257 h B6) in E.
  assert (Q : (Rabs (R_of (fmul x y)) <= (IZR q + 1) / unit30 + (u24 * 257 + tiny))%R).
  { replace (R_of (fmul x y)) with ((R_of (fmul x y) - R_of x * R_of y) + R_of x * R_of y)%R by ring. eapply Rle_trans; [apply Rabs_triang|lra]. }
  rewrite plus_IZR. unfold unit30 in *. lra.
Qed.
Definition level (n b : Z) : f32 := fadd (fsub (f_of_Z b) (f_of_Z (2 ^ (n - 1)))) (flit 1 2).
Definition half_levels (n : Z) : Z := (2 ^ n - 1) * 2 ^ 29.
Lemma levels : forallb (fun n => forallb (fun b => ffb (level (n + 1) b) && (ub (level (n + 1) b) <=? half_levels (n + 1))) (zrange (Z.to_nat (2 ^ (n + 1))))) (zrange 10) = true.
Proof. vm_compute. reflexivity. Qed.
Lemma level_bnd : forall n b, 1 <= n <= 10 -> 0 <= b < 2 ^ n -> bnd (level n b) (half_levels n).
Proof.
  intros n b Hn Hb. pose proof (zrange_forallb 10 _ levels (n - 1) ltac:(lia)) as Q. cbv beta in Q. replace (n - 1 + 1) with n in Q by lia.
  pose proof (zrange_forallb _ _ Q b) as Q2. rewrite Z2Nat.id in Q2 by lia. specialize (Q2 Hb). cbv beta in Q2. apply andb_true_iff in Q2 as [F U]. apply Z.leb_le in U.
  eapply bnd_weak; [apply ub_bnd, ffb_ff, F|exact U].
Qed.
Lemma minus_one : forall n, 1 <= n <= 10 -> fsub (f_of_Z n) (flit 1 1) = f_of_Z (n - 1).
Proof.
  intros n Hn. assert (n = 1 \/ n = 2 \/ n = 3 \/ n = 4 \/ n = 5 \/ n = 6 \/ n = 7 \/ n = 8 \/ n = 9 \/ n = 10) as D by lia.
  repeat (destruct D as [->|D]; [vm_compute; reflexivity|]). subst n. vm_compute. reflexivity.
Qed.
Definition deq_ub (step : f32) (n : Z) : Z := ub step * half_levels n / 2 ^ 30 + 32769.
Lemma deq_bnd : forall o step b n, exact_powers o -> ff step -> 1 <= n <= 10 -> 0 <= b < 2 ^ n -> ub step * half_levels n <= 2 ^ 68 -> bnd (dequantised o step b (f_of_Z n)) (deq_ub step n).
Proof.
  intros o step b n X F Hn Hb H. unfold dequantised. rewrite minus_one by exact Hn. rewrite X by lia. apply bnd_mul2; [apply ub_bnd, F|apply level_bnd; assumption|exact H].
Qed.

(* any quantiser's value *)
Lemma lookup_in : forall s p c b, lookup_bit c s p = Some b -> In b p.
Proof.
  induction s as [|x s IH]; intros [|y p] c b H; try discriminate. cbn [lookup_bit] in H. destruct ((fst x =? fst c) && (snd x =? snd c)).
  - injection H as ->. left. reflexivity.
  - right. eapply IH, H.
Qed.
Lemma in_first : forall n (l : list Z) x, In x (firstn n l) -> In x l.
Proof. intros n l x H. rewrite <- (firstn_skipn n l). apply in_or_app. left. exact H. Qed.
Lemma in_skip : forall n (l : list Z) x, In x (skipn n l) -> In x l.
Proof. intros n l x H. rewrite <- (firstn_skipn n l). apply in_or_app. right. exact H. Qed.
Lemma payload_is_bit : forall L d c, is_bits 88 d -> is_bit (payload_bit L d c).
Proof.
  intros L d c [Ld Bd]. unfold payload_bit. destruct (lookup_bit c (scan L) (payload d)) as [b|] eqn:E; [|left; reflexivity]. apply lookup_in in E.
  rewrite Forall_forall in Bd. apply Bd. unfold payload, slice in E.
  eapply in_skip, in_first, E.
Qed.
Lemma number_range : forall L d q n, is_bits 88 d -> 0 <= n -> 0 <= quantiser_number L d q n < 2 ^ n.
Proof.
  intros L d q n Hd Hn. unfold quantiser_number. set (l := map (payload_bit L d) (field_bits q n)).
  assert (Ll : length l = Z.to_nat n) by (unfold l, field_bits; rewrite !map_length, seq_length; reflexivity).
  assert (F : Forall is_bit l) by (apply Forall_forall; intros x Hx; apply in_map_iff in Hx as (c & <- & _); apply payload_is_bit, Hd).
  pose proof (val_range l F) as V. rewrite Ll, Z2Nat.id in V by lia. exact V.
Qed.

(* ---- the residuals of a frame ---- *)
Definition sfeq (x y : f32) : bool :=
  match x, y with
  | S754_zero s, S754_zero t => eqb s t
  | S754_finite s m e, S754_finite t n f => eqb s t && Pos.eqb m n && Z.eqb e f
  | _, _ => false
  end.
Lemma sfeq_eq : forall x y, sfeq x y = true -> x = y.
Proof.
  intros [s|s| |s m e] [t|t| |t n f] H; try discriminate; cbn [sfeq] in H.
  - apply eqb_prop in H. congruence.
  - apply andb_true_iff in H as [H E]. apply andb_true_iff in H as [S M]. apply eqb_prop in S. apply Pos.eqb_eq in M. apply Z.eqb_eq in E. congruence.
Qed.
Definition top : Z := fold_right Z.max 0 (map ub B2).
Definition gain_row (L m : Z) : list f32 := entry [] (table ba L) (m - 2).
Definition gain_size (L m : Z) : Z := entry 0 (gain_bits L) (m - 2).
Definition gain_ub (L m : Z) : Z := if m =? 1 then top else deq_ub (nth 1 (gain_row L m) (S754_zero false)) (gain_size L m).
Definition size (L i k : Z) : Z := entry 0 (higher_bits L) (higher_quantiser L i k - 8).
Definition step (n k : Z) : f32 := fmul (entry (S754_zero false) quantstep (n - 1)) (entry (S754_zero false) standdev (k - 2)).
Definition coef_ub (g L i k : Z) : Z := if k =? 1 then g else let n := size L i k in if n =? 0 then 0 else deq_ub (step n k) n.
Definition resid_ub (L : Z) : Z := let g := idct_ub 6 (gain_ub L) in fold_right (fun i a => Z.max (idct_ub (block_size L i) (coef_ub g L i)) a) 0 (upto 6).
Definition gain_fine (L m : Z) : bool :=
  let r := gain_row L m in let n := gain_size L m in let s := nth 1 r (S754_zero false) in
  (1 <=? n) && (n <=? 10) && sfeq (nth 0 r (S754_zero false)) (f_of_Z n) && ffb s && (ub s * half_levels n <=? 2 ^ 68).
Definition coef_fine (L i k : Z) : bool :=
  let n := size L i k in let s := step n k in (0 <=? n) && (n <=? 10) && ((n =? 0) || ffb s && (ub s * half_levels n <=? 2 ^ 68)).
Definition frame_fine (L : Z) : bool :=
  forallb (gain_fine L) [2; 3; 4; 5; 6] && forallb (fun i => (0 <=? block_size L i) && forallb (coef_fine L i) (tl (upto (block_size L i)))) (upto 6)
  && (idct_ub 6 (gain_ub L) <=? 2 ^ 37) && (resid_ub L <=? 2 ^ 37).
Lemma frames_fine : forallb (fun l => frame_fine (l + 9)) (zrange 48) = true.
Proof. vm_compute. reflexivity. Qed.
Lemma B2_fine : forallb ffb B2 = true. Proof. vm_compute. reflexivity. Qed.
Lemma B2_length : length B2 = 64%nat. Proof. reflexivity. Qed.

Lemma gain_bnd : forall o L d m, exact_powers o -> is_bits 88 d -> 9 <= L <= 56 -> 1 <= m <= 6 -> bnd (imbe_gain o L d m) (gain_ub L m).
Proof.
  intros o L d m X Hd HL Hm. unfold imbe_gain, gain_ub. destruct (Z.eqb_spec m 1) as [->|N].
  - pose proof (number_range L d 2 6 Hd ltac:(lia)) as Q. change (2 ^ 6) with 64 in Q. unfold entry.
    assert (I : In (nth (Z.to_nat (quantiser_number L d 2 6)) B2 (S754_zero false)) B2) by (apply nth_In; rewrite B2_length; lia).
    eapply bnd_weak; [apply ub_bnd, ffb_ff; pose proof B2_fine as F; rewrite forallb_forall in F; apply F, I|].
    unfold top. revert I. generalize (nth (Z.to_nat (quantiser_number L d 2 6)) B2 (S754_zero false)). induction B2 as [|y t IH]; intros x I; [destruct I|]. destruct I as [->|I]; cbn [map fold_right]; [lia|]. specialize (IH x I). lia.
  - pose proof (zrange_forallb 48 _ frames_fine (L - 9) ltac:(lia)) as F. cbv beta in F. replace (L - 9 + 9) with L in F by lia.
    unfold frame_fine in F. apply andb_true_iff in F as [F _]. apply andb_true_iff in F as [F _]. apply andb_true_iff in F as [F _]. rewrite forallb_forall in F.
    assert (I : In m [2; 3; 4; 5; 6]) by (cbn [In]; lia). specialize (F m I). unfold gain_fine in F. cbv zeta in F. fold (gain_row L m) (gain_size L m).
    apply andb_true_iff in F as [F F5]. apply andb_true_iff in F as [F F4]. apply andb_true_iff in F as [F F3]. apply andb_true_iff in F as [F1 F2].
    apply Z.leb_le in F1, F2, F5. apply sfeq_eq in F3. apply ffb_ff in F4. cbv zeta. rewrite F3. apply deq_bnd; auto. apply number_range; [exact Hd|lia].
Qed.
Lemma block_sizes : forallb (fun l => forallb (fun i => (block_size (l + 9) i <=? 17)) (upto 6)) (zrange 48) = true.
Proof. vm_compute. reflexivity. Qed.
Lemma block_small : forall L i, 9 <= L <= 56 -> In i (upto 6) -> block_size L i <= 17.
Proof.
  intros L i HL Hi. pose proof (zrange_forallb 48 _ block_sizes (L - 9) ltac:(lia)) as F. cbv beta in F. replace (L - 9 + 9) with L in F by lia. rewrite forallb_forall in F. apply Z.leb_le, F, Hi.
Qed.
Lemma coef_bnd : forall o L d i k, cosine_in_unit o -> exact_powers o -> is_bits 88 d -> 9 <= L <= 56 -> 1 <= i <= 6 -> 1 <= k <= block_size L i ->
  bnd (imbe_coefficient o L d i k) (coef_ub (idct_ub 6 (gain_ub L)) L i k).
Proof.
  intros o L d i k CO X Hd HL Hi Hk. pose proof (zrange_forallb 48 _ frames_fine (L - 9) ltac:(lia)) as F. cbv beta in F. replace (L - 9 + 9) with L in F by lia.
  unfold frame_fine in F. apply andb_true_iff in F as [F _]. apply andb_true_iff in F as [F G]. apply andb_true_iff in F as [_ F]. apply Z.leb_le in G.
  unfold imbe_coefficient, coef_ub. destruct (Z.eqb_spec k 1) as [->|N].
  - apply idct_bnd; auto; [lia|lia|]. intros m Hm. apply gain_bnd; auto.
  - cbv zeta. fold (size L i k). rewrite forallb_forall in F.
    assert (I : In i (upto 6)) by (unfold upto; apply in_map_iff; exists (Z.to_nat i); split; [lia|apply in_seq; lia]).
    specialize (F i I). apply andb_true_iff in F as [_ F]. rewrite forallb_forall in F.
    assert (I2 : In k (tl (upto (block_size L i)))).
    { unfold upto. replace (Z.to_nat (block_size L i)) with (S (Z.to_nat (block_size L i - 1))) by lia. cbn [seq map tl]. apply in_map_iff. exists (Z.to_nat k). split; [lia|apply in_seq; lia]. }
    specialize (F k I2). unfold coef_fine in F. cbv zeta in F. apply andb_true_iff in F as [F F3]. apply andb_true_iff in F as [F1 F2]. apply Z.leb_le in F1, F2.
    destruct (Z.eqb_spec (size L i k) 0) as [E|E]; [apply bnd_zero; lia|]. cbn [orb] in F3. apply andb_true_iff in F3 as [F3 F4]. apply ffb_ff in F3. apply Z.leb_le in F4.
    apply deq_bnd; auto; [lia|]. apply number_range; [exact Hd|lia].
Qed.
Lemma residual_bnd : forall o L d l, cosine_in_unit o -> exact_powers o -> is_bits 88 d -> 9 <= L <= 56 -> bnd (imbe_residual o L d l) (resid_ub L).
Proof.
  intros o L d l CO X Hd HL. pose proof (zrange_forallb 48 _ frames_fine (L - 9) ltac:(lia)) as F. cbv beta in F. replace (L - 9 + 9) with L in F by lia.
  unfold frame_fine in F. apply andb_true_iff in F as [F G]. apply andb_true_iff in F as [F _]. apply andb_true_iff in F as [_ F]. apply Z.leb_le in G. rewrite forallb_forall in F.
  assert (M : forall i, In i (upto 6) -> idct_ub (block_size L i) (coef_ub (idct_ub 6 (gain_ub L)) L i) <= resid_ub L).
  { clear. unfold resid_ub. cbv zeta. induction (upto 6) as [|y t IH]; intros i I; [destruct I|]. destruct I as [->|I]; cbn [fold_right]; [lia|]. specialize (IH i I). lia. }
  unfold imbe_residual. destruct (nth_in_or_default (Z.to_nat (l - 1)) (residuals o 6 (block_size L) (imbe_coefficient o L d)) (S754_zero false)) as [I|E].
  - unfold residuals in I at 2. apply in_flat_map in I as (i & Ii & I). apply in_map_iff in I as (j & <- & Ij). pose proof (block_small L i HL Ii) as B17.
    assert (Hj : 1 <= j <= 17) by (unfold upto in Ij; apply in_map_iff in Ij as (q & <- & Iq); apply in_seq in Iq; lia).
    assert (Hi : 1 <= i <= 6) by (unfold upto in Ii; apply in_map_iff in Ii as (q & <- & Iq); apply in_seq in Iq; lia).
    specialize (F i Ii). apply andb_true_iff in F as [F _]. apply Z.leb_le in F. specialize (M i Ii).
    pose proof (Z.le_trans _ _ _ M G) as G2. eapply bnd_weak; [apply idct_bnd; [split; [exact F|exact B17]|exact Hj|exact CO|intros k Hk; apply coef_bnd; auto|exact G2]|exact M].
  - rewrite E. apply bnd_zero. apply (Z.le_trans _ (idct_ub (block_size L 1) (coef_ub (idct_ub 6 (gain_ub L)) L 1))); [|apply M; left; reflexivity].
    eapply bnd_pos. apply (idct_bnd o (block_size L 1) (imbe_coefficient o L d 1) (coef_ub (idct_ub 6 (gain_ub L)) L 1) 1); auto; [|lia| |].
    + assert (I1 : In 1 (upto 6)) by (left; reflexivity). specialize (F 1 I1). apply andb_true_iff in F as [F _]. apply Z.leb_le in F. split; [exact F|]. apply block_small; [exact HL|exact I1].
    + intros k Hk. apply coef_bnd; auto. lia.
    + eapply Z.le_trans; [apply M; left; reflexivity|exact G].
Qed.
(* the spread 127 and the size 108 are kept from frame to frame *)
Definition kept (L : Z) : bool :=
  let t := resid_ub L in let r := ub (prediction L) in
  ffb (prediction L) && (t <=? 50 * 2 ^ 30) && (r <=? 2 ^ 30) && negb (flt (prediction L) (S754_zero false)) && (2 * t + r * 127 + 2 ^ 26 <=? 127 * 2 ^ 30) && (t + r * 127 + 2 ^ 26 <=? 108 * 2 ^ 30).
Lemma all_kept : forallb (fun l => kept (l + 9)) (zrange 48) = true.
Proof. vm_compute. reflexivity. Qed.
