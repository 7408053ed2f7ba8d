(* Bounds of the AMBE residuals and gains, in units of 2^-30. *)
From Coq Require Import ZArith Reals Lra Lia List Bool.
From Verif Require Import Res F32 TabAmbe2450 TabAmbe2400 MParms MAmbe SpecEcc SpecFrame SpecAmbe SpecAmp SpecAmbeMachine SpecBound PBase PFloat PDec PAmbeDec PReal PAmp PPredict PResid.
From Flocq Require Import Core.Core IEEE754.BinarySingleNaN.
Import ListNotations.
Local Open Scope R_scope.

Lemma ub_le : forall x, ff x -> IZR (ub x) <= Rabs (R_of x) * unit30 + 1.
Proof.
  intros x [V F]. destruct x as [s|s| |s m e]; try discriminate; unfold ub.
  - rewrite R_zero, Rabs_R0. lra.
  - unfold R_of. unfold SF2R. rewrite <- F2R_Zabs. replace (Z.abs (cond_Zopp s (Z.pos m))) with (Z.pos m) by now destruct s.
    unfold F2R. cbn [Fnum Fexp]. assert (U : unit30 = bpow radix2 30) by (cbn; unfold unit30; lra). rewrite U. rewrite Rmult_assoc, <- bpow_plus.
    destruct (Z.leb_spec (-30) e).
    + rewrite mult_IZR. rewrite <- IZR_Zpower by lia. change (radix_val radix2) with 2%Z. lra.
    + assert (P : (0 < 2 ^ (-30 - e))%Z) by (apply Z.pow_pos_nonneg; lia).
      assert (E : bpow radix2 (e + 30) = / IZR (2 ^ (-30 - e))).
      { replace (e + 30)%Z with (- (-30 - e))%Z by lia. rewrite bpow_opp. f_equal. change 2%Z with (radix_val radix2). rewrite IZR_Zpower by lia. reflexivity. }
      rewrite E. set (p := (2 ^ (-30 - e))%Z) in *. rewrite plus_IZR. apply Rplus_le_compat_r. apply (Rmult_le_reg_r (IZR p)); [apply IZR_lt; exact P|]. rewrite Rmult_assoc, Rinv_l by (apply not_0_IZR; lia). rewrite Rmult_1_r, <- mult_IZR.
      apply IZR_le. pose proof (Z.div_mod (Z.pos m) p ltac:(lia)). pose proof (Z.mod_pos_bound (Z.pos m) p P). nia.
Qed.
Lemma ub_pos : forall x, (0 <= ub x)%Z.
Proof.
  intros [s|s| |s m e]; unfold ub; try lia. destruct (Z.leb_spec (-30) e).
  - apply Z.mul_nonneg_nonneg; [lia|apply Z.pow_nonneg; lia].
  - assert (0 <= Z.pos m / 2 ^ (-30 - e))%Z; [|lia]. apply Z.div_pos; [lia|apply Z.pow_pos_nonneg; lia].
Qed.
Lemma half_R : ff (flit 1 2) /\ R_of (flit 1 2) = / 2.
Proof. split; [apply ffb_ff; vm_compute; reflexivity|]. R_val (flit 1 2). lra. Qed.
Lemma root_R : ff half_root_half /\ 0 <= R_of half_root_half <= 0.35356.
Proof.
  set (c := half_root_half). assert (E : c = S754_finite false 11863283 (-25)) by (vm_compute; reflexivity). rewrite E. split; [apply ffb_ff; vm_compute; reflexivity|]. unfold R_of, SF2R, F2R. cbn. lra.
Qed.
(* the first two coefficients of a block together *)
Lemma pair_bnd : forall a b g, bnd a g -> bnd b g -> (g <= 2 ^ 34)%Z ->
  let x := fmul (flit 1 2) (fadd a b) in let y := fmul half_root_half (fsub a b) in
  ff x /\ ff y /\ (IZR (ub x) + 2 * IZR (ub y) <= 1.41424 * IZR g + 100000).
Proof.
  intros a b g A B G. cbv zeta. pose proof (bnd_abs _ _ A) as BA. pose proof (bnd_abs _ _ B) as BB. pose proof (bnd_pos _ _ A) as P. destruct A as [FA _], B as [FB _].
  apply IZR_le in G. apply IZR_le in P. cbn in G. set (q := IZR g / unit30) in *. assert (Q : 0 <= q <= 16) by (unfold q, unit30; lra).
  apply Rabs_le_inv in BA. apply Rabs_le_inv in BB. pose proof u24_small as U. pose proof tiny_u as T. destruct half_R as [HF HV]. destruct root_R as [RF RV].
  assert (M : Rabs (R_of a + R_of b) <= 32) by (apply Rabs_le; lra). assert (N : Rabs (R_of a - R_of b) <= 32) by (apply Rabs_le; lra).
  destruct (fadd_e a b FA FB) as (F1 & E1); [unfold huge; lra|]. apply (fun h => err_le _ _ 32 h M) in E1.
  destruct (fsub_e a b FA FB) as (F2 & E2); [unfold huge; lra|]. apply (fun h => err_le _ _ 32 h N) in E2.
  set (s := fadd a b) in *. set (d := fsub a b) in *.
  assert (S1 : Rabs (R_of s) <= Rabs (R_of a + R_of b) + / 400000).
  { replace (R_of s) with ((R_of s - (R_of a + R_of b)) + (R_of a + R_of b)) by ring. eapply Rle_trans; [apply Rabs_triang|lra]. }
  assert (S2 : Rabs (R_of d) <= Rabs (R_of a - R_of b) + / 400000).
  { replace (R_of d) with ((R_of d - (R_of a - R_of b)) + (R_of a - R_of b)) by ring. eapply Rle_trans; [apply Rabs_triang|lra]. }
  assert (P1 : Rabs (R_of (flit 1 2) * R_of s) <= / 2 * (Rabs (R_of a + R_of b) + / 400000)) by (apply abs_mul_le; [rewrite HV, Rabs_pos_eq; lra|exact S1]).
  assert (P2 : Rabs (R_of half_root_half * R_of d) <= 0.35356 * (Rabs (R_of a - R_of b) + / 400000)) by (apply abs_mul_le; [rewrite Rabs_pos_eq; lra|exact S2]).
  assert (P1' : Rabs (R_of (flit 1 2) * R_of s) <= 32) by lra. assert (P2' : Rabs (R_of half_root_half * R_of d) <= 32) by lra.
  destruct (fmul_e _ _ HF F1) as (F3 & E3); [unfold huge; lra|]. apply (fun h => err_le _ _ 32 h P1') in E3.
  destruct (fmul_e _ _ RF F2) as (F4 & E4); [unfold huge; lra|]. apply (fun h => err_le _ _ 32 h P2') in E4.
  split; [exact F3|]. split; [exact F4|]. pose proof (ub_le _ F3) as U3. pose proof (ub_le _ F4) as U4.
  set (x := fmul (flit 1 2) s) in *. set (y := fmul half_root_half d) in *.
  assert (X : Rabs (R_of x) <= / 2 * Rabs (R_of a + R_of b) + / 200000).
  { replace (R_of x) with ((R_of x - R_of (flit 1 2) * R_of s) + R_of (flit 1 2) * R_of s) by ring. eapply Rle_trans; [apply Rabs_triang|lra]. }
  assert (Y : Rabs (R_of y) <= 0.35356 * Rabs (R_of a - R_of b) + / 200000).
  { replace (R_of y) with ((R_of y - R_of half_root_half * R_of d) + R_of half_root_half * R_of d) by ring. eapply Rle_trans; [apply Rabs_triang|lra]. }
  assert (Z1 : / 2 * Rabs (R_of a + R_of b) + 0.70712 * Rabs (R_of a - R_of b) <= 1.41424 * q).
  { destruct (Rle_dec 0 (R_of a + R_of b)); destruct (Rle_dec 0 (R_of a - R_of b));
      repeat first [rewrite (Rabs_pos_eq (R_of a + R_of b)) by lra | rewrite (Rabs_left (R_of a + R_of b)) by lra | rewrite (Rabs_pos_eq (R_of a - R_of b)) by lra | rewrite (Rabs_left (R_of a - R_of b)) by lra]; lra. }
  unfold q, unit30 in *. lra.
Qed.

Local Open Scope Z_scope.
Lemma idct_ub_first : forall n b, 2 <= n <= 17 -> (forall k, 0 <= b k) -> (forall k, 6 < k -> b k = 0) -> idct_ub n b <= b 1 + 2 * b 2 + 2 * (b 3 + b 4 + b 5 + b 6) + 1671168.
Proof.
  intros n b Hn P Z. pose proof (P 1). pose proof (P 2). pose proof (P 3). pose proof (P 4). pose proof (P 5). pose proof (P 6).
  assert (D : n = 2 \/ n = 3 \/ n = 4 \/ n = 5 \/ n = 6 \/ n = 7 \/ n = 8 \/ n = 9 \/ n = 10 \/ n = 11 \/ n = 12 \/ n = 13 \/ n = 14 \/ n = 15 \/ n = 16 \/ n = 17) by lia.
  assert (Q7 := Z 7 ltac:(lia)). assert (Q8 := Z 8 ltac:(lia)). assert (Q9 := Z 9 ltac:(lia)). assert (Q10 := Z 10 ltac:(lia)). assert (Q11 := Z 11 ltac:(lia)). assert (Q12 := Z 12 ltac:(lia)).
  assert (Q13 := Z 13 ltac:(lia)). assert (Q14 := Z 14 ltac:(lia)). assert (Q15 := Z 15 ltac:(lia)). assert (Q16 := Z 16 ltac:(lia)). assert (Q17 := Z 17 ltac:(lia)).
  assert (U : forall m, idct_ub (Z.of_nat m) b = fold_left (fun s k => s + ((if (k =? 1)%Z then 1 else 2) * b k + 98304)) (map Z.of_nat (seq 1 m)) 0).
  { intros m. unfold idct_ub, upto. rewrite Nat2Z.id. reflexivity. }
  repeat (destruct D as [->|D]; [match goal with |- idct_ub ?z b <= _ => let m := eval compute in (Z.to_nat z) in change z with (Z.of_nat m) end; rewrite U; cbn -[Z.add Z.mul]; lia|]).
  subst n. change 17 with (Z.of_nat 17). rewrite U. cbn -[Z.add Z.mul]. lia.
Qed.
Definition row_ub (r : list f32) : Z := fold_right Z.add 0 (map ub r).
Lemma row4 : forall r d, length r = 4%nat -> row_ub r = ub (nth 0 r d) + ub (nth 1 r d) + ub (nth 2 r d) + ub (nth 3 r d).
Proof. intros [|a [|b [|c [|e [|]]]]] d H; try discriminate. unfold row_ub. cbn [map fold_right nth]. lia. Qed.
Lemma row3 : forall r d, length r = 3%nat -> row_ub r = ub (nth 0 r d) + ub (nth 1 r d) + ub (nth 2 r d).
Proof. intros [|a [|b [|c [|]]]] d H; try discriminate. unfold row_ub. cbn [map fold_right nth]. lia. Qed.

(* residuals from the size g of the transformed gain vector and the size w of the codebook rows *)
Lemma block_bnd : forall o j v h g w i l, cosine_in_unit o -> 1 <= i <= 4 -> 1 <= l <= 17 -> 2 <= j <= 17 -> (forall m, 1 <= m <= 8 -> ff (v m)) -> idct_ub 8 (fun m => ub (v m)) <= g -> g <= 2 ^ 34 ->
  length (h i) = 4%nat -> Forall ff (h i) -> row_ub (h i) <= w -> w <= 2 ^ 34 ->
  bnd (idct o j (ambe_coefficient o v h i) l) (141424 * g / 100000 + 2 * w + 2000000).
Proof.
  intros o j v h g w i l CO Hi Hl Hj FV HG G LH FH HW W.
  assert (R : forall k, 1 <= k <= 17 -> bnd (idct o 8 v k) g).
  { intros k K17. eapply bnd_weak; [apply (idct_bnd o 8 v (fun m => ub (v m))); [lia|exact K17|exact CO|intros m Hm; apply ub_bnd, FV, Hm|]|exact HG]. change (2 ^ 37) with 137438953472. change (2 ^ 34) with 17179869184 in G. lia. }
  set (c := ambe_coefficient o v h i).
  assert (E1 : c 1 = fmul (flit 1 2) (fadd (idct o 8 v (2 * i - 1)) (idct o 8 v (2 * i)))) by reflexivity.
  assert (E2 : c 2 = fmul half_root_half (fsub (idct o 8 v (2 * i - 1)) (idct o 8 v (2 * i)))) by reflexivity.
  destruct (pair_bnd _ _ g (R (2 * i - 1) ltac:(lia)) (R (2 * i) ltac:(lia)) G) as (F1 & F2 & P). cbv zeta in *. rewrite <- E1 in F1, P. rewrite <- E2 in F2, P.
  assert (P' : ub (c 1) + 2 * ub (c 2) <= 141424 * g / 100000 + 100001).
  { assert (Q : (141424 * g <= 100000 * (141424 * g / 100000) + 99999)) by (pose proof (Z.div_mod (141424 * g) 100000 ltac:(lia)); pose proof (Z.mod_pos_bound (141424 * g) 100000 ltac:(lia)); lia).
    apply IZR_le in Q. rewrite plus_IZR, !mult_IZR in Q. set (z := 141424 * g / 100000) in *. apply le_IZR. rewrite !plus_IZR, !mult_IZR. lra. }
  assert (E3 : forall k, 3 <= k <= 6 -> c k = nth (Z.to_nat (k - 3)) (h i) (S754_zero false)).
  { intros k Hk. unfold c, ambe_coefficient, entry. cbv zeta. destruct (Z.eqb_spec k 1); [lia|]. destruct (Z.eqb_spec k 2); [lia|]. destruct (Z.leb_spec k 6); [reflexivity|lia]. }
  assert (E4 : forall k, 6 < k -> c k = S754_zero false).
  { intros k Hk. unfold c, ambe_coefficient. cbv zeta. destruct (Z.eqb_spec k 1); [lia|]. destruct (Z.eqb_spec k 2); [lia|]. destruct (Z.leb_spec k 6); [lia|reflexivity]. }
  pose proof (row4 (h i) (S754_zero false) LH) as R4.
  assert (I : idct_ub j (fun k => ub (c k)) <= 141424 * g / 100000 + 2 * w + 2000000).
  { eapply Z.le_trans; [apply idct_ub_first; [exact Hj|intros; apply ub_pos|intros k Hk; rewrite E4 by exact Hk; reflexivity]|].
    cbv beta. rewrite (E3 3), (E3 4), (E3 5), (E3 6) by lia. change (Z.to_nat (3 - 3)) with 0%nat. change (Z.to_nat (4 - 3)) with 1%nat. change (Z.to_nat (5 - 3)) with 2%nat. change (Z.to_nat (6 - 3)) with 3%nat. lia. }
  eapply bnd_weak; [|exact I]. apply (idct_bnd o j c (fun k => ub (c k))); [lia|exact Hl|exact CO| |].
  - intros k Hk. apply ub_bnd. destruct (Z.eq_dec k 1) as [->|N1]; [exact F1|]. destruct (Z.eq_dec k 2) as [->|N2]; [exact F2|]. destruct (Z_le_gt_dec k 6) as [N6|N6].
    + rewrite E3 by lia. rewrite Forall_forall in FH. apply FH, nth_In. lia.
    + rewrite E4 by lia. split; reflexivity.
  - change (2 ^ 37) with 137438953472. change (2 ^ 34) with 17179869184 in *.
    assert (141424 * g / 100000 <= 141424 * 17179869184 / 100000) by (apply Z.div_le_mono; lia). change (141424 * 17179869184 / 100000) with 24296458194 in H. lia.
Qed.
Lemma ambe_residual_bnd : forall o j v h g w l, cosine_in_unit o -> (forall i, 1 <= i <= 4 -> 2 <= j i <= 17) -> (forall m, 1 <= m <= 8 -> ff (v m)) -> idct_ub 8 (fun m => ub (v m)) <= g -> 0 <= g <= 2 ^ 34 ->
  (forall i, 1 <= i <= 4 -> length (h i) = 4%nat /\ Forall ff (h i) /\ row_ub (h i) <= w) -> 0 <= w <= 2 ^ 34 ->
  bnd (ambe_residual o j v h l) (141424 * g / 100000 + 2 * w + 2000000).
Proof.
  intros o j v h g w l CO HJ FV HG G HH W. unfold ambe_residual. destruct (nth_in_or_default (Z.to_nat (l - 1)) (residuals o 4 j (ambe_coefficient o v h)) (S754_zero false)) as [I|E].
  - unfold residuals in I at 2. apply in_flat_map in I as (i & Ii & I). apply in_map_iff in I as (k & <- & Ik).
    assert (Hi : 1 <= i <= 4) by (unfold upto in Ii; apply in_map_iff in Ii as (q & <- & Iq); apply in_seq in Iq; lia). destruct (HH i Hi) as (H1 & H2 & H3).
    pose proof (HJ i Hi) as HJi. assert (Hk : 1 <= k <= 17) by (unfold upto in Ik; apply in_map_iff in Ik as (q & <- & Iq); apply in_seq in Iq; lia).
    apply block_bnd; auto; lia.
  - rewrite E. apply bnd_zero. assert (0 <= 141424 * g / 100000) by (apply Z.div_pos; lia). lia.
Qed.

(* ---- the codebooks ---- *)
Definition book_fine (n : nat) (b : Z) (t : list (list f32)) : bool := forallb (fun r => (length r =? n)%nat && forallb ffb r && (row_ub r <=? b)) t.
Lemma book_row : forall n b t i, book_fine n b t = true -> 0 <= i < Z.of_nat (length t) -> length (row t i) = n /\ Forall ff (row t i) /\ row_ub (row t i) <= b.
Proof.
  intros n b t i H Hi. unfold book_fine in H. rewrite forallb_forall in H. assert (I : In (row t i) t) by (apply nth_In; lia).
  apply H in I. apply andb_true_iff in I as [I I3]. apply andb_true_iff in I as [I1 I2]. apply Nat.eqb_eq in I1. apply Z.leb_le in I3. split; [exact I1|]. split; [|exact I3].
  apply Forall_forall. intros x Hx. apply ffb_ff. rewrite forallb_forall in I2. apply I2, Hx.
Qed.
Lemma books2450 : book_fine 3 2594990304 AmbePRBA24 && book_fine 4 699660904 AmbePRBA58 && book_fine 4 1191835152 AmbeHOCb5 && book_fine 4 1191835152 AmbeHOCb6 && book_fine 4 1191835152 AmbeHOCb7 && book_fine 4 1191835152 AmbeHOCb8 = true.
Proof. vm_compute. reflexivity. Qed.
Lemma books2400 : book_fine 3 2818572288 AmbePlusPRBA24 && book_fine 4 1149239840 AmbePlusPRBA58 && book_fine 4 1417676344 AmbePlusHOCb5 && book_fine 4 1417676344 AmbePlusHOCb6 && book_fine 4 1417676344 AmbePlusHOCb7 && book_fine 4 1417676344 AmbePlusHOCb8 = true.
Proof. vm_compute. reflexivity. Qed.
Lemma sizes2450 : (length AmbePRBA24, length AmbePRBA58, (length AmbeHOCb5, length AmbeHOCb6, length AmbeHOCb7, length AmbeHOCb8), length AmbeDg) = (512, 128, (32, 16, 16, 8), 32)%nat.
Proof. reflexivity. Qed.
Lemma sizes2400 : (length AmbePlusPRBA24, length AmbePlusPRBA58, (length AmbePlusHOCb5, length AmbePlusHOCb6, length AmbePlusHOCb7, length AmbePlusHOCb8), length AmbePlusDg) = (512, 128, (16, 16, 16, 16), 64)%nat.
Proof. reflexivity. Qed.
(* the gain vector *)
Lemma vector_bnd : forall p q a b, length p = 3%nat -> length q = 4%nat -> Forall ff p -> Forall ff q -> row_ub p <= a -> row_ub q <= b ->
  (forall m, 1 <= m <= 8 -> ff (ambe_gain p q m)) /\ idct_ub 8 (fun m => ub (ambe_gain p q m)) <= 2 * (a + b) + 786432.
Proof.
  intros p q a b LP LQ FP FQ HA HB. rewrite (row3 p (S754_zero false) LP) in HA. rewrite (row4 q (S754_zero false) LQ) in HB. rewrite Forall_forall in FP, FQ. split.
  - intros m Hm. unfold ambe_gain, entry. destruct (Z.eqb_spec m 1); [split; reflexivity|]. destruct (Z.leb_spec m 4); [apply FP, nth_In; lia|apply FQ, nth_In; lia].
  - set (g := fun m => ub (ambe_gain p q m)).
    assert (E : g 1 = 0 /\ g 2 = ub (nth 0 p (S754_zero false)) /\ g 3 = ub (nth 1 p (S754_zero false)) /\ g 4 = ub (nth 2 p (S754_zero false)) /\ g 5 = ub (nth 0 q (S754_zero false)) /\
      g 6 = ub (nth 1 q (S754_zero false)) /\ g 7 = ub (nth 2 q (S754_zero false)) /\ g 8 = ub (nth 3 q (S754_zero false))) by (repeat split; reflexivity).
    clearbody g. destruct E as (E1 & E2 & E3 & E4 & E5 & E6 & E7 & E8). unfold idct_ub. change (upto 8) with [1; 2; 3; 4; 5; 6; 7; 8]. cbn -[Z.add Z.mul]. lia.
Qed.
Lemma in_book : forall (d : list Z) ps n (t : list (list f32)), is_bits 49 d -> forallb (fun p => (0 <=? p) && (p <? 49)) ps = true -> 2 ^ Z.of_nat (length ps) = n -> n <= Z.of_nat (length t) -> 0 <= bits_at d ps < Z.of_nat (length t).
Proof.
  intros d ps n t Hd HP HN HL. pose proof (bits_at_range 49 d ps Hd) as R. rewrite HN in R. assert (Q : 0 <= bits_at d ps < n); [|lia]. apply R.
  rewrite forallb_forall in HP. apply Forall_forall. intros x Hx. specialize (HP x Hx). lia.
Qed.
