(* Floats enclosed in intervals of 30 bit fixed point numbers. *)
From Coq Require Import ZArith Reals Lra Lia List Bool.
From Verif Require Import Res F32 SpecAmp PFloat PReal PAmp PPredict PResid.
From Flocq Require Import Core.Core.
Import ListNotations.
Local Open Scope Z_scope.

(* None: nothing is known *)
Definition iv : Type := option (Z * Z).
Definition inside (x : f32) (i : iv) : Prop :=
  match i with Some (a, b) => ff x /\ (IZR a <= R_of x * unit30 <= IZR b)%R | None => True end.
Definition small (a b : Z) : bool := (Z.abs a <=? 2 ^ 37) && (Z.abs b <=? 2 ^ 37).
Definition iadd (x y : iv) : iv :=
  match x, y with
  | Some (a, b), Some (c, d) => if small (a + c) (b + d) then Some (a + c - 32768, b + d + 32768) else None
  | _, _ => None
  end.
Definition imul (x y : iv) : iv :=
  match x, y with
  | Some (a, b), Some (c, d) =>
      let lo := Z.min (Z.min (a * c) (a * d)) (Z.min (b * c) (b * d)) / 2 ^ 30 in
      let hi := Z.max (Z.max (a * c) (a * d)) (Z.max (b * c) (b * d)) / 2 ^ 30 + 1 in
      if small lo hi then Some (lo - 32768, hi + 32768) else None
  | _, _ => None
  end.

Lemma small_R : forall a b, small a b = true -> (- 137438953472 <= IZR a <= 137438953472 /\ - 137438953472 <= IZR b <= 137438953472)%R.
Proof.
  intros a b H. apply andb_true_iff in H as [A B]. apply Z.leb_le in A, B. change (2 ^ 37) with 137438953472 in *.
  split; split; apply IZR_le; lia.
Qed.
Lemma iadd_in : forall x y i j, inside x i -> inside y j -> inside (fadd x y) (iadd i j).
Proof.
  intros x y [[a b]|] [[c d]|] X Y; cbn [iadd]; try exact I. destruct (small (a + c) (b + d)) eqn:S; [|exact I]. cbn [inside] in *.
  destruct X as [FX X], Y as [FY Y]. apply small_R in S. rewrite !plus_IZR in S. unfold unit30 in *.
  assert (B : (Rabs (R_of x + R_of y) <= 128)%R) by (apply Rabs_le; lra).
  destruct (fadd_e x y FX FY) as (A & E); [unfold huge; lra|]. split; [exact A|]. apply (fun h => err_le _ _ 128 h B) in E.
  pose proof u24_small. pose proof tiny_u. apply Rabs_le_inv in E. rewrite minus_IZR, !plus_IZR. lra.
Qed.
Lemma corner : forall x y a b c d, (a <= x <= b)%R -> (c <= y <= d)%R ->
  (Rmin (Rmin (a * c) (a * d)) (Rmin (b * c) (b * d)) <= x * y <= Rmax (Rmax (a * c) (a * d)) (Rmax (b * c) (b * d)))%R.
Proof.
  intros x y a b c d X Y.
  assert (E1 : (Rmin (a * c) (a * d) <= a * y <= Rmax (a * c) (a * d))%R).
  { destruct (Rle_dec 0 a); [rewrite Rmin_left, Rmax_right by (apply Rmult_le_compat_l; lra); split; apply Rmult_le_compat_l; lra|].
    assert (a * d <= a * y <= a * c)%R by (split; apply Rmult_le_compat_neg_l; lra). rewrite Rmin_right, Rmax_left by lra. lra. }
  assert (E2 : (Rmin (b * c) (b * d) <= b * y <= Rmax (b * c) (b * d))%R).
  { destruct (Rle_dec 0 b); [rewrite Rmin_left, Rmax_right by (apply Rmult_le_compat_l; lra); split; apply Rmult_le_compat_l; lra|].
    assert (b * d <= b * y <= b * c)%R by (split; apply Rmult_le_compat_neg_l; lra). rewrite Rmin_right, Rmax_left by lra. lra. }
  assert (E3 : (Rmin (a * y) (b * y) <= x * y <= Rmax (a * y) (b * y))%R).
  { destruct (Rle_dec 0 y); [rewrite Rmin_left, Rmax_right by (apply Rmult_le_compat_r; lra); split; apply Rmult_le_compat_r; lra|].
    assert (b * y <= x * y <= a * y)%R by (rewrite !(Rmult_comm _ y); split; apply Rmult_le_compat_neg_l; lra). rewrite Rmin_right, Rmax_left by lra. lra. }
  pose proof (Rmin_l (Rmin (a * c) (a * d)) (Rmin (b * c) (b * d))). pose proof (Rmin_r (Rmin (a * c) (a * d)) (Rmin (b * c) (b * d))).
  pose proof (Rmax_l (Rmax (a * c) (a * d)) (Rmax (b * c) (b * d))). pose proof (Rmax_r (Rmax (a * c) (a * d)) (Rmax (b * c) (b * d))).
  destruct (Rle_dec (a * y) (b * y)); [rewrite Rmin_left, Rmax_right in E3 by lra|rewrite Rmin_right, Rmax_left in E3 by lra]; lra.
Qed.
Lemma IZR_min : forall a b, IZR (Z.min a b) = Rmin (IZR a) (IZR b).
Proof. intros a b. destruct (Z.le_ge_cases a b) as [H|H]; [rewrite Z.min_l, Rmin_left by (try apply IZR_le; lia)|rewrite Z.min_r, Rmin_right by (try apply IZR_le; lia)]; reflexivity. Qed.
Lemma IZR_max : forall a b, IZR (Z.max a b) = Rmax (IZR a) (IZR b).
Proof. intros a b. destruct (Z.le_ge_cases a b) as [H|H]; [rewrite Z.max_r, Rmax_right by (try apply IZR_le; lia)|rewrite Z.max_l, Rmax_left by (try apply IZR_le; lia)]; reflexivity. Qed.
Lemma imul_in : forall x y i j, inside x i -> inside y j -> inside (fmul x y) (imul i j).
Proof.
  intros x y [[a b]|] [[c d]|] X Y; cbn [imul]; try exact I. cbv zeta.
  set (m := Z.min (Z.min (a * c) (a * d)) (Z.min (b * c) (b * d))). set (M := Z.max (Z.max (a * c) (a * d)) (Z.max (b * c) (b * d))).
  destruct (small (m / 2 ^ 30) (M / 2 ^ 30 + 1)) eqn:S; [|exact I]. cbn [inside] in *. destruct X as [FX X], Y as [FY Y].
  pose proof (corner _ _ _ _ _ _ X Y) as C. rewrite <- !mult_IZR, <- !IZR_min, <- !IZR_max in C. fold m M in C. apply small_R in S.
  assert (D1 : m / 2 ^ 30 * 2 ^ 30 <= m) by (pose proof (Z.div_mod m (2 ^ 30) ltac:(lia)); pose proof (Z.mod_pos_bound m (2 ^ 30) ltac:(lia)); lia).
  assert (D2 : M <= (M / 2 ^ 30 + 1) * 2 ^ 30) by (pose proof (Z.div_mod M (2 ^ 30) ltac:(lia)); pose proof (Z.mod_pos_bound M (2 ^ 30) ltac:(lia)); lia).
  set (lo := m / 2 ^ 30) in *. set (hi := M / 2 ^ 30 + 1) in *. apply IZR_le in D1, D2. rewrite mult_IZR in D1, D2. change (IZR (2 ^ 30)) with 1073741824%R in *.
  unfold unit30 in *. replace (R_of x * 1073741824 * (R_of y * 1073741824))%R with (R_of x * R_of y * 1073741824 * 1073741824)%R in C by ring.
  assert (P : (IZR lo <= R_of x * R_of y * 1073741824 <= IZR hi)%R) by lra.
  assert (B : (Rabs (R_of x * R_of y) <= 128)%R) by (apply Rabs_le; lra).
  destruct (fmul_e x y FX FY) as (A & E); [unfold huge; lra|]. split; [exact A|]. apply (fun h => err_le _ _ 128 h B) in E.
  pose proof u24_small. pose proof tiny_u. apply Rabs_le_inv in E. rewrite minus_IZR, plus_IZR. lra.
Qed.
(* a float known exactly *)
Definition exactly (x : f32) : iv :=
  if ffb x then match x with
  | S754_finite s m e => let v := if s then - Zpos m else Zpos m in
      Some (if 0 <=? e + 30 then (v * 2 ^ (e + 30), v * 2 ^ (e + 30)) else (v / 2 ^ (- (e + 30)), v / 2 ^ (- (e + 30)) + 1))
  | _ => Some (0, 0)
  end else None.
Lemma exactly_in : forall x, inside x (exactly x).
Proof.
  intros x. unfold exactly. destruct (ffb x) eqn:F; [|exact I]. apply ffb_ff in F. destruct x as [s|s| |s m e]; try (destruct F as [_ F]; discriminate F).
  - cbn [inside]. split; [exact F|]. rewrite R_zero, Rmult_0_l. lra.
  - cbv zeta. set (v := if s then - Z.pos m else Z.pos m).
    assert (V : (R_of (S754_finite s m e) * unit30 = IZR v * Flocq.Core.Raux.bpow Flocq.Core.Zaux.radix2 (e + 30))%R).
    { unfold R_of. cbn [Flocq.IEEE754.BinarySingleNaN.SF2R]. unfold Flocq.Core.Defs.F2R. cbn [Flocq.Core.Defs.Fnum Flocq.Core.Defs.Fexp]. rewrite Flocq.Core.Raux.bpow_plus.
      change (Flocq.Core.Raux.bpow Flocq.Core.Zaux.radix2 30) with 1073741824%R. unfold unit30. replace (Flocq.Core.Zaux.cond_Zopp s (Z.pos m)) with v by (unfold v; destruct s; reflexivity). ring. }
    destruct (Z.leb_spec 0 (e + 30)) as [E|E]; cbn [inside]; (split; [exact F|]); rewrite V.
    + rewrite mult_IZR. rewrite <- (Flocq.Core.Raux.IZR_Zpower Flocq.Core.Zaux.radix2) by exact E. change (Flocq.Core.Zaux.radix_val Flocq.Core.Zaux.radix2) with 2. lra.
    + set (k := - (e + 30)). replace (e + 30) with (- k) by (unfold k; lia). rewrite Flocq.Core.Raux.bpow_opp, <- (Flocq.Core.Raux.IZR_Zpower Flocq.Core.Zaux.radix2) by (unfold k; lia).
      change (Flocq.Core.Zaux.radix_val Flocq.Core.Zaux.radix2) with 2. assert (K : 0 < 2 ^ k) by (apply Z.pow_pos_nonneg; unfold k; lia).
      pose proof (Z.div_mod v (2 ^ k) ltac:(lia)). pose proof (Z.mod_pos_bound v (2 ^ k) K). set (q := v / 2 ^ k) in *.
      assert (D1 : q * 2 ^ k <= v) by lia. assert (D2 : v <= (q + 1) * 2 ^ k) by lia. apply IZR_le in D1, D2. apply IZR_lt in K. rewrite mult_IZR in D1, D2.
      split; apply (Rmult_le_reg_r (IZR (2 ^ k))); try exact K; rewrite Rmult_assoc, Rinv_l by lra; lra.
Qed.

(* sums and cosine transforms *)
Definition isum (n : Z) (f : Z -> iv) : iv := fold_left (fun s k => iadd s (f k)) (upto n) (Some (0, 0)).
Lemma isum_in : forall n f g, (forall k, 1 <= k <= n -> inside (f k) (g k)) -> inside (fsum n f) (isum n g).
Proof.
  intros n f g H. unfold fsum, isum. assert (G : forall k, In k (upto n) -> inside (f k) (g k)).
  { intros k K. apply H. unfold upto in K. apply in_map_iff in K as (q & <- & K). apply in_seq in K. lia. }
  assert (S : inside (S754_zero false) (Some (0, 0))) by (split; [split; reflexivity|rewrite R_zero, Rmult_0_l; lra]).
  revert S. generalize (S754_zero false), (Some (0, 0) : iv). induction (upto n) as [|k l IH]; intros s t S; cbn [fold_left]; [exact S|].
  apply IH; [intros q Q; apply G; right; exact Q|]. apply iadd_in; [exact S|apply G; left; reflexivity].
Qed.
Definition idct_iv (ci : Z -> Z -> Z -> iv) (n : Z) (c : Z -> iv) (j : Z) : iv :=
  isum n (fun k => imul (imul (exactly (f_of_Z (if k =? 1 then 1 else 2))) (c k)) (ci n k j)).
Lemma idct_in : forall o ci n c b j, (forall k, 1 <= k <= n -> inside (dct_cosine o n k j) (ci n k j)) -> (forall k, 1 <= k <= n -> inside (c k) (b k)) ->
  inside (idct o n c j) (idct_iv ci n b j).
Proof. intros o ci n c b j H G. apply isum_in. intros k K. apply imul_in; [apply imul_in; [apply exactly_in|apply G, K]|apply H, K]. Qed.
