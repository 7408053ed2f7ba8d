(* The prediction of log amplitudes as a real formula with an error bound. *)
From Coq Require Import ZArith Reals Lra Lia List Bool.
From Verif Require Import Res F32 MParms SpecAmp PFloat PReal PAmp.
From Flocq Require Import Core.Core.
Local Open Scope R_scope.

Lemma u24_small : 0 < u24 <= / 16777216. Proof. unfold u24. lra. Qed.
Lemma tiny_u : 0 < tiny <= u24 / 1000000000. Proof. pose proof tiny_pos. pose proof tiny_small. unfold u24. lra. Qed.
Lemma flit1 : flit 1 1 = f_of_Z 1. Proof. vm_compute. reflexivity. Qed.
Lemma abs_mul_le : forall x y a b, Rabs x <= a -> Rabs y <= b -> Rabs (x * y) <= a * b.
Proof. intros x y a b X Y. rewrite Rabs_mult. apply Rmult_le_compat; auto using Rabs_pos. Qed.
(* rounding a number of size at most m *)
Lemma err_le : forall e x m, e <= u24 * Rabs x + tiny -> Rabs x <= m -> e <= u24 * m + tiny.
Proof. intros e x m H K. pose proof u24_small. assert (u24 * Rabs x <= u24 * m) by (apply Rmult_le_compat_l; lra). lra. Qed.

(* x is within e of r *)
Definition about (x : f32) (r e : R) : Prop := ff x /\ Rabs (R_of x - r) <= e.
Lemma about_add : forall x y r s d e m, about x r d -> about y s e -> Rabs r + d + (Rabs s + e) <= m -> m <= huge -> about (fadd x y) (r + s) (d + e + u24 * m + tiny).
Proof.
  intros x y r s d e m [X HX] [Y HY] M HM.
  assert (B : Rabs (R_of x + R_of y) <= m).
  { replace (R_of x + R_of y) with ((R_of x - r) + r + ((R_of y - s) + s)) by ring.
    eapply Rle_trans; [apply Rabs_triang|]. pose proof (Rabs_triang (R_of x - r) r). pose proof (Rabs_triang (R_of y - s) s). lra. }
  destruct (fadd_e x y X Y) as (A & E); [lra|]. split; [exact A|]. apply (fun h => err_le _ _ m h B) in E.
  replace (R_of (fadd x y) - (r + s)) with ((R_of (fadd x y) - (R_of x + R_of y)) + (R_of x - r) + (R_of y - s)) by ring.
  eapply Rle_trans; [apply Rabs_triang|]. pose proof (Rabs_triang (R_of (fadd x y) - (R_of x + R_of y)) (R_of x - r)). lra.
Qed.
Lemma about_sub : forall x y r s d e m, about x r d -> about y s e -> Rabs r + d + (Rabs s + e) <= m -> m <= huge -> about (fsub x y) (r - s) (d + e + u24 * m + tiny).
Proof.
  intros x y r s d e m [X HX] [Y HY] M HM.
  assert (B : Rabs (R_of x - R_of y) <= m).
  { replace (R_of x - R_of y) with ((R_of x - r) + r + ((s - R_of y) + - s)) by ring.
    eapply Rle_trans; [apply Rabs_triang|]. pose proof (Rabs_triang (R_of x - r) r). pose proof (Rabs_triang (s - R_of y) (- s)).
    rewrite Rabs_Ropp in *. rewrite (Rabs_minus_sym s) in *. lra. }
  destruct (fsub_e x y X Y) as (A & E); [lra|]. split; [exact A|]. apply (fun h => err_le _ _ m h B) in E.
  replace (R_of (fsub x y) - (r - s)) with ((R_of (fsub x y) - (R_of x - R_of y)) + (R_of x - r) + (s - R_of y)) by ring.
  eapply Rle_trans; [apply Rabs_triang|]. pose proof (Rabs_triang (R_of (fsub x y) - (R_of x - R_of y)) (R_of x - r)). rewrite (Rabs_minus_sym s) in *. lra.
Qed.
Lemma about_mul : forall x y r s d e a b, about x r d -> about y s e -> Rabs r + d <= a -> Rabs s <= b -> Rabs s + e <= b -> a * b <= huge ->
  about (fmul x y) (r * s) (d * b + a * e + u24 * (a * b) + tiny).
Proof.
  intros x y r s d e a b [X HX] [Y HY] Ha Hs Hb HM.
  assert (BX : Rabs (R_of x) <= a). { replace (R_of x) with ((R_of x - r) + r) by ring. eapply Rle_trans; [apply Rabs_triang|lra]. }
  assert (BY : Rabs (R_of y) <= b). { replace (R_of y) with ((R_of y - s) + s) by ring. eapply Rle_trans; [apply Rabs_triang|lra]. }
  pose proof (abs_mul_le _ _ _ _ BX BY) as B. destruct (fmul_e x y X Y) as (A & E); [lra|]. split; [exact A|]. apply (fun h => err_le _ _ _ h B) in E.
  replace (R_of (fmul x y) - r * s) with ((R_of (fmul x y) - R_of x * R_of y) + (R_of x - r) * s + R_of x * (R_of y - s)) by ring.
  eapply Rle_trans; [apply Rabs_triang|]. pose proof (Rabs_triang (R_of (fmul x y) - R_of x * R_of y) ((R_of x - r) * s)).
  pose proof (abs_mul_le _ _ _ _ HX Hs). pose proof (abs_mul_le _ _ _ _ BX HY). lra.
Qed.
Lemma about_weak : forall x r e e', about x r e -> e <= e' -> about x r e'.
Proof. intros x r e e' [A B] H. split; [exact A|lra]. Qed.
Lemma about_self : forall x, ff x -> about x (R_of x) 0.
Proof. intros x H. split; [exact H|]. rewrite Rminus_diag_eq by reflexivity. rewrite Rabs_R0. lra. Qed.

(* f 1 + ... + f n *)
Fixpoint rsum (n : nat) (f : Z -> R) : R := match n with O => 0 | S n => rsum n f + f (Z.of_nat (S n)) end.
Lemma rsum_bound : forall n f lo hi, (forall k, (1 <= k <= Z.of_nat n)%Z -> lo <= f k <= hi) -> INR n * lo <= rsum n f <= INR n * hi.
Proof.
  induction n as [|n IH]; intros f lo hi H; [cbn; lra|]. cbn [rsum]. rewrite S_INR. destruct (IH f lo hi); [intros k Hk; apply H; lia|].
  destruct (H (Z.of_nat (S n))); [lia|]. lra.
Qed.
Lemma rsum_abs : forall n f b, (forall k, (1 <= k <= Z.of_nat n)%Z -> Rabs (f k) <= b) -> Rabs (rsum n f) <= INR n * b.
Proof.
  intros n f b H. apply Rabs_le. destruct (rsum_bound n f (- b) b) as [A B]; [|lra]. intros k Hk. specialize (H k Hk). apply Rabs_le_inv in H. lra.
Qed.
(* a float sum of up to 60 terms of size at most b <= 200 *)
Lemma fsum_about : forall n f v e b, (n <= 60)%nat -> 0 <= e -> e <= 1 -> b <= 200 -> (forall k, (1 <= k <= Z.of_nat n)%Z -> about (f k) (v k) e /\ Rabs (v k) + e <= b) ->
  about (fsum (Z.of_nat n) f) (rsum n v) (INR n * (e + / 1000)).
Proof.
  intros n f v e b Hn He He1 Hb H. induction n as [|n IH].
  - cbn [rsum INR]. replace (Z.of_nat 0) with 0%Z by reflexivity. rewrite fsum_0. split; [split; reflexivity|]. change (R_of fzero) with 0. rewrite Rminus_diag_eq by reflexivity. rewrite Rabs_R0. lra.
  - assert (HI : INR n <= 60). { apply (Rle_trans _ (INR 60)); [apply le_INR; lia|]. rewrite INR_IZR_INZ. apply IZR_le. lia. }
    pose proof (pos_INR n) as HP.
    rewrite fsum_step by lia. replace (Z.of_nat (S n) - 1)%Z with (Z.of_nat n) by lia. cbn [rsum].
    destruct (H (Z.of_nat (S n)) ltac:(lia)) as [A B].
    assert (I : about (fsum (Z.of_nat n) f) (rsum n v) (INR n * (e + / 1000))) by (apply IH; [lia|intros k Hk; apply H; lia]).
    assert (B0 : Rabs (rsum n v) <= INR n * 200).
    { apply rsum_abs. intros k Hk. destruct (H k ltac:(lia)) as [_ Q]. lra. }
    assert (BN : INR n * 200 <= 60 * 200) by (apply Rmult_le_compat_r; lra).
    assert (BE : INR n * (e + / 1000) <= 60 * 2) by (apply Rmult_le_compat; lra).
    eapply about_weak; [apply (about_add _ _ _ _ _ _ 12400 I A)|]; [lra|unfold huge; lra|].
    pose proof u24_small. pose proof tiny_u. rewrite S_INR. lra.
Qed.

Lemma pos_bounds : forall pL L l, (0 <= pL <= 56)%Z -> (1 <= L <= 56)%Z -> (1 <= l <= L)%Z ->
  ff (position pL L l) /\ 0 <= R_of (position pL L l) <= IZR pL * IZR l / IZR L + / 140000.
Proof.
  intros pL L l HP HL Hl. unfold position. destruct (of_Z_R pL) as [A1 A2]; [lia|]. destruct (of_Z_R L) as [B1 B2]; [lia|]. destruct (of_Z_R l) as [C1 C2]; [lia|].
  assert (L1 : 1 <= IZR L <= 56) by (split; apply IZR_le; lia). assert (P1 : 0 <= IZR pL <= 56) by (split; apply IZR_le; lia). assert (l1 : 1 <= IZR l <= IZR L) by (split; apply IZR_le; lia).
  assert (IL : / IZR L * IZR L = 1) by (apply Rinv_l; lra). assert (PI : 0 < / IZR L <= 1). { split; [apply Rinv_0_lt_compat; lra|]. rewrite <- Rinv_1. apply Rinv_le_contravar; lra. }
  assert (Q0 : 0 <= IZR pL / IZR L <= 56). { unfold Rdiv. split; [apply Rmult_le_pos; lra|]. replace 56 with (56 * 1) by ring. apply Rmult_le_compat; lra. }
  destruct (of_Z_R 0) as [Z1 Z2]; [lia|]. pose proof u24_small as U. pose proof tiny_u as T.
  destruct (fdiv_b (f_of_Z pL) (f_of_Z L) (f_of_Z 0) FLT_MAX A1 B1) as (D1 & D2 & _); [rewrite B2; lra|exact Z1|apply ff_max| |].
  { rewrite A2, B2, Z2. destruct big_max as [K _]. unfold huge in K. lra. }
  destruct (fdiv_e (f_of_Z pL) (f_of_Z L) A1 B1) as (_ & D3); [rewrite B2; lra|rewrite A2, B2; unfold huge; rewrite Rabs_pos_eq; lra|].
  rewrite A2, B2 in D3. rewrite (Rabs_pos_eq (IZR pL / IZR L)) in D3 by lra. rewrite Z2 in D2. set (q := fdiv _ _) in *.
  apply Rabs_le_inv in D3. assert (UQ : u24 * (IZR pL / IZR L) <= u24 * 56) by (apply Rmult_le_compat_l; lra).
  assert (QB : 0 <= R_of q * IZR l <= 10000). { split; [apply Rmult_le_pos; lra|]. apply (Rle_trans _ (100 * 56)); [apply Rmult_le_compat; lra|lra]. }
  destruct (fmul_b q (f_of_Z l) (f_of_Z 0) FLT_MAX D1 C1) as (E1 & E2 & _); [exact Z1|apply ff_max| |].
  { rewrite C2, Z2. destruct big_max as [K _]. unfold huge in K. lra. }
  destruct (fmul_e q (f_of_Z l) D1 C1) as (_ & E3); [rewrite C2; unfold huge; rewrite Rabs_pos_eq; lra|].
  rewrite C2 in E3. rewrite (Rabs_pos_eq (R_of q * IZR l)) in E3 by lra. rewrite Z2 in E2. split; [exact E1|]. split; [lra|]. apply Rabs_le_inv in E3.
  assert (LL : 0 <= IZR l * / IZR L <= 1).
  { split; [apply Rmult_le_pos; lra|]. apply (Rle_trans _ (IZR L * / IZR L)); [apply Rmult_le_compat_r; lra|]. rewrite Rmult_comm. lra. }
  assert (G : IZR pL * IZR l / IZR L <= 56).
  { unfold Rdiv. rewrite Rmult_assoc. replace 56 with (56 * 1) by ring. apply Rmult_le_compat; lra. }
  assert (F : R_of q * IZR l <= IZR pL * IZR l / IZR L * (1 + u24) + 56 * tiny).
  { apply (Rle_trans _ ((IZR pL / IZR L * (1 + u24) + tiny) * IZR l)); [apply Rmult_le_compat_r; lra|].
    replace ((IZR pL / IZR L * (1 + u24) + tiny) * IZR l) with (IZR pL * IZR l / IZR L * (1 + u24) + IZR l * tiny) by (unfold Rdiv; ring).
    assert (IZR l * tiny <= 56 * tiny) by (apply Rmult_le_compat_r; lra). lra. }
  assert (G2 : IZR pL * IZR l / IZR L * u24 <= 56 * u24) by (apply Rmult_le_compat_r; lra).
  assert (G3 : u24 * (R_of q * IZR l) <= u24 * 57) by (apply Rmult_le_compat_l; lra).
  lra.
Qed.
(* the whole part and the fraction of the position of harmonic l *)
Lemma pos_parts : forall pL L l, (0 <= pL <= 56)%Z -> (1 <= L <= 56)%Z -> (1 <= l <= L)%Z ->
  let x := position pL L l in let k := whole_part x in
  (0 <= k <= pL)%Z /\ ff (fraction x) /\ 0 <= R_of (fraction x) <= 1 /\ (k = pL -> R_of (fraction x) <= / 130000).
Proof.
  intros pL L l HP HL Hl. cbv zeta. destruct (pos_bounds pL L l HP HL Hl) as (F & B). set (x := position pL L l) in *.
  assert (L1 : 1 <= IZR L <= 56) by (split; apply IZR_le; lia). assert (P1 : 0 <= IZR pL <= 56) by (split; apply IZR_le; lia). assert (l1 : 1 <= IZR l <= IZR L) by (split; apply IZR_le; lia).
  assert (G : IZR pL * IZR l / IZR L <= IZR pL).
  { unfold Rdiv. rewrite Rmult_assoc. rewrite <- (Rmult_1_r (IZR pL)) at 2. apply Rmult_le_compat_l; [lra|]. apply (Rle_trans _ (IZR L * / IZR L)); [|rewrite Rinv_r; lra]. apply Rmult_le_compat_r; [|lra]. apply Rlt_le, Rinv_0_lt_compat. lra. }
  assert (E : whole_part x = Zfloor (R_of x)). { unfold whole_part. rewrite trunc_R by apply F. apply Ztrunc_floor. lra. }
  pose proof (Zfloor_lb (R_of x)) as LB. pose proof (Zfloor_ub (R_of x)) as UB. rewrite <- E in LB, UB. set (k := whole_part x) in *.
  assert (K1 : (0 <= k)%Z). { apply le_IZR. apply IZR_le. apply le_IZR. assert (-1 < IZR k) by lra. assert ((-1 < k)%Z) by (apply lt_IZR; lra). apply IZR_le. lia. }
  assert (K2 : (k <= pL)%Z). { assert (IZR k < IZR (pL + 1)) by (rewrite plus_IZR; lra). apply lt_IZR in H. lia. }
  split; [lia|]. destruct (of_Z_R k) as [A1 A2]; [lia|]. destruct (of_Z_R 0) as [Z1 Z2]; [lia|]. destruct (of_Z_R 1) as [O1 O2]; [lia|].
  destruct (fsub_b x (f_of_Z k) (f_of_Z 0) (f_of_Z 1) F A1 Z1 O1) as (D1 & D2 & _); [rewrite A2, Z2, O2; lra|].
  destruct (fsub_e x (f_of_Z k) F A1) as (_ & D3); [rewrite A2; unfold huge; apply Rabs_le; lra|].
  unfold fraction. fold k. rewrite Z2, O2 in D2. split; [exact D1|]. split; [exact D2|]. intros EK. assert (EK' : IZR k = IZR pL) by now rewrite EK. rewrite A2 in D3. rewrite (Rabs_pos_eq (R_of x - IZR k)) in D3 by lra.
  apply Rabs_le_inv in D3. pose proof u24_small. pose proof tiny_u. assert (u24 * (R_of x - IZR k) <= u24 * 1) by (apply Rmult_le_compat_l; lra). lra.
Qed.

(* the weighted value of harmonic l, the past values lying in [lo, hi] and the one after the last in [-B, B] *)
Definition mixed (pL L : Z) (a : Z -> f32) (l : Z) : R :=
  let x := position pL L l in (1 - R_of (fraction x)) * R_of (a (whole_part x)) + R_of (fraction x) * R_of (a (whole_part x + 1)%Z).
Definition past_ok (pL : Z) (a : Z -> f32) (lo hi : R) : Prop :=
  (forall k, (0 <= k <= pL)%Z -> ff (a k) /\ lo <= R_of (a k) <= hi) /\ ff (a (pL + 1)%Z) /\ Rabs (R_of (a (pL + 1)%Z)) <= 130 /\ -130 <= lo /\ hi <= 130.
Lemma mixed_bounds : forall pL L a lo hi l, (0 <= pL <= 56)%Z -> (1 <= L <= 56)%Z -> (1 <= l <= L)%Z -> past_ok pL a lo hi ->
  lo - / 400 <= mixed pL L a l <= hi + / 400.
Proof.
  intros pL L a lo hi l HP HL Hl (A & B & C & D & E). destruct (pos_parts pL L l HP HL Hl) as (K & F & FB & FS). cbv zeta in *. unfold mixed. cbv zeta.
  set (x := position pL L l) in *. set (k := whole_part x) in *. destruct (A k K) as [_ A1]. set (f := R_of (fraction x)) in *.
  destruct (Z.eq_dec k pL) as [Q|Q].
  - specialize (FS Q). rewrite Q in *. set (y := R_of (a (pL + 1)%Z)) in *. set (z := R_of (a pL)) in *. apply Rabs_le_inv in C.
    assert (Rabs (f * (y - z)) <= / 130000 * 260) by (apply abs_mul_le; apply Rabs_le; lra). apply Rabs_le_inv in H.
    replace ((1 - f) * z + f * y) with (z + f * (y - z)) by ring. lra.
  - destruct (A (k + 1)%Z ltac:(lia)) as [_ A2]. set (y := R_of (a (k + 1)%Z)) in *. set (z := R_of (a k)) in *.
    assert (f * lo <= f * y <= f * hi) by (split; apply Rmult_le_compat_l; lra). assert ((1 - f) * lo <= (1 - f) * z <= (1 - f) * hi) by (split; apply Rmult_le_compat_l; lra). lra.
Qed.
Lemma past_all : forall pL L a lo hi l, (0 <= pL <= 56)%Z -> (1 <= L <= 56)%Z -> (1 <= l <= L)%Z -> past_ok pL a lo hi ->
  let k := whole_part (position pL L l) in ff (a k) /\ Rabs (R_of (a k)) <= 130 /\ ff (a (k + 1)%Z) /\ Rabs (R_of (a (k + 1)%Z)) <= 130.
Proof.
  intros pL L a lo hi l HP HL Hl (A & B & C & D & E). destruct (pos_parts pL L l HP HL Hl) as (K & _). cbv zeta in *. set (k := whole_part _) in *.
  destruct (A k K) as [A0 A1]. split; [exact A0|]. split; [apply Rabs_le; lra|]. destruct (Z.eq_dec k pL) as [Q|Q]; [rewrite Q; auto|].
  destruct (A (k + 1)%Z ltac:(lia)) as [A2 A3]. split; [exact A2|]. apply Rabs_le. lra.
Qed.
(* 1 - fraction *)
Lemma rest_about : forall f, ff f -> 0 <= R_of f <= 1 -> about (fsub (flit 1 1) f) (1 - R_of f) (/ 5000000).
Proof.
  intros f F B. destruct (of_Z_R 1) as [O1 O2]; [lia|]. rewrite flit1. rewrite <- O2 at 1.
  eapply about_weak; [apply (about_sub _ _ _ _ 0 0 2); [now apply about_self|now apply about_self|rewrite O2, !Rabs_pos_eq; lra|unfold huge; lra]|].
  pose proof u24_small. pose proof tiny_u. lra.
Qed.
(* a weight times a past value *)
Lemma part_about : forall w a r, about w r (/ 5000000) -> 0 <= r <= 1 -> ff a -> Rabs (R_of a) <= 130 -> about (fmul w a) (r * R_of a) (/ 10000).
Proof.
  intros w a r W HR A B. eapply about_weak; [apply (about_mul _ _ _ _ _ 0 2 130 W (about_self a A))|]; [rewrite Rabs_pos_eq; lra|lra|lra|unfold huge; lra|].
  pose proof u24_small. pose proof tiny_u. lra.
Qed.
Lemma term_about : forall pL L a lo hi l, (0 <= pL <= 56)%Z -> (1 <= L <= 56)%Z -> (1 <= l <= L)%Z -> past_ok pL a lo hi ->
  let x := position pL L l in
  about (fadd (fmul (fsub (flit 1 1) (fraction x)) (a (whole_part x))) (fmul (fraction x) (a (whole_part x + 1)%Z))) (mixed pL L a l) (/ 3000).
Proof.
  intros pL L a lo hi l HP HL Hl P. destruct (pos_parts pL L l HP HL Hl) as (K & F & FB & _). destruct (past_all pL L a lo hi l HP HL Hl P) as (A0 & A1 & A2 & A3).
  cbv zeta in *. unfold mixed. cbv zeta. set (x := position pL L l) in *. set (k := whole_part x) in *.
  pose proof (part_about _ _ _ (rest_about _ F FB) ltac:(lra) A0 A1) as X.
  assert (F0 : about (fraction x) (R_of (fraction x)) (/ 5000000)) by (eapply about_weak; [apply about_self; exact F|lra]).
  pose proof (part_about _ _ _ F0 FB A2 A3) as Y.
  eapply about_weak; [apply (about_add _ _ _ _ _ _ 300 X Y)|].
  - assert (Rabs ((1 - R_of (fraction x)) * R_of (a k)) <= 1 * 130) by (apply abs_mul_le; [apply Rabs_le; lra|exact A1]).
    assert (Rabs (R_of (fraction x) * R_of (a (k + 1)%Z)) <= 1 * 130) by (apply abs_mul_le; [apply Rabs_le; lra|exact A3]). lra.
  - unfold huge. lra.
  - pose proof u24_small. pose proof tiny_u. lra.
Qed.
(* the prediction: residual plus rho times the deviation from the mean *)
Lemma predicted_about : forall rho pL L a r lo hi l, (0 <= pL <= 56)%Z -> (1 <= L <= 56)%Z -> (1 <= l <= L)%Z -> past_ok pL a lo hi ->
  ff rho -> 0 <= R_of rho <= 1 -> ff (r l) -> Rabs (R_of (r l)) <= 50 ->
  about (predicted rho pL L a r l) (R_of (r l) + R_of rho * (mixed pL L a l - rsum (Z.to_nat L) (mixed pL L a) / IZR L)) (/ 100).
Proof.
  intros rho pL L a r lo hi l HP HL Hl P RF RB TF TB.
  pose proof u24_small as U. pose proof tiny_u as T.
  assert (M : forall k, (1 <= k <= L)%Z -> Rabs (mixed pL L a k) <= 131).
  { intros k Hk. pose proof (mixed_bounds pL L a lo hi k HP HL Hk P). destruct P as (_ & _ & _ & P1 & P2). apply Rabs_le. lra. }
  assert (L1 : 1 <= IZR L <= 56) by (split; apply IZR_le; lia).
  assert (PI : 0 < / IZR L <= 1). { split; [apply Rinv_0_lt_compat; lra|]. rewrite <- Rinv_1. apply Rinv_le_contravar; lra. }
  unfold predicted. cbv zeta.
  (* the mean *)
  assert (S : about (fsum L (fun l => fadd (fmul (fsub (flit 1 1) (fraction (position pL L l))) (a (whole_part (position pL L l)))) (fmul (fraction (position pL L l)) (a (whole_part (position pL L l) + 1)%Z))))
    (rsum (Z.to_nat L) (mixed pL L a)) (IZR L * (/ 3000 + / 1000))).
  { replace L with (Z.of_nat (Z.to_nat L)) at 1 by lia. replace (IZR L) with (INR (Z.to_nat L)) by (rewrite INR_IZR_INZ; f_equal; lia).
    apply (fsum_about _ _ _ _ 132); [lia|lra|lra|lra|]. intros k Hk. split; [apply (term_about pL L a lo hi k HP HL); [lia|exact P]|]. specialize (M k ltac:(lia)). lra. }
  assert (SB : Rabs (rsum (Z.to_nat L) (mixed pL L a)) <= IZR L * 131).
  { replace (IZR L) with (INR (Z.to_nat L)) by (rewrite INR_IZR_INZ; f_equal; lia). apply rsum_abs. intros k Hk. apply M. lia. }
  set (sum := fsum L _) in *. set (rs := rsum (Z.to_nat L) (mixed pL L a)) in *.
  destruct (of_Z_R L) as [O1 O2]; [lia|].
  assert (Q0 : 0 <= R_of rho * / IZR L <= / IZR L).
  { split; [apply Rmult_le_pos; lra|]. rewrite <- (Rmult_1_l (/ IZR L)) at 2. apply Rmult_le_compat_r; lra. }
  assert (Q : about (fdiv rho (f_of_Z L)) (R_of rho * / IZR L) (2 * u24 * / IZR L)).
  { destruct (fdiv_e rho (f_of_Z L) RF O1) as (A & B); [rewrite O2; lra|rewrite O2; unfold Rdiv, huge; apply Rabs_le; lra|]. split; [exact A|]. rewrite O2 in B. unfold Rdiv in B.
    rewrite (Rabs_pos_eq (R_of rho * / IZR L)) in B by lra. eapply Rle_trans; [exact B|].
    assert (u24 * (R_of rho * / IZR L) <= u24 * / IZR L) by (apply Rmult_le_compat_l; lra).
    assert (/ 56 <= / IZR L) by (apply Rinv_le_contravar; lra). assert (u24 * / 56 <= u24 * / IZR L) by (apply Rmult_le_compat_l; lra). lra. }
  assert (ME : about (fmul (fdiv rho (f_of_Z L)) sum) (R_of rho * (rs / IZR L)) (/ 500)).
  { destruct Q as [QF QE]. destruct S as [SF SE].
    assert (QA : Rabs (R_of (fdiv rho (f_of_Z L))) <= 1.001 * / IZR L).
    { apply Rabs_le_inv in QE. apply Rabs_le. assert (2 * u24 * / IZR L <= / 1000 * / IZR L) by (apply Rmult_le_compat_r; lra). lra. }
    assert (SA : Rabs (R_of sum) <= IZR L * 132).
    { apply Rabs_le_inv in SE. apply Rabs_le_inv in SB. apply Rabs_le. assert (IZR L * (/ 3000 + / 1000) <= IZR L * 1) by (apply Rmult_le_compat_l; lra). lra. }
    pose proof (abs_mul_le _ _ _ _ QA SA) as B. replace (1.001 * / IZR L * (IZR L * 132)) with (1.001 * 132 * (/ IZR L * IZR L)) in B by ring. rewrite Rinv_l in B by lra.
    destruct (fmul_e _ _ QF SF) as (A & E); [unfold huge; lra|]. split; [exact A|]. apply (fun h => err_le _ _ _ h B) in E.
    replace (R_of (fmul (fdiv rho (f_of_Z L)) sum) - R_of rho * (rs / IZR L)) with
      ((R_of (fmul (fdiv rho (f_of_Z L)) sum) - R_of (fdiv rho (f_of_Z L)) * R_of sum) + (R_of (fdiv rho (f_of_Z L)) - R_of rho * / IZR L) * R_of sum + R_of rho * / IZR L * (R_of sum - rs)) by (unfold Rdiv; ring).
    eapply Rle_trans; [apply Rabs_triang|]. pose proof (Rabs_triang (R_of (fmul (fdiv rho (f_of_Z L)) sum) - R_of (fdiv rho (f_of_Z L)) * R_of sum) ((R_of (fdiv rho (f_of_Z L)) - R_of rho * / IZR L) * R_of sum)).
    pose proof (abs_mul_le _ _ _ _ QE SA) as E2. replace (2 * u24 * / IZR L * (IZR L * 132)) with (2 * u24 * 132 * (/ IZR L * IZR L)) in E2 by ring. rewrite Rinv_l in E2 by lra.
    assert (Q0' : Rabs (R_of rho * / IZR L) <= / IZR L) by (apply Rabs_le; lra).
    pose proof (abs_mul_le _ _ _ _ Q0' SE) as E3. replace (/ IZR L * (IZR L * (/ 3000 + / 1000))) with ((/ IZR L * IZR L) * (/ 3000 + / 1000)) in E3 by ring. rewrite Rinv_l in E3 by lra. lra. }
  clear Q S. set (mean := fmul _ sum) in *.
  (* the two parts of the deviation *)
  destruct (pos_parts pL L l HP HL Hl) as (K & F & FB & _). destruct (past_all pL L a lo hi l HP HL Hl P) as (A0 & A1 & A2 & A3). cbv zeta in *.
  pose proof (M l Hl) as Ml. unfold mixed at 1. unfold mixed in Ml. cbv zeta in *. set (x := position pL L l) in *. set (k := whole_part x) in *.
  pose proof (rest_about _ F FB) as X0.
  assert (X1 : about (fmul rho (fsub (flit 1 1) (fraction x))) (R_of rho * (1 - R_of (fraction x))) (/ 1000000)).
  { eapply about_weak; [apply (about_mul _ _ _ _ 0 _ 1 2 (about_self rho RF) X0)|]; [rewrite Rabs_pos_eq; lra|rewrite Rabs_pos_eq; lra|rewrite Rabs_pos_eq; lra|unfold huge; lra|lra]. }
  assert (X2 : about (fmul rho (fraction x)) (R_of rho * R_of (fraction x)) (/ 1000000)).
  { eapply about_weak; [apply (about_mul _ _ _ _ 0 0 1 2 (about_self rho RF) (about_self _ F))|]; [rewrite Rabs_pos_eq; lra|rewrite Rabs_pos_eq; lra|rewrite Rabs_pos_eq; lra|unfold huge; lra|lra]. }
  assert (B1 : 0 <= R_of rho * (1 - R_of (fraction x)) <= 1). { split; [apply Rmult_le_pos; lra|]. apply (Rle_trans _ (1 * 1)); [apply Rmult_le_compat; lra|lra]. }
  assert (B2 : 0 <= R_of rho * R_of (fraction x) <= 1). { split; [apply Rmult_le_pos; lra|]. apply (Rle_trans _ (1 * 1)); [apply Rmult_le_compat; lra|lra]. }
  assert (Y1 : about (fmul (fmul rho (fsub (flit 1 1) (fraction x))) (a k)) (R_of rho * (1 - R_of (fraction x)) * R_of (a k)) (/ 2000)).
  { eapply about_weak; [apply (about_mul _ _ _ _ _ 0 2 130 X1 (about_self _ A0))|]; [rewrite Rabs_pos_eq; lra|lra|lra|unfold huge; lra|lra]. }
  assert (Y2 : about (fmul (fmul rho (fraction x)) (a (k + 1)%Z)) (R_of rho * R_of (fraction x) * R_of (a (k + 1)%Z)) (/ 2000)).
  { eapply about_weak; [apply (about_mul _ _ _ _ _ 0 2 130 X2 (about_self _ A2))|]; [rewrite Rabs_pos_eq; lra|lra|lra|unfold huge; lra|lra]. }
  assert (C1 : Rabs (R_of rho * (1 - R_of (fraction x)) * R_of (a k)) <= 1 * 130) by (apply abs_mul_le; [apply Rabs_le; lra|exact A1]).
  assert (C2 : Rabs (R_of rho * R_of (fraction x) * R_of (a (k + 1)%Z)) <= 1 * 130) by (apply abs_mul_le; [apply Rabs_le; lra|exact A3]).
  assert (S1 := about_add _ _ _ _ _ _ 200 (about_self _ TF) Y1 ltac:(lra) ltac:(unfold huge; lra)).
  assert (S1' := about_weak _ _ _ (/ 1000) S1 ltac:(lra)).
  assert (C3 : Rabs (R_of (r l) + R_of rho * (1 - R_of (fraction x)) * R_of (a k)) <= 180) by (eapply Rle_trans; [apply Rabs_triang|lra]).
  assert (S2 := about_add _ _ _ _ _ _ 400 S1' Y2 ltac:(lra) ltac:(unfold huge; lra)).
  assert (S2' := about_weak _ _ _ (/ 400) S2 ltac:(lra)).
  assert (C4 : Rabs (R_of (r l) + R_of rho * (1 - R_of (fraction x)) * R_of (a k) + R_of rho * R_of (fraction x) * R_of (a (k + 1)%Z)) <= 310) by (eapply Rle_trans; [apply Rabs_triang|lra]).
  assert (C5 : Rabs (R_of rho * (rs / IZR L)) <= 131).
  { replace 131 with (1 * 131) by ring. apply abs_mul_le; [apply Rabs_le; lra|]. unfold Rdiv. rewrite Rabs_mult, (Rabs_pos_eq (/ IZR L)) by lra.
    apply (Rle_trans _ (IZR L * 131 * / IZR L)); [apply Rmult_le_compat_r; lra|]. replace (IZR L * 131 * / IZR L) with (131 * (/ IZR L * IZR L)) by ring. rewrite Rinv_l; lra. }
  assert (S3 := about_sub _ _ _ _ _ _ 500 S2' ME ltac:(lra) ltac:(unfold huge; lra)).
  destruct S3 as [S3 S4]. split; [exact S3|].
  replace (R_of (r l) + R_of rho * ((1 - R_of (fraction x)) * R_of (a k) + R_of (fraction x) * R_of (a (k + 1)%Z) - rs / IZR L))
    with (R_of (r l) + R_of rho * (1 - R_of (fraction x)) * R_of (a k) + R_of rho * R_of (fraction x) * R_of (a (k + 1)%Z) - R_of rho * (rs / IZR L)) by ring.
  eapply Rle_trans; [exact S4|]. lra.
Qed.
