(* Enhancement keeps the energy of a frame up to rounding. *)
From Coq Require Import ZArith List Bool Lia Reals Lra.
From Verif Require Import Res F32 MParms MAdaptive MUnvoiced MSynth SpecAmp SpecSynth SpecSum SpecEnh2 PSum PBase PRun PArr PFloat PReal PSumErr PAmp PSynth PEnh2.
From Verif Require Export SpecBuild.
From Flocq Require Import Core.Core.
Import ListNotations.
Local Open Scope R_scope.
Lemma rsum_app : forall f a b, rsum f (a ++ b) = rsum f a + rsum f b.
Proof. intros f a b. unfold rsum. induction a as [|x a IH]; cbn [app fold_right]; [ring|]. rewrite IH. ring. Qed.
Lemma rsum_snoc : forall f n, (1 <= n)%Z -> rsum f (upto n) = rsum f (upto (n - 1)) + f n.
Proof. intros f n H. rewrite (PAmp.upto_snoc n H), rsum_app. cbn. ring. Qed.
Lemma rsum_pos : forall f l, (forall k, In k l -> 0 <= f k) -> 0 <= rsum f l.
Proof. intros f l. induction l as [|x l IH]; intros H; cbn; [lra|]. pose proof (H x (or_introl eq_refl)). specialize (IH (fun k K => H k (or_intror K))). fold (rsum f l). lra. Qed.
Lemma rsum_close : forall f g c d l, (forall k, In k l -> Rabs (f k - g k) <= c * g k + d) -> Rabs (rsum f l - rsum g l) <= c * rsum g l + INR (length l) * d.
Proof.
  intros f g c d l. induction l as [|x l IH]; intros H.
  - cbn. rewrite Rminus_0_r, Rabs_R0. lra.
  - specialize (IH (fun k K => H k (or_intror K))). pose proof (H x (or_introl eq_refl)) as Hx. cbn [length]. rewrite S_INR. cbn [rsum fold_right]. fold (rsum f l) (rsum g l).
    apply Rabs_le_inv in IH. apply Rabs_le_inv in Hx. apply Rabs_le. lra.
Qed.
Lemma rsum_ext : forall f g l, (forall k, In k l -> f k = g k) -> rsum f l = rsum g l.
Proof. intros f g l H. induction l as [|x l IH]; [reflexivity|]. cbn. rewrite (H x (or_introl eq_refl)). f_equal. apply IH. intros k K. apply H. now right. Qed.
Lemma rsum_scale : forall c f l, rsum (fun k => c * f k) l = c * rsum f l.
Proof. intros c f l. induction l as [|x l IH]; cbn; [ring|]. unfold rsum in IH. rewrite IH. ring. Qed.
Lemma rsum_le : forall f c l, (forall k, In k l -> f k <= c) -> rsum f l <= INR (length l) * c.
Proof. intros f c l. induction l as [|x l IH]; intros H; cbn [length]; [cbn; lra|]. rewrite S_INR. cbn [rsum fold_right]. fold (rsum f l). pose proof (H x (or_introl eq_refl)). specialize (IH (fun k K => H k (or_intror K))). lra. Qed.
Lemma rsum_lower : forall f g c d l, (forall k, In k l -> c * g k - d <= f k) -> c * rsum g l - INR (length l) * d <= rsum f l.
Proof. intros f g c d l. induction l as [|x l IH]; intros H; cbn [length]; [cbn; lra|]. rewrite S_INR. cbn [rsum fold_right]. fold (rsum f l) (rsum g l). pose proof (H x (or_introl eq_refl)). specialize (IH (fun k K => H k (or_intror K))). lra. Qed.
Lemma in_upto : forall k n, In k (upto n) <-> (1 <= k <= n)%Z.
Proof. intros k n. unfold upto. rewrite in_map_iff. split; [intros (i & <- & H); apply in_seq in H; lia|intros H; exists (Z.to_nat k); split; [lia|apply in_seq; lia]]. Qed.

Lemma u_facts : 0 < u24 <= / 1000000 /\ 0 < tiny <= 1e-30.
Proof. split; [unfold u24; lra|]. split; [apply tiny_pos|]. eapply Rle_trans; [apply tiny_small|]. lra. Qed.

(* the float sum of squares *)
Lemma rtot_rsum : forall (f : Z -> f32) l, rtot (map f l) = rsum (fun k => R_of (f k)) l.
Proof. intros f l. unfold rtot, rsum. induction l as [|x l IH]; [reflexivity|]. cbn [map fold_right]. now rewrite IH. Qed.
Lemma rabs_rsum : forall (f : Z -> f32) l, rabs (map f l) = rsum (fun k => Rabs (R_of (f k))) l.
Proof. intros f l. unfold rabs, rsum. induction l as [|x l IH]; [reflexivity|]. cbn [map fold_right]. now rewrite IH. Qed.
Lemma upto_count : forall n, (0 <= n)%Z -> INR (length (upto n)) = IZR n.
Proof. intros n H. rewrite upto_length, INR_IZR_INZ, Z2Nat.id by exact H. reflexivity. Qed.
Lemma sum_terms : forall simd (f : Z -> f32) n, (0 <= n <= 56)%Z -> (forall k, (1 <= k <= n)%Z -> ff (f k)) -> rsum (fun k => Rabs (R_of (f k))) (upto n) <= 1e35 ->
  ff (add_all simd (map f (upto n))) /\
  Rabs (R_of (add_all simd (map f (upto n))) - rsum (fun k => R_of (f k)) (upto n)) <= (IZR n + 3) * (1.01 * u24 * rsum (fun k => Rabs (R_of (f k))) (upto n) + 2 * tiny).
Proof.
  intros simd f n Hn F B. destruct (add_all_error simd (map f (upto n))) as [A E].
  - rewrite map_length, upto_length. lia.
  - apply Forall_forall. intros x Hx. apply in_map_iff in Hx as (k & <- & Hk). apply F. now apply in_upto.
  - rewrite rabs_rsum. exact B.
  - split; [exact A|]. rewrite map_length, upto_count, rtot_rsum, rabs_rsum in E by lia. exact E.
Qed.
Lemma sum_squares : forall simd (x : Z -> f32) n, (0 <= n <= 56)%Z -> (forall k, (1 <= k <= n)%Z -> ff (x k) /\ Rabs (R_of (x k)) <= 1e10) ->
  let s := add_all simd (map (fun k => fmul (x k) (x k)) (upto n)) in let r := rsum (fun k => R_of (x k) * R_of (x k)) (upto n) in
  ff s /\ Rabs (R_of s - r) <= (IZR n + 5) * (1.01 * u24 * r) + (IZR n + 3) * (4 * tiny) /\ 0 <= r <= IZR n * 1e20.
Proof.
  intros simd x n Hn HX. cbv zeta. destruct u_facts as [U T]. assert (N : 0 <= IZR n <= 56) by (split; apply IZR_le; lia).
  set (r := rsum (fun k => R_of (x k) * R_of (x k)) (upto n)).
  assert (SQ : forall k, (1 <= k <= n)%Z -> 0 <= R_of (x k) * R_of (x k) <= 1e20).
  { intros k Hk. destruct (HX k Hk) as [_ B]. apply Rabs_le_inv in B. split; nra. }
  assert (R0 : 0 <= r) by (apply rsum_pos; intros k Hk; apply in_upto in Hk; apply SQ, Hk).
  assert (R1 : r <= IZR n * 1e20). { rewrite <- (upto_count n) by lia. apply rsum_le. intros k Hk. apply in_upto in Hk. apply SQ, Hk. }
  assert (P : forall k, (1 <= k <= n)%Z -> ff (fmul (x k) (x k)) /\ Rabs (R_of (fmul (x k) (x k)) - R_of (x k) * R_of (x k)) <= u24 * (R_of (x k) * R_of (x k)) + tiny /\
    Rabs (Rabs (R_of (fmul (x k) (x k))) - R_of (x k) * R_of (x k)) <= u24 * (R_of (x k) * R_of (x k)) + tiny).
  { intros k Hk. destruct (HX k Hk) as [F _]. pose proof (SQ k Hk) as Q. destruct (fmul_e (x k) (x k) F F) as [A E]; [rewrite Rabs_right; unfold huge; lra|]. rewrite (Rabs_right (R_of (x k) * _)) in E by lra.
    split; [exact A|]. split; [exact E|]. rewrite <- (Rabs_right (R_of (x k) * R_of (x k))) at 1 by lra. eapply Rle_trans; [apply Rabs_triang_inv2|exact E]. }
  pose proof (rsum_close (fun k => R_of (fmul (x k) (x k))) (fun k => R_of (x k) * R_of (x k)) u24 tiny (upto n)) as C1.
  pose proof (rsum_close (fun k => Rabs (R_of (fmul (x k) (x k)))) (fun k => R_of (x k) * R_of (x k)) u24 tiny (upto n)) as C2.
  fold r in C1, C2. rewrite upto_count in C1, C2 by lia. specialize (C1 (fun k Hk => proj1 (proj2 (P k (proj1 (in_upto k n) Hk))))). specialize (C2 (fun k Hk => proj2 (proj2 (P k (proj1 (in_upto k n) Hk))))).
  set (w := u24 * r) in *. assert (W : 0 <= w <= / 1000000 * r) by (unfold w; split; [apply Rmult_le_pos; lra|apply Rmult_le_compat_r; lra]).
  assert (NT : 0 <= IZR n * tiny <= 56 * tiny) by (split; [apply Rmult_le_pos; lra|apply Rmult_le_compat_r; lra]).
  set (a := rsum (fun k => Rabs (R_of (fmul (x k) (x k)))) (upto n)) in *. apply Rabs_le_inv in C1. apply Rabs_le_inv in C2.
  destruct (sum_terms simd (fun k => fmul (x k) (x k)) n Hn (fun k Hk => proj1 (P k Hk))) as [A E]; [fold a; lra|]. fold a in E.
  split; [exact A|]. split; [|split; [exact R0|exact R1]].
  assert (UA : u24 * a <= 1.001 * w + / 1000000 * (56 * tiny)).
  { apply (Rle_trans _ (u24 * (r + w + 56 * tiny))); [apply Rmult_le_compat_l; lra|]. replace (u24 * (r + w + 56 * tiny)) with (w + u24 * w + u24 * (56 * tiny)) by (unfold w; ring).
    assert (u24 * w <= / 1000000 * w) by (apply Rmult_le_compat_r; lra). assert (u24 * (56 * tiny) <= / 1000000 * (56 * tiny)) by (apply Rmult_le_compat_r; lra). lra. }
  assert (K : (IZR n + 3) * (1.01 * u24 * a + 2 * tiny) <= (IZR n + 3) * (1.01 * (1.001 * w + / 1000000 * (56 * tiny)) + 2 * tiny)).
  { apply Rmult_le_compat_l; [lra|]. lra. }
  assert (K2 : (IZR n + 3) * (1.01 * (1.001 * w + / 1000000 * (56 * tiny)) + 2 * tiny) <= (IZR n + 3) * (1.01 * w) + 59 * (0.00101 * w) + (IZR n + 3) * (2.9 * tiny)).
  { assert ((IZR n + 3) * (0.00101 * w) <= 59 * (0.00101 * w)) by (apply Rmult_le_compat_r; lra). assert (0 <= (IZR n + 3) * tiny) by (apply Rmult_le_pos; lra). lra. }
  replace (1.01 * u24 * r) with (1.01 * w) by (unfold w; ring). apply Rabs_le_inv in E. apply Rabs_le. lra.
Qed.

(* ---- finite products have finite factors ---- *)
Lemma fmul_fin : forall x y, is_finite_sf (fmul x y) = true -> is_finite_sf x = true /\ is_finite_sf y = true.
Proof. intros [s|s| |s m e] [s'|s'| |s' m' e'] H; try discriminate H; split; reflexivity. Qed.
Lemma fsqrt_e : forall x, ff x -> 0 <= R_of x -> ff (fsqrt x) /\ Rabs (R_of (fsqrt x) - sqrt (R_of x)) <= u24 * sqrt (R_of x) + tiny.
Proof.
  intros x [V F] P. destruct (sqrt_R 24 128 Hp24 He24 x V F P) as (B & A). split; [split; [apply vf_fsqrt, V|exact B]|].
  change (R_of (fsqrt x)) with (R_of (SFsqrt 24 128 x)). rewrite A. pose proof (rnd_rel (sqrt (R_of x))) as Q. rewrite (Rabs_right (sqrt _)) in Q by (apply Rle_ge, sqrt_pos). exact Q.
Qed.
Lemma tiny_40 : tiny <= 1e-40.
Proof. unfold tiny. change (bpow radix2 (-150)) with (/ IZR (Zpower_pos 2 150)). change (Zpower_pos 2 150) with 1427247692705959881058285969449495136382746624%Z. lra. Qed.

(* ---- every value is a binary32 datum ---- *)
Lemma vf_fsum : forall simd n f, (forall k, (1 <= k <= n)%Z -> vf (f k)) -> vf (add_all simd (map f (upto n))).
Proof.
  intros simd n f H. apply add_all_each; [reflexivity|intros x y; apply vf_fadd|]. apply Forall_forall. intros x Hx. apply in_map_iff in Hx as (k & <- & Hk). apply H. now apply in_upto.
Qed.
Lemma vf_rot : forall c s n, vf c -> vf s -> let p := Nat.iter n (rotate c s) (f_of_Z 1, zero) in vf (fst p) /\ vf (snd p).
Proof.
  intros c s n C S. cbv zeta. induction n as [|n IH]; [split; reflexivity|]. change (Nat.iter (Datatypes.S n) (rotate c s) (f_of_Z 1, zero)) with (rotate c s (Nat.iter n (rotate c s) (f_of_Z 1, zero))).
  destruct IH as [A B]. unfold rotate. cbn [fst snd]. split; [apply vf_fsub|apply vf_fadd]; apply vf_fmul; assumption.
Qed.
Lemma vf_hcos : forall o w0 l, vf (harmonic_cos o w0 l).
Proof. intros o w0 l. apply (vf_rot (cosf o w0) (sinf o w0)); apply vf_canon. Qed.
Lemma vf_weight : forall o m l, vf (p_w0 m) -> (forall k, (1 <= k <= p_L m)%Z -> vf (cell zero (p_Ml m) k)) -> (1 <= l <= p_L m)%Z -> vf (weight o m l).
Proof.
  intros o m l W H Hl. unfold weight. cbv zeta.
  assert (A : vf (moment0 o m)) by (apply vf_fsum; intros; cbv zeta; apply vf_fmul; auto).
  assert (B : vf (moment1 o m)) by (apply vf_fsum; intros; cbv zeta; repeat apply vf_fmul; auto; apply vf_hcos).
  pose proof (vf_hcos o (p_w0 m) l) as C. apply vf_fmul; [apply vf_fsqrt, H, Hl|]. do 2 apply vf_fsqrt. apply vf_fdiv.
  - apply vf_fmul; [reflexivity|]. apply vf_fsub; [apply vf_fadd; now apply vf_fmul|]. repeat apply vf_fmul; auto. reflexivity.
  - apply vf_fmul; [now apply vf_fmul|]. apply vf_fsub; now apply vf_fmul.
Qed.

(* ---- one reweighted amplitude ---- *)
Definition same_size (m x : R) : Prop := Rabs x <= 1.3 * Rabs m + tiny /\ 0.2 * (m * m) - 1e-30 <= x * x /\ x * x <= 1.5 * (m * m) + 1e-30.
Lemma scaled_size : forall c m, ff c -> ff m -> 1 / 2 <= R_of c <= 1.21 -> Rabs (R_of m) <= 1e9 -> ff (fmul c m) /\ same_size (R_of m) (R_of (fmul c m)).
Proof.
  intros c m C M B K. destruct u_facts as [U T]. pose proof tiny_40 as T40. set (a := Rabs (R_of m)) in *. assert (A0 : 0 <= a) by apply Rabs_pos.
  assert (P : Rabs (R_of c * R_of m) = R_of c * a) by (rewrite Rabs_mult, (Rabs_right (R_of c)); [reflexivity|lra]).
  assert (Q : 1 / 2 * a <= R_of c * a <= 1.21 * a) by (split; apply Rmult_le_compat_r; lra).
  destruct (fmul_e c m C M) as [F E]; [rewrite P; unfold huge; lra|]. split; [exact F|]. rewrite P in E. set (x := R_of (fmul c m)) in *. set (b := R_of c * a) in *.
  assert (UB : u24 * b <= / 1000000 * b) by (apply Rmult_le_compat_r; lra).
  pose proof (Rabs_triang_inv x (R_of c * R_of m)) as I1. pose proof (Rabs_triang_inv (R_of c * R_of m) x) as I2. rewrite Rabs_minus_sym in I2. rewrite P in I1, I2. fold b in I1, I2.
  assert (X1 : Rabs x <= 1.000001 * b + tiny) by lra. assert (X2 : 0.999999 * b - tiny <= Rabs x) by lra.
  assert (SM : R_of m * R_of m = a * a) by (unfold a; rewrite <- Rabs_mult; symmetry; apply Rabs_right; nra).
  assert (SX : x * x = Rabs x * Rabs x) by (rewrite <- Rabs_mult; symmetry; apply Rabs_right; nra).
  unfold same_size. fold a. split; [lra|]. rewrite SM, SX. set (y := Rabs x) in *. assert (Y0 : 0 <= y) by apply Rabs_pos.
  assert (TB : 0 <= tiny * b <= 1e-40 * 1.21e9) by (split; [nra|apply Rmult_le_compat; lra]).
  split.
  - destruct (Rle_lt_dec (0.999999 * b) tiny) as [D|D].
    + assert (A1 : a <= 1e-20) by lra. assert (a * a <= 1e-20 * 1e-20) by (apply Rmult_le_compat; lra). pose proof (Rmult_le_pos y y Y0 Y0). lra.
    + assert (H1 : (0.999999 * b - tiny) * (0.999999 * b - tiny) <= y * y) by (apply Rmult_le_compat; lra).
      assert (H2 : (1 / 2 * a) * (1 / 2 * a) <= b * b) by (apply Rmult_le_compat; lra). pose proof (Rmult_le_pos tiny tiny ltac:(lra) ltac:(lra)).
      assert (H4 : 0 <= a * a) by (apply Rmult_le_pos; lra). lra.
  - assert (H1 : y * y <= (1.000001 * b + tiny) * (1.000001 * b + tiny)) by (apply Rmult_le_compat; lra).
    assert (H2 : b * b <= (1.21 * a) * (1.21 * a)) by (apply Rmult_le_compat; lra). assert (H3 : tiny * tiny <= 1e-40 * 1e-40) by (apply Rmult_le_compat; lra). assert (H4 : 0 <= a * a) by (apply Rmult_le_pos; lra). lra.
Qed.
Lemma kept_size : forall m, same_size m m.
Proof. intros m. destruct u_facts as [_ T]. unfold same_size. pose proof (Rabs_pos m). pose proof (Rle_0_sqr m) as Q. unfold Rsqr in Q. lra. Qed.
Lemma reweighted_size : forall o m l, vf (p_w0 m) -> (forall k, (1 <= k <= p_L m)%Z -> ff (cell zero (p_Ml m) k) /\ Rabs (R_of (cell zero (p_Ml m) k)) <= 1e9) -> (1 <= l <= p_L m)%Z ->
  is_finite_sf (reweighted o m l) = true -> ff (reweighted o m l) /\ same_size (R_of (cell zero (p_Ml m) l)) (R_of (reweighted o m l)).
Proof.
  intros o m l W H Hl F. destruct (H l Hl) as [Fm Bm]. assert (V : vf (weight o m l)) by (apply vf_weight; auto; intros k Hk; apply (proj1 (H k Hk))).
  revert F. unfold reweighted. cbv zeta. set (x := cell zero (p_Ml m) l) in *. set (w := weight o m l) in *. clearbody w x.
  destruct (SFeqb x zero); [intros _; split; [exact Fm|apply kept_size]|]. destruct (8 * l <=? p_L m)%Z; [intros _; split; [exact Fm|apply kept_size]|].
  assert (C12 : ff (flit 12 10) /\ 1.19 <= R_of (flit 12 10) <= 1.21). { split; [split; vm_compute; reflexivity|]. replace (flit 12 10) with (S754_finite false 10066330 (-23)) by (vm_compute; reflexivity). rewrite R_neg_exp by lia. cbn. lra. }
  assert (C05 : ff (flit 1 2) /\ R_of (flit 1 2) = 1 / 2). { split; [split; vm_compute; reflexivity|]. replace (flit 1 2) with (S754_finite false 8388608 (-24)) by (vm_compute; reflexivity). rewrite R_neg_exp by lia. cbn. lra. }
  destruct (flt (flit 12 10) w) eqn:G1; [intros _; apply scaled_size; try tauto; lra|]. destruct (flt w (flit 1 2)) eqn:G2; [intros _; apply scaled_size; try tauto; lra|].
  intros F. destruct (fmul_fin _ _ F) as [Fw _]. assert (Ff : ff w) by (split; assumption).
  apply (proj1 (flt_false _ _ (proj1 C12) Ff)) in G1. apply (proj1 (flt_false _ _ Ff (proj1 C05))) in G2. apply scaled_size; auto. lra.
Qed.

Lemma Rle_div_r_pos : forall a b c, 0 < c -> a * c <= b -> a <= b / c.
Proof. intros a b c H K. apply (Rmult_le_reg_r c); [exact H|]. replace (b / c * c) with b by (field; lra). exact K. Qed.
Lemma Rle_div_l_pos : forall a b c, 0 < c -> b <= a * c -> b / c <= a.
Proof. intros a b c H K. apply (Rmult_le_reg_r c); [exact H|]. replace (b / c * c) with b by (field; lra). exact K. Qed.
(* ---- the whole frame ---- *)
Lemma eqb_zero_R : forall x, SFeqb x zero = true -> R_of x = 0.
Proof. intros [s|s| |s m e] H; [reflexivity|destruct s; discriminate H|discriminate H|destruct s; discriminate H]. Qed.
Lemma frame_energy : forall o m, vf (p_w0 m) -> (0 <= p_L m <= 56)%Z ->
  (forall k, (1 <= k <= p_L m)%Z -> ff (cell zero (p_Ml m) k) /\ Rabs (R_of (cell zero (p_Ml m) k)) <= 1e9) -> 1e-12 <= energy m ->
  (forall k, (1 <= k <= p_L m)%Z -> is_finite_sf (fmul (restore o m) (reweighted o m k)) = true) ->
  Rabs (rsum (fun k => R_of (fmul (restore o m) (reweighted o m k)) * R_of (fmul (restore o m) (reweighted o m k))) (upto (p_L m)) - energy m) <= energy m / 100000.
Proof.
  intros o m W HL H HE HF. destruct u_facts as [U T]. pose proof tiny_40 as T40. set (L := p_L m) in *.
  assert (RW : forall k, (1 <= k <= L)%Z -> ff (reweighted o m k) /\ same_size (R_of (cell zero (p_Ml m) k)) (R_of (reweighted o m k))).
  { intros k Hk. apply reweighted_size; auto. exact (proj2 (fmul_fin _ _ (HF k Hk))). }
  assert (N : 0 <= IZR L <= 56) by (split; apply IZR_le; lia).
  assert (LEN : INR (length (upto L)) <= 56). { rewrite upto_length. rewrite INR_IZR_INZ. apply IZR_le. lia. }
  assert (LEN0 : 0 <= INR (length (upto L))) by apply pos_INR.
  destruct (sum_squares (o_simd o) (fun k => cell zero (p_Ml m) k) L HL) as (F0 & E0 & P0 & Q0). { intros k Hk. destruct (H k Hk). split; [assumption|lra]. }
  change (add_all (o_simd o) (map (fun k => fmul (cell zero (p_Ml m) k) (cell zero (p_Ml m) k)) (upto L))) with (moment0 o m) in *.
  change (rsum (fun k => R_of (cell zero (p_Ml m) k) * R_of (cell zero (p_Ml m) k)) (upto L)) with (energy m) in *.
  destruct (sum_squares (o_simd o) (fun k => reweighted o m k) L HL) as (F1 & E1 & P1 & Q1).
  { intros k Hk. destruct (RW k Hk) as [A (B & _)]. destruct (H k Hk) as [_ C]. split; [exact A|]. lra. }
  set (e1 := add_all (o_simd o) (map (fun k => fmul (reweighted o m k) (reweighted o m k)) (upto L))) in *. set (S := rsum (fun k => R_of (reweighted o m k) * R_of (reweighted o m k)) (upto L)) in *.
  set (En := energy m) in *.
  assert (SL : 0.2 * En - 56 * 1e-30 <= S).
  { pose proof (rsum_lower (fun k => R_of (reweighted o m k) * R_of (reweighted o m k)) (fun k => R_of (cell zero (p_Ml m) k) * R_of (cell zero (p_Ml m) k)) 0.2 1e-30 (upto L)) as Q.
    change (rsum (fun k => R_of (cell zero (p_Ml m) k) * R_of (cell zero (p_Ml m) k)) (upto L)) with En in Q. fold S in Q.
    assert (INR (length (upto L)) * 1e-30 <= 56 * 1e-30) by (apply Rmult_le_compat_r; lra).
    enough (0.2 * En - INR (length (upto L)) * 1e-30 <= S) by lra. apply Q. intros k Hk. apply in_upto in Hk. apply (RW k Hk). }
  assert (SU : S <= 1.5 * En + 56 * 1e-30).
  { pose proof (rsum_lower (fun k => 1.5 * (R_of (cell zero (p_Ml m) k) * R_of (cell zero (p_Ml m) k))) (fun k => R_of (reweighted o m k) * R_of (reweighted o m k)) 1 1e-30 (upto L)) as Q.
    rewrite rsum_scale in Q. change (rsum (fun k => R_of (cell zero (p_Ml m) k) * R_of (cell zero (p_Ml m) k)) (upto L)) with En in Q. fold S in Q.
    assert (INR (length (upto L)) * 1e-30 <= 56 * 1e-30) by (apply Rmult_le_compat_r; lra).
    enough (1 * S - INR (length (upto L)) * 1e-30 <= 1.5 * En) by lra. apply Q. intros k Hk. apply in_upto in Hk. pose proof (proj2 (proj2 (proj2 (RW k Hk)))). lra. }
  assert (CL : forall e r lo, lo <= r -> 1e-13 <= lo -> Rabs (e - r) <= (IZR L + 5) * (1.01 * u24 * r) + (IZR L + 3) * (4 * tiny) -> Rabs (e - r) <= 61.62 * u24 * r).
  { intros e r lo R1 R2 R3. eapply Rle_trans; [exact R3|]. set (v := u24 * r). assert (V0 : u24 * 1e-13 <= v) by (apply Rmult_le_compat_l; lra).
    replace (1.01 * u24 * r) with (1.01 * v) by (unfold v; ring). replace (61.62 * u24 * r) with (61.62 * v) by (unfold v; ring).
    assert (V1 : 0 <= v) by (unfold v; apply Rmult_le_pos; lra).
    assert (A : (IZR L + 5) * (1.01 * v) <= 61 * (1.01 * v)) by (apply Rmult_le_compat_r; lra).
    assert (B : (IZR L + 3) * (4 * tiny) <= 59 * (4 * tiny)) by (apply Rmult_le_compat_r; lra).
    assert (D : 59 * (4 * tiny) <= 0.01 * (u24 * 1e-13)) by (unfold u24; lra). lra. }
  assert (S13 : 1e-13 <= S) by lra. pose proof (CL _ _ 1e-12 HE ltac:(lra) E0) as Z0. pose proof (CL _ _ 1e-13 S13 ltac:(lra) E1) as Z1. clear CL.
  clear E0 E1. assert (V : u24 = / 16777216) by reflexivity. rewrite V in Z0, Z1. apply Rabs_le_inv in Z0. apply Rabs_le_inv in Z1.
  set (e0 := R_of (moment0 o m)) in *. set (d1 := R_of e1) in *.
  assert (D1 : 0.19 * En <= d1 <= 1.51 * En) by lra. assert (D0 : 0.999 * En <= e0 <= 1.001 * En) by lra.
  assert (QB : 0.6 <= e0 / d1 <= 5.3). { split; [apply Rle_div_r_pos|apply Rle_div_l_pos]; lra. }
  destruct (fdiv_e (moment0 o m) e1 F0 F1) as [Fq Eq]; [fold d1; lra|fold e0 d1; rewrite Rabs_right; unfold huge; lra|]. fold e0 d1 in Eq. rewrite (Rabs_right (e0 / d1)) in Eq by lra. set (q := R_of (fdiv (moment0 o m) e1)) in *.
  rewrite V in Eq. apply Rabs_le_inv in Eq. assert (QQ : 0.59 <= q <= 5.4) by lra.
  destruct (fsqrt_e (fdiv (moment0 o m) e1) Fq) as [Fg Eg]; [fold q; lra|]. fold q in Eg.
  assert (GE : restore o m = fsqrt (fdiv (moment0 o m) e1)).
  { unfold restore. cbv zeta. fold L e1. destruct (SFeqb e1 zero) eqn:Z; [|reflexivity]. exfalso. assert (d1 = 0); [|lra]. exact (eqb_zero_R e1 Z). }
  rewrite GE in *. set (G := fsqrt (fdiv (moment0 o m) e1)) in *. set (g := R_of G) in *.
  assert (R0 : 0.76 <= sqrt q <= 2.33). { split; [apply Rsqr_incr_0_var|apply Rsqr_incr_0_var]; try (rewrite Rsqr_sqrt by lra; unfold Rsqr); unfold Rsqr; try lra; try apply sqrt_pos. }
  assert (SQ : sqrt q * sqrt q = q) by (apply sqrt_sqrt; lra). rewrite V in Eg. set (r := sqrt q) in *. apply Rabs_le_inv in Eg.
  assert (GR : Rabs (g - r) <= 1.001 / 16777216 * r) by (apply Rabs_le; lra).
  assert (GG : Rabs (g * g - q) <= 2.01 / 16777216 * q).
  { replace (g * g - q) with ((g - r) * (g + r)) by (rewrite <- SQ; ring). rewrite Rabs_mult. assert (K : Rabs (g + r) <= 2.001 * r) by (apply Rabs_le; lra).
    apply (Rle_trans _ ((1.001 / 16777216 * r) * (2.001 * r))); [apply Rmult_le_compat; auto using Rabs_pos|]. rewrite <- SQ. assert (0 <= r * r) by (apply Rmult_le_pos; lra). lra. }
  apply Rabs_le_inv in GG. apply Rabs_le_inv in GR. assert (GB : 0.7 <= g <= 2.4) by lra.
  set (h := g * g) in *.
  (* h is close to e0 / d1 *)
  assert (HD : Rabs (h - e0 / d1) <= 3.1 / 16777216 * (e0 / d1)) by (apply Rabs_le; lra).
  assert (HD2 : Rabs (h * d1 - e0) <= 3.1 / 16777216 * e0).
  { replace (h * d1 - e0) with ((h - e0 / d1) * d1) by (field; lra). rewrite Rabs_mult, (Rabs_right d1) by lra. apply (Rle_trans _ (3.1 / 16777216 * (e0 / d1) * d1)); [apply Rmult_le_compat_r; lra|]. right. field. lra. }
  assert (HS : Rabs (h * d1 - h * S) <= 61.62 / 16777216 * (h * S)).
  { rewrite <- Rmult_minus_distr_l, Rabs_mult, (Rabs_right h) by (unfold h; apply Rle_ge, Rmult_le_pos; lra). replace (61.62 / 16777216 * (h * S)) with (h * (61.62 / 16777216 * S)) by ring.
    apply Rmult_le_compat_l; [unfold h; apply Rmult_le_pos; lra|]. apply Rabs_le. lra. }
  apply Rabs_le_inv in HD2. apply Rabs_le_inv in HS.
  pose proof (rsum_close (fun k => R_of (fmul G (reweighted o m k)) * R_of (fmul G (reweighted o m k))) (fun k => h * (R_of (reweighted o m k) * R_of (reweighted o m k))) (2.1 / 16777216) 1e-28 (upto L)) as FIN.
  rewrite rsum_scale in FIN. fold S in FIN.
  match type of FIN with _ -> Rabs (?X - _) <= _ => set (E' := X) in * end.
  assert (FI : Rabs (E' - h * S) <= 2.1 / 16777216 * (h * S) + INR (length (upto L)) * 1e-28).
  { apply FIN. intros k Hk. apply in_upto in Hk. destruct (RW k Hk) as [Fx (Bx & _)]. destruct (H k Hk) as [_ Bm]. set (x := R_of (reweighted o m k)) in *.
    assert (X9 : Rabs x <= 1.4e9) by lra. assert (P : Rabs (g * x) <= 2.4 * 1.4e9). { rewrite Rabs_mult, (Rabs_right g) by lra. apply Rmult_le_compat; try lra. apply Rabs_pos. }
    destruct (fmul_e G (reweighted o m k) Fg Fx) as [_ Ex]; [fold g x; unfold huge; lra|]. fold g x in Ex. set (y := R_of (fmul G (reweighted o m k))) in *. set (z := g * x) in *.
    replace (h * (x * x)) with (z * z) by (unfold z, h; ring). replace (y * y - z * z) with ((y - z) * (y - z + 2 * z)) by ring. rewrite Rabs_mult.
    rewrite V in Ex. set (az := Rabs z) in *. assert (AZ : 0 <= az) by apply Rabs_pos. assert (ZZ : z * z = az * az) by (unfold az; rewrite <- Rabs_mult; symmetry; apply Rabs_right; nra). rewrite ZZ.
    assert (K : Rabs (y - z + 2 * z) <= 2.001 * az + tiny). { eapply Rle_trans; [apply Rabs_triang|]. rewrite (Rabs_mult 2), (Rabs_right 2) by lra. fold az. lra. }
    apply (Rle_trans _ ((/ 16777216 * az + tiny) * (2.001 * az + tiny))); [apply Rmult_le_compat; auto using Rabs_pos|].
    assert (TA : tiny * az <= 1e-40 * (2.4 * 1.4e9)) by (apply Rmult_le_compat; lra). assert (TT : tiny * tiny <= 1e-40 * 1e-40) by (apply Rmult_le_compat; lra). assert (0 <= az * az) by (apply Rmult_le_pos; lra).
    replace ((/ 16777216 * az + tiny) * (2.001 * az + tiny)) with (2.001 / 16777216 * (az * az) + (2.001 + / 16777216) * (tiny * az) + tiny * tiny) by field. lra. }
  assert (LN : INR (length (upto L)) * 1e-28 <= 56 * 1e-28) by (apply Rmult_le_compat_r; lra).
  apply Rabs_le_inv in FI. clear FIN. set (Y := h * S) in *. clearbody Y. apply Rabs_le. lra.
Qed.
Lemma enhance_energy : forall o a cur t cur' t', length (p_Ml cur) = 57%nat -> vf (p_w0 cur) -> (0 <= p_L cur <= 56)%Z ->
  (forall k, (1 <= k <= p_L cur)%Z -> ff (cell zero (p_Ml cur) k) /\ Rabs (R_of (cell zero (p_Ml cur) k)) <= 1e9) -> 1e-12 <= energy cur ->
  mbe_spectralAmpEnhance o a cur t = Ok (cur', t') -> (forall k, (1 <= k <= p_L cur)%Z -> is_finite_sf (cell zero (p_Ml cur') k) = true) ->
  Rabs (energy cur' - energy cur) <= energy cur / 100000.
Proof.
  intros o a cur t cur' t' LM W HL H HE R HF. rewrite enhance_formula in R by assumption. injection R as <- _.
  assert (C : forall k, (1 <= k <= p_L cur)%Z -> cell zero (p_Ml (set_Ml (enhanced_amplitudes o cur) cur)) k = fmul (restore o cur) (reweighted o cur k)).
  { intros k Hk. apply rd_cell. change (p_Ml (set_Ml (enhanced_amplitudes o cur) cur)) with (enhanced_amplitudes o cur). unfold enhanced_amplitudes. rewrite replaced_rd by lia.
    destruct (Z.leb_spec 1 k); [|lia]. destruct (Z.leb_spec k (p_L cur)); [|lia]. reflexivity. }
  assert (E : energy (set_Ml (enhanced_amplitudes o cur) cur) = rsum (fun k => R_of (fmul (restore o cur) (reweighted o cur k)) * R_of (fmul (restore o cur) (reweighted o cur k))) (upto (p_L cur))).
  { change (energy (set_Ml (enhanced_amplitudes o cur) cur)) with (rsum (fun k => R_of (cell zero (p_Ml (set_Ml (enhanced_amplitudes o cur) cur)) k) * R_of (cell zero (p_Ml (set_Ml (enhanced_amplitudes o cur) cur)) k)) (upto (p_L cur))).
    apply rsum_ext. intros k Hk. apply in_upto in Hk. rewrite C by exact Hk. reflexivity. }
  rewrite E. apply frame_energy; auto. intros k Hk. rewrite <- C by exact Hk. apply HF, Hk.
Qed.
