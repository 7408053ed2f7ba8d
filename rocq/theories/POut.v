(* Proofs about the output stage. *)
From Coq Require Import ZArith List Bool Lia Reals Lra.
From Verif Require Import Res F32 MParms MAdaptive MUnvoiced MSynth PRun PFloat SpecAdaptive SpecGen PGen SpecOut.
From Flocq Require Import Core.Core.
Import ListNotations.
Local Open Scope Z_scope.

Lemma fmul_comm : forall x y, fmul x y = fmul y x.
Proof.
  intros [sx|sx| |sx mx ex] [sy|sy| |sy my ey]; try reflexivity; try (cbn; now rewrite xorb_comm).
  unfold fmul, SFmul. now rewrite xorb_comm, Pos.mul_comm, Z.add_comm.
Qed.

Lemma again_R : R_of again = 7%R.
Proof. R_val again. lra. Qed.
Lemma again_ff : ff again.
Proof. split; reflexivity. Qed.
Lemma maxa_ff : ff max_amplitude.
Proof. split; reflexivity. Qed.
Lemma maxa_R : (31128 < R_of max_amplitude < 31129)%R.
Proof. R_val max_amplitude. lra. Qed.
Lemma mina_eq : min_amplitude_simd = fopp max_amplitude.
Proof. reflexivity. Qed.

(* exact product beyond the largest float *)
Lemma rndf_max : rndf (R_of FLT_MAX) = R_of FLT_MAX.
Proof. unfold rndf. apply (rnd_vb 24 128). reflexivity. Qed.
Lemma rndf_mono : forall a b, (a <= b)%R -> (rndf a <= rndf b)%R.
Proof. exact (rnd_mono 24 128 Hp24). Qed.
Lemma rndf_opp : forall a, rndf (- a) = (- rndf a)%R.
Proof. intros a. unfold rndf, rnd. apply round_NE_opp. Qed.
Lemma prod7 : forall x, ff x -> (ff (fmul again x) /\ R_of (fmul again x) = rndf (7 * R_of x)) \/
  (fmul again x = S754_infinity false /\ (R_of FLT_MAX <= rndf (7 * R_of x))%R) \/
  (fmul again x = S754_infinity true /\ (rndf (7 * R_of x) <= - R_of FLT_MAX)%R).
Proof.
  intros x Fx. pose proof again_ff as Fa. pose proof again_R as Ea.
  destruct (Rle_or_lt (R_of FLT_MAX) (7 * R_of x)) as [H1|H1]; [|destruct (Rle_or_lt (7 * R_of x) (- R_of FLT_MAX)) as [H2|H2]].
  3:{ left. destruct (fmul_b again x (fopp FLT_MAX) FLT_MAX) as (A & _ & B); [exact Fa|exact Fx|apply fopp_ff, ff_max|apply ff_max| |].
      - rewrite R_fopp, Ea. lra.
      - rewrite Ea in B. split; assumption. }
  - destruct (mul_cases 24 128 Hp24 He24 again x (proj1 Fa) (proj1 Fx) (proj2 Fa) (proj2 Fx)) as [[A B]|A].
    + left. rewrite Ea in B. split; [split; [apply vf_fmul; [apply Fa|apply Fx]|exact A]|exact B].
    + right. left. split; [|rewrite <- rndf_max at 1; now apply rndf_mono].
      change (fmul again x) with (SFmul 24 128 again x). rewrite A.
      assert (P : (0 < R_of x)%R) by (assert (0 < R_of FLT_MAX)%R by (R_val FLT_MAX; lra); lra).
      destruct (nn_sign x (nn_ff x Fx ltac:(lra))) as [->|[s ->]]; [reflexivity|]. rewrite R_zero in P. lra.
  - destruct (mul_cases 24 128 Hp24 He24 again x (proj1 Fa) (proj1 Fx) (proj2 Fa) (proj2 Fx)) as [[A B]|A].
    + left. rewrite Ea in B. split; [split; [apply vf_fmul; [apply Fa|apply Fx]|exact A]|exact B].
    + right. right. split; [|rewrite <- rndf_max at 1; rewrite <- rndf_opp; now apply rndf_mono].
      change (fmul again x) with (SFmul 24 128 again x). rewrite A.
      assert (P : (R_of x < 0)%R) by (assert (0 < R_of FLT_MAX)%R by (R_val FLT_MAX; lra); lra).
      destruct x as [s|s| |[|] m e]; try reflexivity; try discriminate (proj2 Fx).
      * rewrite R_zero in P. lra.
      * pose proof (R_finite_pos m e). lra.
Qed.

(* clamping of a finite product *)
Definition rclamp (M r : R) : R := Rmax (- M) (Rmin M r).
Definition clampS (y : f32) : f32 :=
  if fgt y max_amplitude then max_amplitude else if flt y (fopp max_amplitude) then fopp max_amplitude else y.
Ltac rcl := unfold rclamp; unfold Rmin; repeat match goal with |- context [Rle_dec ?a ?b] => destruct (Rle_dec a b) end; unfold Rmax in *; repeat match goal with |- context [Rle_dec ?a ?b] => destruct (Rle_dec a b) | H : context [Rle_dec ?a ?b] |- _ => destruct (Rle_dec a b) end; lra.
Lemma clampS_R : forall y, ff y -> ff (clampS y) /\ R_of (clampS y) = rclamp (R_of max_amplitude) (R_of y).
Proof.
  intros y Fy. pose proof maxa_ff as FM. pose proof maxa_R as M. pose proof (fopp_ff _ FM) as FO. unfold clampS, fgt.
  change (SFltb max_amplitude y) with (flt max_amplitude y).
  destruct (flt max_amplitude y) eqn:E1.
  - apply flt_true in E1; [|assumption..]. split; [exact FM|]. rcl.
  - apply flt_false in E1; [|assumption..]. destruct (flt y (fopp max_amplitude)) eqn:E2.
    + apply flt_true in E2; [|assumption..]. split; [exact FO|]. rewrite R_fopp in *. rcl.
    + apply flt_false in E2; [|assumption..]. split; [exact Fy|]. rewrite R_fopp in *. rcl.
Qed.
Definition clampV (y : f32) : f32 := min_ps (max_ps y min_amplitude_simd) max_amplitude.
Lemma clampV_R : forall y, ff y -> ff (clampV y) /\ R_of (clampV y) = rclamp (R_of max_amplitude) (R_of y).
Proof.
  intros y Fy. pose proof maxa_ff as FM. pose proof maxa_R as M. pose proof (fopp_ff _ FM) as FO. unfold clampV, min_ps, max_ps, fgt.
  rewrite mina_eq. change (SFltb (fopp max_amplitude) y) with (flt (fopp max_amplitude) y).
  destruct (flt (fopp max_amplitude) y) eqn:E1.
  - apply flt_true in E1; [|assumption..]. rewrite R_fopp in E1. destruct (flt y max_amplitude) eqn:E2.
    + apply flt_true in E2; [|assumption..]. split; [exact Fy|]. rcl.
    + apply flt_false in E2; [|assumption..]. split; [exact FM|]. rcl.
  - apply flt_false in E1; [|assumption..]. rewrite R_fopp in E1. change (flt (fopp max_amplitude) max_amplitude) with true.
    split; [exact FO|]. cbv iota. rewrite R_fopp. rcl.
Qed.
Lemma cmp_R : forall x y, ff x -> ff y ->
  match SFcompare x y with
  | Some Lt => (R_of x < R_of y)%R | Some Gt => (R_of y < R_of x)%R | Some Eq => R_of x = R_of y | None => False
  end.
Proof.
  intros x y Fx Fy. pose proof (flt_true x y Fx Fy) as A. pose proof (flt_true y x Fy Fx) as B. pose proof (fle_true x y Fx Fy) as C.
  unfold flt, fle, SFltb, SFleb in *. rewrite (SFcompare_swap x y) in B.
  destruct (SFcompare x y) as [[| |]|] eqn:E; cbn in *.
  - assert (K : (R_of x <= R_of y)%R) by now apply C. destruct (Rle_lt_or_eq_dec _ _ K) as [L|L]; [|exact L].
    apply A in L. discriminate L.
  - now apply A.
  - now apply B.
  - destruct x as [s|s| |[|] m e], y as [s0|s0| |[|] m0 e0]; try discriminate (proj2 Fx); try discriminate (proj2 Fy); discriminate E.
Qed.
Definition clampN (y : f32) : f32 := neon_min (neon_max y min_amplitude_simd) max_amplitude.
Lemma neon_max_R : forall x y, ff x -> ff y -> ff (neon_max x y) /\ R_of (neon_max x y) = Rmax (R_of x) (R_of y).
Proof.
  intros x y Fx Fy. unfold neon_max. pose proof (cmp_R x y Fx Fy) as C. destruct (SFcompare x y) as [[| |]|]; [| | |contradiction].
  - destruct x as [[|]|s| |s m e]; try (split; [exact Fx|rewrite <- C; unfold Rmax; destruct Rle_dec; lra]).
    destruct y as [s0|s0| |s0 m0 e0]; try (split; [exact Fx|rewrite <- C; unfold Rmax; destruct Rle_dec; lra]).
  - split; [exact Fy|]. unfold Rmax. destruct Rle_dec; lra.
  - split; [exact Fx|]. unfold Rmax. destruct Rle_dec; lra.
Qed.
Lemma neon_min_R : forall x y, ff x -> ff y -> ff (neon_min x y) /\ R_of (neon_min x y) = Rmin (R_of x) (R_of y).
Proof.
  intros x y Fx Fy. unfold neon_min. pose proof (cmp_R x y Fx Fy) as C. destruct (SFcompare x y) as [[| |]|]; [| | |contradiction].
  - destruct x as [[|]|s| |s m e]; try (split; [exact Fx|rewrite <- C; unfold Rmin; destruct Rle_dec; lra]).
    destruct y as [s0|s0| |s0 m0 e0]; try (split; [exact Fx|rewrite <- C; unfold Rmin; destruct Rle_dec; lra]).
  - split; [exact Fx|]. unfold Rmin. destruct Rle_dec; lra.
  - split; [exact Fy|]. unfold Rmin. destruct Rle_dec; lra.
Qed.
Lemma clampN_R : forall y, ff y -> ff (clampN y) /\ R_of (clampN y) = rclamp (R_of max_amplitude) (R_of y).
Proof.
  intros y Fy. pose proof maxa_ff as FM. pose proof maxa_R as M. unfold clampN.
  destruct (neon_max_R y min_amplitude_simd Fy ltac:(split; reflexivity)) as [F1 E1].
  destruct (neon_min_R _ _ F1 FM) as [F2 E2]. split; [exact F2|]. rewrite E2, E1, mina_eq, R_fopp.
  clear - M. generalize dependent (R_of max_amplitude). intros m M. unfold rclamp, Rmax, Rmin.
  repeat match goal with |- context [Rle_dec ?a ?b] => destruct (Rle_dec a b) | H : context [Rle_dec ?a ?b] |- _ => destruct (Rle_dec a b) end; lra.
Qed.
Lemma trunc_clamp : forall r, Ztrunc (rclamp (R_of max_amplitude) r) = saturate (Ztrunc r).
Proof.
  intros r. pose proof maxa_R as M. generalize dependent (R_of max_amplitude). intros m M.
  assert (TM : Ztrunc m = 31128). { rewrite Ztrunc_floor by lra. apply Zfloor_imp. cbn. lra. }
  assert (TO : Ztrunc (- m) = -31128) by (rewrite Ztrunc_opp, TM; reflexivity).
  destruct (Rlt_or_le m r) as [H1|H1]; [|destruct (Rlt_or_le r (- m)) as [H2|H2]].
  - replace (rclamp m r) with m by rcl. rewrite TM. assert (K : Ztrunc m <= Ztrunc r) by (apply Ztrunc_le; lra). unfold saturate. lia.
  - replace (rclamp m r) with (- m)%R by rcl. rewrite TO. assert (K : Ztrunc r <= Ztrunc (- m)) by (apply Ztrunc_le; lra). unfold saturate. lia.
  - replace (rclamp m r) with r by rcl. assert (K1 : Ztrunc (- m) <= Ztrunc r) by (apply Ztrunc_le; lra).
    assert (K2 : Ztrunc r <= Ztrunc m) by (apply Ztrunc_le; lra). unfold saturate. lia.
Qed.
Lemma saturate_range : forall z, -31128 <= saturate z <= 31128.
Proof. intros z. unfold saturate. lia. Qed.
Lemma sat_big : forall r, (R_of FLT_MAX <= r)%R -> saturate (Ztrunc r) = 31128.
Proof.
  intros r H. assert (K : 31128 <= Ztrunc r). { rewrite <- (Ztrunc_IZR 31128). apply Ztrunc_le. revert H. R_val FLT_MAX. lra. }
  unfold saturate. lia.
Qed.
Lemma sat_small : forall r, (r <= - R_of FLT_MAX)%R -> saturate (Ztrunc r) = -31128.
Proof.
  intros r H. assert (K : Ztrunc r <= -31128). { rewrite <- (Ztrunc_IZR (-31128)). apply Ztrunc_le. revert H. R_val FLT_MAX. lra. }
  unfold saturate. lia.
Qed.

(* the three lanes on a finite sample *)
Definition val7 (x : f32) : Z := saturate (Ztrunc (rndf (7 * R_of x))).
Lemma scalar_fin : forall x, ff x -> short_of_sample x = Ok (val7 x).
Proof.
  intros x Fx. unfold short_of_sample, val7. cbv zeta. destruct (prod7 x Fx) as [[A B]|[[A B]|[A B]]].
  - fold (clampS (fmul again x)). destruct (clampS_R _ A) as [C D]. unfold sf_to_short. rewrite trunc_R by apply C.
    rewrite D, trunc_clamp, B. pose proof (saturate_range (Ztrunc (rndf (7 * R_of x)))) as S.
    replace (-32768 <=? _) with true by (symmetry; apply Z.leb_le; lia). replace (_ <=? 32767) with true by (symmetry; apply Z.leb_le; lia).
    reflexivity.
  - rewrite A, (sat_big _ B). reflexivity.
  - rewrite A, (sat_small _ B). reflexivity.
Qed.
Lemma spec_fin : forall x, ff x -> short_spec x = val7 x.
Proof.
  intros x Fx. unfold short_spec, val7. change (f_of_Z 7) with again. destruct (prod7 x Fx) as [[A B]|[[A B]|[A B]]].
  - rewrite <- B. pose proof (proj2 A) as F. pose proof (trunc_R _ F) as T.
    destruct (fmul again x) as [s|s| |s m e]; try discriminate F; rewrite T; reflexivity.
  - rewrite A. symmetry. now apply sat_big.
  - rewrite A. symmetry. now apply sat_small.
Qed.
Lemma packs_small : forall z, -31128 <= z <= 31128 -> packs z = z.
Proof. intros z H. unfold packs. lia. Qed.
Lemma sse_fin : forall x, ff x -> short_of_sample_sse2 x = val7 x.
Proof.
  intros x Fx. unfold short_of_sample_sse2, val7. rewrite fmul_comm. fold (clampV (fmul again x)).
  destruct (prod7 x Fx) as [[A B]|[[A B]|[A B]]].
  - destruct (clampV_R _ A) as [C D]. unfold cvttps. rewrite trunc_R by apply C. rewrite D, trunc_clamp, B.
    pose proof (saturate_range (Ztrunc (rndf (7 * R_of x)))) as S. unfold in_int.
    replace (-2147483648 <=? _) with true by (symmetry; apply Z.leb_le; lia). replace (_ <=? 2147483647) with true by (symmetry; apply Z.leb_le; lia).
    now apply packs_small.
  - rewrite A, (sat_big _ B). reflexivity.
  - rewrite A, (sat_small _ B). reflexivity.
Qed.
Lemma neon_fin : forall x, ff x -> short_of_sample_neon x = val7 x.
Proof.
  intros x Fx. unfold short_of_sample_neon, val7. rewrite fmul_comm. fold (clampN (fmul again x)).
  destruct (prod7 x Fx) as [[A B]|[[A B]|[A B]]].
  - destruct (clampN_R _ A) as [C D].
    assert (E : fcvtzs (clampN (fmul again x)) = Z.max (-2147483648) (Z.min 2147483647 (Ztrunc (R_of (clampN (fmul again x)))))).
    { unfold fcvtzs. pose proof (proj2 C) as F. pose proof (trunc_R _ F) as T. destruct (clampN (fmul again x)); try discriminate F; rewrite T; reflexivity. }
    rewrite E, D, trunc_clamp, B. pose proof (saturate_range (Ztrunc (rndf (7 * R_of x)))) as S.
    rewrite Z.min_r, Z.max_r by lia. now apply packs_small.
  - rewrite A, (sat_big _ B). reflexivity.
  - rewrite A, (sat_small _ B). reflexivity.
Qed.
Lemma not_nan_cases : forall x, vf x -> x <> S754_nan -> ff x \/ exists s, x = S754_infinity s.
Proof. intros [s|s| |s m e] V N; [left; split; auto|right; eauto|congruence|left; split; auto]. Qed.
Lemma lanes : forall x, vf x -> x <> S754_nan ->
  short_of_sample x = Ok (short_spec x) /\ short_of_sample_sse2 x = short_spec x /\ short_of_sample_neon x = short_spec x.
Proof.
  intros x V N. destruct (not_nan_cases x V N) as [F|[[|] ->]]; [|repeat split..].
  rewrite (spec_fin x F). split; [now apply scalar_fin|]. split; [now apply sse_fin|now apply neon_fin].
Qed.
Lemma spec_range : forall x, -31128 <= short_spec x <= 31128.
Proof.
  intros x. unfold short_spec. destruct (fmul (f_of_Z 7) x) as [s|[|]| |s m e]; try lia; [apply (saturate_range 0)|cbn; lia|].
  destruct (sf_trunc (S754_finite s m e)); [apply saturate_range|lia].
Qed.
Lemma spec_mono : forall x y, vf x -> vf y -> fle x y = true -> short_spec x <= short_spec y.
Proof.
  intros x y Vx Vy H.
  assert (Nx : x <> S754_nan) by (intros ->; discriminate H). assert (Ny : y <> S754_nan) by (intros ->; destruct x as [|[|]| |]; discriminate H).
  pose proof (spec_range x) as Rx. pose proof (spec_range y) as Ry.
  destruct (not_nan_cases x Vx Nx) as [Fx|[[|] ->]]; destruct (not_nan_cases y Vy Ny) as [Fy|[[|] ->]];
    try (change (short_spec (S754_infinity true)) with (-31128)); try (change (short_spec (S754_infinity false)) with 31128); try lia.
  - rewrite (spec_fin x Fx), (spec_fin y Fy). apply fle_true in H; [|assumption..]. unfold val7.
    assert (K : Ztrunc (rndf (7 * R_of x)) <= Ztrunc (rndf (7 * R_of y))) by (apply Ztrunc_le, rndf_mono; lra).
    unfold saturate. lia.
  - destruct x as [s|s| |[|] m e]; try discriminate H. discriminate (proj2 Fx).
  - destruct y as [s|s| |[|] m e]; try discriminate H. discriminate (proj2 Fy).
  - discriminate H.
Qed.
Lemma spec_odd : forall x, vf x -> x <> S754_nan -> short_spec (fopp x) = - short_spec x.
Proof.
  intros x V N. destruct (not_nan_cases x V N) as [F|[[|] ->]]; [|reflexivity..].
  rewrite (spec_fin x F), (spec_fin _ (fopp_ff _ F)). unfold val7. rewrite R_fopp.
  replace (7 * - R_of x)%R with (- (7 * R_of x))%R by ring. rewrite rndf_opp, Ztrunc_opp. unfold saturate. lia.
Qed.
Lemma scalar_nan : short_of_sample S754_nan = UB BadConv /\ short_of_sample_sse2 S754_nan = -31128 /\ short_of_sample_neon S754_nan = 0.
Proof. repeat split. Qed.

(* whole buffers *)
Lemma buffer_scalar : forall fb aout, length fb = 160%nat -> length aout = 160%nat ->
  Forall (fun x => vf x /\ x <> S754_nan) fb -> mbe_floattoshort_scalar fb aout = Ok (map short_spec fb).
Proof.
  intros fb aout Lf La HF. unfold mbe_floattoshort_scalar.
  destruct (for_up_ok (fun k (o : list Z) => length o = 160%nat /\ forall i, (i < Z.to_nat k)%nat -> nth_error o i = nth_error (map short_spec fb) i)
    (fun i aout => x <- rd fb i ;; s <- short_of_sample x ;; wr aout i s) 0 160 aout) as (o & Ho & Lo & Po).
  - lia.
  - intros k o Hk [Lo Po]. destruct (rd_ok fb k) as [x Hx]; [lia|]. rewrite Hx. cbn [bind].
    apply rd_inv in Hx as [_ Hx]. rewrite Forall_forall in HF. destruct (HF x (nth_error_In _ _ Hx)) as [V N].
    rewrite (proj1 (lanes x V N)). cbn [bind]. rewrite wr_ok by lia. eexists. split; [reflexivity|]. split; [now rewrite set_nth_length|].
    intros i Hi. replace (Z.to_nat (k + 1)) with (S (Z.to_nat k)) in Hi by lia. destruct (Nat.eq_dec i (Z.to_nat k)) as [->|Ni].
    + rewrite nth_set_nth_same by lia. rewrite nth_error_map, Hx. reflexivity.
    + rewrite nth_set_nth_other by lia. apply Po. lia.
  - split; [exact La|]. intros i Hi. lia.
  - rewrite Ho. f_equal. apply list_eq_nth; [now rewrite map_length, Lo, Lf|]. intros i Hi. apply Po. change (Z.to_nat 160) with 160%nat. lia.
Qed.
Lemma buffer_nan : forall fb aout, length fb = 160%nat -> length aout = 160%nat -> In S754_nan fb -> exists w, mbe_floattoshort_scalar fb aout = UB w.
Proof.
  intros fb aout Lf La HI. destruct (mbe_floattoshort_scalar fb aout) as [o|w] eqn:E; [exfalso|eauto].
  apply In_nth_error in HI as [j Hj]. assert (Lj : (j < 160)%nat) by (rewrite <- Lf; apply nth_error_Some; congruence).
  unfold mbe_floattoshort_scalar in E.
  assert (Q : 160 <= Z.of_nat j).
  { refine (for_up_inv (fun k (_ : list Z) => k <= Z.of_nat j) _ 0 160 aout o _ _ _ E); [lia| |lia].
    intros k s s' Hk Hs K. destruct (Z.eq_dec k (Z.of_nat j)) as [->|N]; [exfalso|lia].
    apply bind_inv in K as (x & Hx & K). apply rd_inv in Hx as [_ Hx]. rewrite Nat2Z.id in Hx. rewrite Hj in Hx. injection Hx as <-.
    discriminate K. }
  lia.
Qed.
Lemma collect8 : forall (fb : list spec_float) i, length fb = 160%nat -> 0 <= i -> i + 8 <= 160 ->
  exists xs, for_up 0 8 (fun k (xs : list spec_float) => x <- rd fb (i + k) ;; Ok (xs ++ [x])) [] = Ok xs /\ length xs = 8%nat /\
  forall k, (k < 8)%nat -> nth_error xs k = nth_error fb (Z.to_nat i + k).
Proof.
  intros fb i Lf Hi Hi8.
  destruct (for_up_ok (fun k (xs : list f32) => length xs = Z.to_nat k /\ forall j, (j < Z.to_nat k)%nat -> nth_error xs j = nth_error fb (Z.to_nat i + j))
    (fun k (xs : list spec_float) => x <- rd fb (i + k) ;; Ok (xs ++ [x])) 0 8 []) as (xs & Hx & Lx & Nx).
  - lia.
  - intros k xs Hk [Lx Nx]. destruct (rd_ok fb (i + k)) as [x Hx]; [lia|]. rewrite Hx. cbn [bind]. eexists. split; [reflexivity|].
    apply rd_inv in Hx as [_ Hx]. split; [rewrite app_length; cbn; lia|]. intros j Hj.
    destruct (Nat.eq_dec j (Z.to_nat k)) as [->|N].
    + rewrite nth_error_app2 by lia. rewrite Lx, Nat.sub_diag. cbn. rewrite <- Hx. f_equal. lia.
    + rewrite nth_error_app1 by lia. apply Nx. lia.
  - split; [reflexivity|]. intros j Hj. lia.
  - exists xs. split; [exact Hx|]. split; [exact Lx|exact Nx].
Qed.
Lemma buffer_vec : forall lane fb aout, length fb = 160%nat -> length aout = 160%nat -> mbe_floattoshort_vec lane fb aout = Ok (map lane fb).
Proof.
  intros lane fb aout Lf La. unfold mbe_floattoshort_vec.
  destruct (loop_ok (fun i (o : list Z) => 0 <= i /\ length o = 160%nat /\ forall j, (j < Z.to_nat i)%nat -> nth_error o j = nth_error (map lane fb) j)
    (fun i aout => xs <- for_up 0 8 (fun k (xs : list spec_float) => x <- rd fb (i + k) ;; Ok (xs ++ [x])) [] ;;
      for_up 0 8 (fun k aout => x <- rd xs k ;; wr aout (i + k) (lane x)) aout) 8 20 0 aout) as (o & Ho & _ & Lo & Po).
  2:{ split; [lia|]. split; [exact La|]. intros j Hj. lia. }
  - intros k o Hk (Hi & Lo & Po). replace (0 + (k + 1) * 8) with (0 + k * 8 + 8) by lia. set (i := 0 + k * 8) in *.
    destruct (collect8 fb i Lf ltac:(lia) ltac:(lia)) as (xs & Hx & Lx & Nx). rewrite Hx. cbn [bind].
    destruct (for_up_ok (fun k (o : list Z) => length o = 160%nat /\ forall j, (j < Z.to_nat i + Z.to_nat k)%nat -> nth_error o j = nth_error (map lane fb) j)
      (fun k aout => x <- rd xs k ;; wr aout (i + k) (lane x)) 0 8 o) as (o' & Ho' & Lo' & Po').
    + lia.
    + intros m p Hm [Lp Pp]. destruct (rd_ok xs m) as [x Hr]; [lia|]. rewrite Hr. cbn [bind]. rewrite wr_ok by lia.
      apply rd_inv in Hr as [_ Hr]. eexists. split; [reflexivity|]. split; [now rewrite set_nth_length|]. intros j Hj.
      destruct (Nat.eq_dec j (Z.to_nat (i + m))) as [->|N].
      * rewrite nth_set_nth_same by lia. rewrite nth_error_map. rewrite Nx in Hr by lia.
        replace (Z.to_nat (i + m)) with (Z.to_nat i + Z.to_nat m)%nat by lia. rewrite Hr. reflexivity.
      * rewrite nth_set_nth_other by lia. apply Pp. lia.
    + split; [exact Lo|]. intros j Hj. apply Po. lia.
    + exists o'. split; [exact Ho'|]. split; [lia|]. split; [exact Lo'|]. intros j Hj. apply Po'. lia.
  - rewrite Ho. f_equal. apply list_eq_nth; [now rewrite map_length, Lo, Lf|]. intros j Hj. apply Po. cbn. lia.
Qed.
Lemma all_paths : forall fb aout, length fb = 160%nat -> length aout = 160%nat -> Forall (fun x => vf x /\ x <> S754_nan) fb ->
  mbe_floattoshort_scalar fb aout = Ok (map short_spec fb) /\
  mbe_floattoshort_vec short_of_sample_sse2 fb aout = Ok (map short_spec fb) /\
  mbe_floattoshort_vec short_of_sample_neon fb aout = Ok (map short_spec fb).
Proof.
  intros fb aout Lf La HF. split; [now apply buffer_scalar|]. rewrite !buffer_vec by assumption. rewrite Forall_forall in HF.
  split; f_equal; apply map_ext_in; intros x Hx; destruct (HF x Hx) as [V N]; apply (lanes x V N).
Qed.

(* ---- clipping ---- *)
Lemma between_abs : forall mc ec x, fgt x (S754_finite false mc ec) = false -> flt x (S754_finite true mc ec) = false ->
  x = S754_nan \/ fle (fabs x) (S754_finite false mc ec) = true.
Proof.
  intros mc ec x E1 E2. destruct x as [s|[|]| |[|] m e]; [right; reflexivity|discriminate E2|discriminate E1|left; reflexivity| |]; right.
  - unfold fle, SFleb, fabs, SFabs, SFcompare. unfold flt, SFltb, SFcompare in E2.
    destruct (e ?= ec); try discriminate E2; try reflexivity.
    change (match Some (CompOpp (Pos.compare m mc)) with Some Lt => true | _ => false end = false) in E2.
    change (match Some (Pos.compare m mc) with Some Lt | Some Eq => true | _ => false end = true).
    destruct (Pos.compare m mc); try reflexivity. discriminate E2.
  - unfold fgt, SFltb in E1. rewrite (SFcompare_swap (S754_finite false m e)) in E1.
    unfold fle, SFleb, fabs, SFabs. destruct (SFcompare (S754_finite false m e) (S754_finite false mc ec)) as [[| |]|] eqn:Ec; try discriminate E1; try reflexivity.
    cbn in Ec. discriminate Ec.
Qed.
Lemma limit_eq : sample_limit = S754_finite false 9107354 (-11).
Proof. vm_compute. reflexivity. Qed.
Lemma clip_bounded : forall x, bounded_sample (mbe_clipFloatSample x).
Proof.
  intros x. unfold mbe_clipFloatSample, bounded_sample. change SOFT_CLIP with (S754_finite false 9107354 (-11)). rewrite limit_eq.
  change (fopp (S754_finite false 9107354 (-11))) with (S754_finite true 9107354 (-11)).
  destruct (fgt x (S754_finite false 9107354 (-11))) eqn:E1; [right; reflexivity|].
  destruct (flt x (S754_finite true 9107354 (-11))) eqn:E2; [right; reflexivity|]. now apply between_abs.
Qed.
Lemma clip_buffer : forall s s', length s = 160%nat -> mbe_clipFloatBuffer s 160 = Ok s' -> length s' = 160%nat /\ Forall bounded_sample s'.
Proof.
  intros s s' L H. unfold mbe_clipFloatBuffer in H.
  assert (Q : length s' = 160%nat /\ forall i x, (i < Z.to_nat 160)%nat -> nth_error s' i = Some x -> bounded_sample x).
  { refine (for_up_inv (fun k (o : list f32) => length o = 160%nat /\ forall i x, (i < Z.to_nat k)%nat -> nth_error o i = Some x -> bounded_sample x)
      _ 0 160 s s' _ _ _ H); [lia| |split; [exact L|intros; lia]].
    intros k a b Hk [La Pa] K. apply bind_inv in K as (x & Hx & K). apply wr_inv in K as (_ & ->).
    split; [now rewrite set_nth_length|]. intros i y Hi. replace (Z.to_nat (k + 1)) with (S (Z.to_nat k)) in Hi by lia.
    destruct (Nat.eq_dec i (Z.to_nat k)) as [->|N].
    - rewrite nth_set_nth_same by lia. intros E. injection E as <-. apply clip_bounded.
    - rewrite nth_set_nth_other by lia. apply Pa. lia. }
  destruct Q as [L' P]. split; [exact L'|]. apply Forall_forall. intros x Hx. apply In_nth_error in Hx as [i Hi]. apply (P i x); [|exact Hi].
  change (Z.to_nat 160) with 160%nat. rewrite <- L'. apply nth_error_Some. congruence.
Qed.

(* buffer lengths through the synthesis *)
Lemma block4_length : forall sm a n w amp c s sd cd a' c' s', mbe_add_voiced_block4 sm a n w amp c s sd cd = Ok (a', c', s') -> length a' = length a.
Proof.
  intros sm a n w amp c s sd cd a' c' s' H. unfold mbe_add_voiced_block4 in H.
  change (length (fst (fst (a', c', s'))) = length a).
  refine (for_up_inv0 (fun z => length (fst (fst z)) = length a) _ _ _ _ _ _ _ H); [|reflexivity].
  intros k [[x1 x2] x3] [[y1 y2] y3] _ E K. cbn [fst] in *. apply bind_inv in K as (u & _ & K). apply bind_inv in K as (v & _ & K).
  apply bind_inv in K as (z & Hz & K). destruct (osc_step _ _ _ _). injection K as <- _ _. apply wr_length in Hz. congruence.
Qed.
Lemma osc_length : forall sm a off amp c s sd cd a', add_oscillator sm a off amp c s sd cd = Ok a' -> length a' = length a.
Proof.
  intros sm a off amp c s sd cd a' H. unfold add_oscillator in H. apply bind_inv in H as ([[b c1] s1] & H & E). injection E as <-.
  change (length (fst (fst (b, c1, s1))) = length a).
  refine (loop_inv0 (fun z => length (fst (fst z)) = length a) _ _ _ _ _ _ _ _ H); [|reflexivity].
  intros k [[x1 x2] x3] [[y1 y2] y3] E K. cbn [fst] in *. apply block4_length in K. congruence.
Qed.
Lemma interp_length : forall o a l cw0 pw0 pc pp mc mp a', add_interpolated o a l cw0 pw0 pc pp mc mp = Ok a' -> length a' = length a.
Proof.
  intros o a l cw0 pw0 pc pp mc mp a' H. unfold add_interpolated in H. cbv zeta in H.
  refine (for_up_inv0 (fun z => length z = length a) _ _ _ _ _ _ _ H); [|reflexivity].
  intros k x y _ E K. apply bind_inv in K as (u & _ & K). apply wr_length in K. congruence.
Qed.
Lemma harmonic_length : forall o cw0 pw0 cur prev l a a', add_harmonic o cw0 pw0 cur prev l a = Ok a' -> length a' = length a.
Proof.
  intros o cw0 pw0 cur prev l a a' H. unfold add_harmonic in H. cbv zeta in H.
  apply bind_inv in H as (vc & _ & H). apply bind_inv in H as (vp & _ & H).
  destruct ((vc =? 1) || (vp =? 1)); [|now injection H as <-].
  destruct ((l <? 8) && (vc =? 1) && (vp =? 1) && flt (fabs (fsub cw0 pw0)) (fmul f_0p1 cw0)).
  - do 4 (apply bind_inv in H as (? & _ & H)). now apply interp_length in H.
  - apply bind_inv in H as (b & Hb & H). assert (E : length b = length a).
    { destruct (vp =? 1); [|now injection Hb as <-]. do 2 (apply bind_inv in Hb as (? & _ & Hb)). now apply osc_length in Hb. }
    rewrite <- E. destruct (vc =? 1); [|now injection H as <-]. do 2 (apply bind_inv in H as (? & _ & H)). now apply osc_length in H.
Qed.
Lemma wola_fast_length : forall a p c a', mbe_wola_combine_fast a p c = Ok a' -> length a' = length a.
Proof.
  intros a p c a' H. unfold mbe_wola_combine_fast in H. refine (for_up_inv0 (fun z => length z = length a) _ _ _ _ _ _ _ H); [|reflexivity].
  intros k x y _ E K. do 3 (apply bind_inv in K as (? & _ & K)). cbv zeta in K. do 2 (apply bind_inv in K as (? & _ & K)).
  destruct (fgt _ _); [|injection K as <-; exact E]. apply bind_inv in K as (? & _ & K). apply wr_length in K. congruence.
Qed.
Lemma wola_sse2_length : forall a p c a', mbe_wola_combine_vec a p c = Ok a' -> length a' = length a.
Proof.
  intros a p c a' H. unfold mbe_wola_combine_vec in H. apply bind_inv in H as (b & H1 & H). apply bind_inv in H as (d & H2 & H).
  assert (L1 : length b = length a).
  { refine (for_up_inv0 (fun z => length z = length a) _ _ _ _ _ _ _ H1); [|reflexivity]. intros k x y _ E K. unfold wola_scalar_head in K. do 4 (apply bind_inv in K as (? & _ & K)).
    destruct (fgt _ _); [|injection K as <-; exact E]. apply bind_inv in K as (? & _ & K). apply wr_length in K. congruence. }
  assert (L2 : length d = length a).
  { refine (loop_inv0 (fun z => length z = length a) _ _ _ _ _ _ _ _ H2); [|exact L1]. intros k x y E K. unfold wola_vec4 in K. do 4 (apply bind_inv in K as (? & _ & K)).
    apply bind_inv in K as (y1 & K1 & K). apply bind_inv in K as (y2 & K2 & K). apply bind_inv in K as (y3 & K3 & K). apply wr_length in K1, K2, K3, K. congruence. }
  refine (for_up_inv0 (fun z => length z = length a) _ _ _ _ _ _ _ H); [|exact L2]. intros k x y _ E K. unfold wola_scalar_tail in K. do 4 (apply bind_inv in K as (? & _ & K)).
  destruct (fgt _ _); [|injection K as <-; exact E]. apply bind_inv in K as (? & _ & K). apply wr_length in K. congruence.
Qed.
Lemma unvoiced_length : forall o a cur prev noise a' uw, mbe_synthesizeUnvoicedFFTWithNoise o a cur prev noise = Ok (a', uw) -> length a' = length a.
Proof.
  intros o a cur prev noise a' uw H. unfold mbe_synthesizeUnvoicedFFTWithNoise in H. cbv zeta in H.
  apply bind_inv in H as (U & _ & H). apply bind_inv in H as ([am bm] & _ & H). apply bind_inv in H as (sc & _ & H).
  apply bind_inv in H as (f & _ & H). apply bind_inv in H as (u & _ & H). apply bind_inv in H as (b & Hb & H). injection H as <- _.
  destruct (lanes4 (o_simd o)); [now apply wola_sse2_length in Hb|now apply wola_fast_length in Hb].
Qed.
Lemma zero_fill_length : forall (a a' : list f32), for_up 0 160 (fun i a => wr a i fzero) a = Ok a' -> length a' = length a.
Proof.
  intros a a' H. refine (for_up_inv0 (fun z => length z = length a) _ _ _ _ _ _ _ H); [|reflexivity].
  intros k x y _ E K. apply wr_length in K. congruence.
Qed.
Lemma comfort_all : forall aout t aout' t', length aout = 160%nat -> mbe_synthesizeComfortNoisef aout t = Ok (aout', t') ->
  length aout' = 160%nat /\ Forall bounded_sample aout'.
Proof.
  intros aout t aout' t' L H. destruct (comfort_bounded aout t L) as (b & u & E & Lb & Fb). rewrite E in H. injection H as <- <-.
  split; [exact Lb|]. apply Forall_forall. intros x Hx. rewrite Forall_forall in Fb. destruct (Fb x Hx) as (V & F & B). right.
  assert (Fx : ff x). { split; [exact V|]. destruct x; try contradiction F; reflexivity. }
  apply fle_true in B; [|now apply fabs_ff|split; reflexivity]. apply fle_true; [now apply fabs_ff|split; reflexivity|].
  revert B. R_val noise_gain. R_val sample_limit. lra.
Qed.
Lemma speech_bounded : forall o aout a cur prev uvq t aout' cur' prev' t', length aout = 160%nat ->
  mbe_synthesizeSpeechf o aout a cur prev uvq t = Ok (aout', cur', prev', t') -> length aout' = 160%nat /\ Forall bounded_sample aout'.
Proof.
  intros o aout a cur prev uvq t aout' cur' prev' t' L H. unfold mbe_synthesizeSpeechf in H.
  apply bind_inv in H as ([c1 t1] & _ & H). destruct (speech_muted c1).
  - apply bind_inv in H as ([b u] & Hc & H). injection H as <- _ _ _. exact (comfort_all _ _ _ _ L Hc).
  - apply bind_inv in H as ([[[noise seed] ov] t2] & _ & H). cbv zeta in H. apply bind_inv in H as (nu & _ & H).
    apply bind_inv in H as (z & Hz & H). apply bind_inv in H as ([[c2 p2] ml] & _ & H). apply bind_inv in H as ([c3 p3] & _ & H).
    apply bind_inv in H as (v & Hv & H). apply bind_inv in H as ([w c4] & Hw & H). apply bind_inv in H as (r & Hr & H). injection H as <- _ _ _.
    apply (clip_buffer w); [|exact Hr]. apply zero_fill_length in Hz.
    assert (Lv : length v = length z).
    { refine (for_up_inv0 (fun x => length x = length z) _ _ _ _ _ _ _ Hv); [|reflexivity]. intros k x y _ E K. apply harmonic_length in K. congruence. }
    assert (Lw : length w = length v).
    { destruct (o_plan o); [|now injection Hw as <- _]. apply bind_inv in Hw as ([x uw] & Hx & Hw). injection Hw as <- _. now apply unvoiced_length in Hx. }
    congruence.
Qed.

(* ---- tone level ---- *)
Lemma limit_ff : ff SOFT_CLIP.
Proof. split; reflexivity. Qed.
Lemma tone_gain_ok : forall ad, 0 <= ad <= 127 -> ff (tone_gain ad) /\ (0 <= R_of (tone_gain ad) <= R_of SOFT_CLIP)%R.
Proof.
  intros ad H. unfold tone_gain. destruct (Z.ltb_spec ad 0); [lia|].
  destruct (of_Z_R ad ltac:(lia)) as [Fa Ea]. destruct (of_Z_R 127 ltac:(lia)) as [Fb Eb].
  destruct (of_Z_R 0 ltac:(lia)) as [F0 E0]. destruct (of_Z_R 1 ltac:(lia)) as [F1 E1].
  assert (Hz : (0 <= IZR ad <= 127)%R) by (split; apply IZR_le; lia).
  destruct (fdiv_b (f_of_Z ad) (f_of_Z 127) (f_of_Z 0) (f_of_Z 1)) as (Fd & Bd & _); try assumption.
  { rewrite Eb. lra. } { rewrite Ea, Eb, E0, E1. lra. }
  rewrite E0, E1 in Bd. set (q := fdiv _ _) in *.
  assert (P : (0 < R_of SOFT_CLIP)%R) by (R_val SOFT_CLIP; lra).
  destruct (fmul_b q SOFT_CLIP (f_of_Z 0) SOFT_CLIP) as (Fm & Bm & _); try assumption; try apply limit_ff.
  { rewrite E0. generalize dependent (R_of SOFT_CLIP). intros c Hc. generalize dependent (R_of q). intros r [Hr1 Hr2]. nra. }
  rewrite E0 in Bm. split; assumption.
Qed.
Lemma sine_cases : forall o x, sine_bounded o -> sinf o x = S754_nan \/ (ff (sinf o x) /\ (-1 <= R_of (sinf o x) <= 1)%R).
Proof.
  intros o x H. destruct (H x) as [E|E]; [now left|right]. assert (V : vf (sinf o x)) by apply vf_canon.
  assert (F : ff (sinf o x)). { split; [exact V|]. destruct (sinf o x) as [s|s| |s m e]; try reflexivity; discriminate E. }
  split; [exact F|]. apply fle_true in E; [|now apply fabs_ff|split; reflexivity]. rewrite R_fabs in E.
  rewrite (proj2 (of_Z_R 1 ltac:(lia))) in E. apply Rabs_le_inv in E. exact E.
Qed.
Lemma scale_bound : forall g s, ff g -> (0 <= R_of g)%R -> ff s -> (-1 <= R_of s <= 1)%R ->
  ff (fmul g s) /\ (- R_of g <= R_of (fmul g s) <= R_of g)%R.
Proof.
  intros g s Fg Pg Fs Bs. destruct (fmul_b g s (fopp g) g) as (A & B & _); try assumption; [now apply fopp_ff| |rewrite R_fopp in B; now split].
  rewrite R_fopp. generalize dependent (R_of g). intros c Hc. generalize dependent (R_of s). intros r [Hr1 Hr2]. nra.
Qed.
Lemma mul_nan_r : forall g, fmul g S754_nan = S754_nan.
Proof. now intros [ | | | ]. Qed.
Lemma add_nan : forall x y, x = S754_nan \/ y = S754_nan -> fadd x y = S754_nan.
Proof. intros [ | | | ] [ | | | ] [H|H]; try discriminate H; reflexivity. Qed.
Lemma bounded_of : forall x, ff x -> (- R_of SOFT_CLIP <= R_of x <= R_of SOFT_CLIP)%R -> bounded_sample x.
Proof.
  intros x F B. right. apply fle_true; [now apply fabs_ff|split; reflexivity|]. rewrite R_fabs. apply Rabs_le. exact B.
Qed.
Lemma tone_one : forall o g x, sine_bounded o -> ff g -> (0 <= R_of g <= R_of SOFT_CLIP)%R -> bounded_sample (fmul g (sinf o x)).
Proof.
  intros o g x Hs Fg Bg. destruct (sine_cases o x Hs) as [->|[F B]]; [left; apply mul_nan_r|].
  destruct (scale_bound g _ Fg ltac:(lra) F B) as [A C]. apply bounded_of; [exact A|lra].
Qed.
Lemma tone_two : forall o g x y, sine_bounded o -> ff g -> (0 <= R_of g <= R_of SOFT_CLIP)%R ->
  bounded_sample (fadd (fmul (fmul fhalf g) (sinf o x)) (fmul (fmul fhalf g) (sinf o y))).
Proof.
  intros o g x y Hs Fg Bg.
  assert (Fc : ff (flit 9107354 4096)) by (split; reflexivity).
  assert (Ec : (R_of (flit 9107354 4096) = R_of SOFT_CLIP / 2)%R) by (R_val (flit 9107354 4096); R_val SOFT_CLIP; lra).
  assert (Eh : R_of fhalf = (1 / 2)%R) by (R_val fhalf; lra).
  assert (F0 : ff fzero) by (split; reflexivity). assert (E0 : R_of fzero = 0%R) by reflexivity.
  destruct (fmul_b fhalf g fzero (flit 9107354 4096)) as (Fh & Bh & _); try assumption; [rewrite Eh, Ec, E0; lra|].
  rewrite E0, Ec in Bh. set (h := fmul fhalf g) in *.
  destruct (sine_cases o x Hs) as [->|[Fx Bx]]; [left; apply add_nan; left; apply mul_nan_r|].
  destruct (sine_cases o y Hs) as [->|[Fy By]]; [left; apply add_nan; right; apply mul_nan_r|].
  destruct (scale_bound h _ Fh ltac:(lra) Fx Bx) as [A C]. destruct (scale_bound h _ Fh ltac:(lra) Fy By) as [A' C'].
  pose proof limit_ff as FL. destruct (fadd_b _ _ (fopp SOFT_CLIP) SOFT_CLIP A A') as (S1 & S2 & _); [now apply fopp_ff|exact FL|rewrite R_fopp; lra|].
  rewrite R_fopp in S2. now apply bounded_of.
Qed.
Lemma zero_bounded : bounded_sample fzero.
Proof. right. reflexivity. Qed.
Lemma silence_all : forall aout aout', length aout = 160%nat -> mbe_synthesizeSilencef aout = Ok aout' ->
  length aout' = 160%nat /\ Forall bounded_sample aout'.
Proof.
  intros aout aout' L H. unfold mbe_synthesizeSilencef in H.
  assert (Q : length aout' = 160%nat /\ forall i x, (i < Z.to_nat 160)%nat -> nth_error aout' i = Some x -> bounded_sample x).
  { refine (for_up_inv (fun k (o : list f32) => length o = 160%nat /\ forall i x, (i < Z.to_nat k)%nat -> nth_error o i = Some x -> bounded_sample x)
      _ 0 160 aout aout' _ _ _ H); [lia| |split; [exact L|intros; lia]].
    intros k a b Hk [La Pa] K. apply wr_inv in K as (_ & ->).
    split; [now rewrite set_nth_length|]. intros i y Hi. replace (Z.to_nat (k + 1)) with (S (Z.to_nat k)) in Hi by lia.
    destruct (Nat.eq_dec i (Z.to_nat k)) as [->|N].
    - rewrite nth_set_nth_same by lia. intros E. injection E as <-. apply zero_bounded.
    - rewrite nth_set_nth_other by lia. apply Pa. lia. }
  destruct Q as [L' P]. split; [exact L'|]. apply Forall_forall. intros x Hx. apply In_nth_error in Hx as [i Hi]. apply (P i x); [|exact Hi].
  change (Z.to_nat 160) with 160%nat. rewrite <- L'. apply nth_error_Some. congruence.
Qed.
Lemma render_bounded : forall o aout cur f1 f2 ad aout' cur', sine_bounded o -> length aout = 160%nat -> 0 <= ad <= 127 ->
  mbe_renderTonef o aout cur f1 f2 ad = Ok (aout', cur') -> length aout' = 160%nat /\ Forall bounded_sample aout'.
Proof.
  intros o aout cur f1 f2 ad aout' cur' Hs L Had H. unfold mbe_renderTonef in H. destruct (fle f1 fzero).
  - apply bind_inv in H as (b & Hb & H). injection H as <- _. exact (silence_all _ _ L Hb).
  - cbv zeta in H. apply bind_inv in H as (s1 & _ & H). apply bind_inv in H as (s2 & _ & H). apply bind_inv in H as ([[b p1] p2] & Hl & H).
    injection H as <- _. destruct (tone_gain_ok ad Had) as [Fg Bg].
    assert (Q : length b = 160%nat /\ forall i x, (i < Z.to_nat 160)%nat -> nth_error b i = Some x -> bounded_sample x).
    { refine (for_up_inv (fun k (r : list f32 * Z * Z) => length (fst (fst r)) = 160%nat /\
          forall i x, (i < Z.to_nat k)%nat -> nth_error (fst (fst r)) i = Some x -> bounded_sample x)
        _ 0 160 _ (b, p1, p2) _ _ _ Hl); [lia| |split; [exact L|intros; lia]].
      intros k [[a q1] q2] [[c r1] r2] Hk [La Pa] K. cbn [fst] in *.
      assert (W : exists v, wr a k v = Ok c /\ bounded_sample v).
      { destruct (is_dual f1 f2); apply bind_inv in K as (z & Hz & K); injection K as <- _ _; eexists; (split; [exact Hz|]);
          unfold mbe_toneSampleFromPhase; [now apply tone_two|now apply tone_one]. }
      destruct W as (v & W & Bv). apply wr_inv in W as (_ & ->).
      split; [now rewrite set_nth_length|]. intros i y Hi. replace (Z.to_nat (k + 1)) with (S (Z.to_nat k)) in Hi by lia.
      destruct (Nat.eq_dec i (Z.to_nat k)) as [->|N].
      - rewrite nth_set_nth_same by lia. intros E. injection E as <-. exact Bv.
      - rewrite nth_set_nth_other by lia. apply Pa. lia. }
    destruct Q as [L' P]. split; [exact L'|]. apply Forall_forall. intros x Hx. apply In_nth_error in Hx as [i Hi]. apply (P i x); [|exact Hi].
    change (Z.to_nat 160) with 160%nat. rewrite <- L'. apply nth_error_Some. congruence.
Qed.
Lemma land_63 : forall u, 0 <= Z.land u 63 <= 63.
Proof. intros u. replace (Z.land u 63) with (u mod 64) by (symmetry; apply (Z.land_ones u 6); lia). pose proof (Z.mod_pos_bound u 64). lia. Qed.
Lemma land_1 : forall u, 0 <= Z.land u 1 <= 1.
Proof. intros u. replace (Z.land u 1) with (u mod 2) by (symmetry; apply (Z.land_ones u 1); lia). pose proof (Z.mod_pos_bound u 2). lia. Qed.
Lemma tone_bounded : forall o aout d cur aout' cur', sine_bounded o -> length aout = 160%nat ->
  mbe_synthesizeTonef o aout d cur = Ok (aout', cur') -> length aout' = 160%nat /\ Forall bounded_sample aout'.
Proof.
  intros o aout d cur aout' cur' Hs L H. unfold mbe_synthesizeTonef in H. destruct (negb (o_tones o)).
  { apply bind_inv in H as (b & Hb & H). injection H as <- _. exact (silence_all _ _ L Hb). }
  do 4 (apply bind_inv in H as (? & _ & H)). cbv zeta in H.
  destruct (mbe_lookupToneFreqs _) as [[f1 f2]|].
  - apply render_bounded in H; [exact H|exact Hs|exact L|]. rewrite Z.shiftl_mul_pow2 by lia.
    pose proof (land_63 x). pose proof (land_1 (Z.shiftr x2 4)). lia.
  - apply bind_inv in H as (b & Hb & H). injection H as <- _. exact (silence_all _ _ L Hb).
Qed.
Lemma dstar_bounded : forall o aout cur id aout' cur', sine_bounded o -> length aout = 160%nat ->
  mbe_synthesizeTonefdstar o aout cur id = Ok (aout', cur') -> length aout' = 160%nat /\ Forall bounded_sample aout'.
Proof.
  intros o aout cur id aout' cur' Hs L H. unfold mbe_synthesizeTonefdstar in H. destruct (negb (o_tones o)).
  { apply bind_inv in H as (b & Hb & H). injection H as <- _. exact (silence_all _ _ L Hb). }
  cbv zeta in H. destruct (fle (dstar_freq id) fzero).
  - apply bind_inv in H as (b & Hb & H). injection H as <- _. exact (silence_all _ _ L Hb).
  - apply render_bounded in H; [exact H|exact Hs|exact L|lia].
Qed.

(* ---- the conversion of every build ---- *)
Lemma convert_either : forall o fb aout, length fb = 160%nat -> length aout = 160%nat -> Forall (fun x => vf x /\ x <> S754_nan) fb -> mbe_floattoshort o fb aout = Ok (map short_spec fb).
Proof. intros o fb aout Lf La HF. unfold mbe_floattoshort. destruct (all_paths fb aout Lf La HF) as (A & B & C). destruct (o_simd o); assumption. Qed.
(* a frame of NaN: undefined in the scalar build, -31128 throughout in the SSE2 build, 0 throughout in the NEON build *)
Lemma convert_nan : forall o aout, length aout = 160%nat ->
  match o_simd o with
  | Scalar => exists w, mbe_floattoshort o (repeat S754_nan 160) aout = UB w
  | Sse2 => mbe_floattoshort o (repeat S754_nan 160) aout = Ok (repeat (-31128) 160)
  | Neon => mbe_floattoshort o (repeat S754_nan 160) aout = Ok (repeat 0 160)
  end.
Proof.
  intros o aout La. unfold mbe_floattoshort. destruct (o_simd o).
  - apply buffer_nan; [apply repeat_length|exact La|left; reflexivity].
  - rewrite buffer_vec by (try apply repeat_length; exact La). vm_compute. reflexivity.
  - rewrite buffer_vec by (try apply repeat_length; exact La). vm_compute. reflexivity.
Qed.
(* any frame, NaN or not, in the vector builds *)
Lemma convert_vec : forall o fb aout, length fb = 160%nat -> length aout = 160%nat -> Forall vf fb ->
  match o_simd o with
  | Scalar => True
  | Sse2 => mbe_floattoshort o fb aout = Ok (map (fun x => match x with S754_nan => -31128 | _ => short_spec x end) fb)
  | Neon => mbe_floattoshort o fb aout = Ok (map (fun x => match x with S754_nan => 0 | _ => short_spec x end) fb)
  end.
Proof.
  intros o fb aout Lf La HF. unfold mbe_floattoshort. destruct scalar_nan as (_ & NS & NN). rewrite Forall_forall in HF. destruct (o_simd o); [exact I| |].
  - rewrite buffer_vec by assumption. f_equal. apply map_ext_in. intros x Hx. specialize (HF x Hx).
    destruct x; try exact NS; apply lanes; try exact HF; discriminate.
  - rewrite buffer_vec by assumption. f_equal. apply map_ext_in. intros x Hx. specialize (HF x Hx).
    destruct x; try exact NN; apply lanes; try exact HF; discriminate.
Qed.
Lemma comfort_short_bounded : forall o aout t, length aout = 160%nat -> exists aout' t',
  mbe_synthesizeComfortNoise o aout t = Ok (aout', t') /\ length aout' = 160%nat /\ Forall (fun z => -98 <= z <= 98) aout'.
Proof.
  intros o aout t L. unfold mbe_synthesizeComfortNoise. rewrite comfort_frame by reflexivity. cbn [bind]. set (fb := map _ (seq 0 160)).
  assert (K : forall x, In x fb -> vf x /\ x <> S754_nan /\ -98 <= short_spec x <= 98).
  { intros x Hx. apply in_map_iff in Hx as (i & <- & _). rewrite <- sample_eq. destruct (noise_gain_short _ (java_bits_range i (java_pre t))) as (z & Hz & B).
    destruct (sample_bound _ (java_bits_range i (java_pre t))) as [[V F] _]. set (x := comfort_sample _) in *. assert (N : x <> S754_nan) by (intros E; rewrite E in F; discriminate F).
    rewrite (proj1 (lanes x V N)) in Hz. injection Hz as <-. auto. }
  rewrite convert_either; [|subst fb; now rewrite map_length, seq_length|exact L|apply Forall_forall; intros x Hx; destruct (K x Hx) as (A & B & _); auto].
  cbn [bind]. eexists. eexists. split; [reflexivity|]. split; [subst fb; now rewrite !map_length, seq_length|].
  apply Forall_forall. intros z Hz. apply in_map_iff in Hz as (x & <- & Hx). apply K, Hx.
Qed.

(* ---- the same facts about the three conversions themselves ---- *)
Lemma convert_eq : forall f fb aout, In f converters -> numbers fb -> length aout = 160%nat -> f fb aout = Ok (map short_spec fb).
Proof.
  intros f fb aout [<-|[<-|[<-|[]]]] [LF NF] LA; destruct (all_paths fb aout LF LA NF) as (A & B & C); assumption.
Qed.
Lemma convert_range : forall f fb aout r, In f converters -> numbers fb -> length aout = 160%nat -> f fb aout = Ok r -> length r = 160%nat /\ Forall (fun z => -31128 <= z <= 31128) r.
Proof.
  intros f fb aout r HF N LA H. rewrite (convert_eq f fb aout HF N LA) in H. injection H as <-. split; [rewrite map_length; apply N|]. apply Forall_forall. intros z Hz. apply in_map_iff in Hz as (x & <- & _). apply spec_range.
Qed.
Lemma convert_mono : forall f fb fb' aout aout' r r', In f converters -> numbers fb -> numbers fb' -> length aout = 160%nat -> length aout' = 160%nat -> Forall2 (fun x y => fle x y = true) fb fb' ->
  f fb aout = Ok r -> f fb' aout' = Ok r' -> Forall2 Z.le r r'.
Proof.
  intros f fb fb' aout aout' r r' HF N N' LA LA' LE H H'. rewrite (convert_eq f fb aout HF N LA) in H. rewrite (convert_eq f fb' aout' HF N' LA') in H'. injection H as <-. injection H' as <-.
  destruct N as [_ N]. destruct N' as [_ N']. clear - LE N N'. induction LE as [|x y l l' E LE IH]; cbn [map]; [constructor|]. inversion N; inversion N'; subst. constructor; [|auto]. apply spec_mono; tauto.
Qed.
Lemma convert_odd : forall f fb aout r, In f converters -> numbers fb -> length aout = 160%nat -> f fb aout = Ok r -> f (map fopp fb) aout = Ok (map Z.opp r).
Proof.
  intros f fb aout r HF N LA H. rewrite (convert_eq f fb aout HF N LA) in H. injection H as <-.
  assert (N' : numbers (map fopp fb)).
  { destruct N as [LF N]. split; [rewrite map_length; exact LF|]. apply Forall_forall. intros z Hz. apply in_map_iff in Hz as (x & <- & Hx). rewrite Forall_forall in N. destruct (N x Hx) as [B NN]. destruct x; (split; [exact B|]); cbn; try discriminate; congruence. }
  rewrite (convert_eq f _ aout HF N' LA). f_equal. rewrite !map_map. apply map_ext_in. intros x Hx. destruct N as [_ N]. rewrite Forall_forall in N. apply spec_odd; apply N, Hx.
Qed.
