(* Amplitudes whose squared energy overflows: enhancement and synthesis give NaN. *)
From Coq Require Import ZArith Reals Lra Lia List Bool.
From Verif Require Import Res F32 MParms SpecAmp SpecSynth SpecSum SpecEnh2 PFloat PReal PSum PEnh3.
From Flocq Require Import Core.Core.
Import ListNotations.
Local Open Scope Z_scope.

(* at least 1.0625 2^64 *)
Definition edge : f32 := S754_finite false 8912896 41.
Lemma edge_ff : ff edge. Proof. split; vm_compute; reflexivity. Qed.
Lemma edge_R : R_of edge = 19599665578316398592%R.
Proof.
  unfold R_of, edge. cbn [Flocq.IEEE754.BinarySingleNaN.SF2R]. unfold Flocq.Core.Defs.F2R. cbn [Flocq.Core.Defs.Fnum Flocq.Core.Defs.Fexp Flocq.Core.Zaux.cond_Zopp].
  change (bpow radix2 41) with 2199023255552%R. lra.
Qed.
Definition big (x : f32) : Prop := nn x /\ (x = S754_infinity false \/ (R_of edge <= R_of x)%R).
Lemma rnd_edge : forall r, (R_of edge <= r)%R -> (R_of edge <= rndf r)%R.
Proof. intros r H. rewrite <- (rnd_vb 24 128 edge (proj1 edge_ff)) at 1. apply (rnd_mono 24 128 Hp24). exact H. Qed.
Lemma big_sq : forall x, ff x -> (4450000000 <= R_of x)%R -> big (fmul x x).
Proof.
  intros x [V F] H. assert (N : nn (fmul x x)) by (apply nn_sq; [exact V|destruct x; try discriminate F; reflexivity]). split; [exact N|].
  destruct (nn_inv _ N) as [E|[[V2 F2] _]]; [left; exact E|right]. destruct (mul_cases 24 128 Hp24 He24 x x V V F F) as [[_ B]|B].
  - change (R_of (fmul x x)) with (R_of (SFmul 24 128 x x)). rewrite B. apply rnd_edge. rewrite edge_R. nra.
  - exfalso. change (fmul x x) with (SFmul 24 128 x x) in F2. rewrite B in F2. discriminate F2.
Qed.
Lemma big_add : forall x y, nn x -> nn y -> big x \/ big y -> big (fadd x y).
Proof.
  intros x y NX NY H. assert (N : nn (fadd x y)) by (apply nn_add; assumption). split; [exact N|]. destruct (nn_inv _ N) as [E|[[V F] _]]; [left; exact E|right].
  destruct (nn_inv _ NX) as [->|[[VX FX] PX]]; [exfalso; destruct (nn_inv _ NY) as [->|[[_ FY] _]]; [discriminate F|destruct y; try discriminate FY; discriminate F]|].
  destruct (nn_inv _ NY) as [->|[[VY FY] PY]]; [exfalso; destruct x; try discriminate FX; discriminate F|].
  destruct (add_cases 24 128 Hp24 He24 x y VX VY FX FY) as [[_ B]|[B _]].
  - change (R_of (fadd x y)) with (R_of (SFadd 24 128 x y)). rewrite B. apply rnd_edge.
    destruct H as [[_ [->|H]]|[_ [->|H]]]; try discriminate; lra.
  - exfalso. change (fadd x y) with (SFadd 24 128 x y) in F. rewrite B in F. discriminate F.
Qed.
Lemma big_inf : forall x, big x -> fmul x x = S754_infinity false.
Proof.
  intros x [N [->|H]]; [reflexivity|]. destruct (nn_inv _ N) as [->|[[V F] P]]; [reflexivity|].
  assert (N2 : nn (fmul x x)) by (apply nn_sq; [exact V|destruct x; try discriminate F; reflexivity]). destruct (nn_inv _ N2) as [E|[[V2 F2] _]]; [exact E|].
  exfalso. destruct (mul_cases 24 128 Hp24 He24 x x V V F F) as [[_ B]|B].
  - pose proof (rnd_rel (R_of x * R_of x)) as E. change (rnd 24 128 (R_of x * R_of x)) with (rndf (R_of x * R_of x)) in B. rewrite <- B in E. change (SFmul 24 128 x x) with (fmul x x) in E.
    pose proof (le_FLT_MAX _ V2) as M. pose proof (Rabs_le_inv _ _ E) as E2. rewrite edge_R in H. destruct u_facts as [U1 U2].
    assert (Q : (384146890778976797170366475404700000000 <= R_of x * R_of x)%R) by nra.
    rewrite Rabs_pos_eq in E2 by lra. assert (MX : (R_of FLT_MAX <= 340282366920938463463374607431768211456)%R).
    { unfold R_of, FLT_MAX. cbn [Flocq.IEEE754.BinarySingleNaN.SF2R]. unfold Flocq.Core.Defs.F2R. cbn [Flocq.Core.Defs.Fnum Flocq.Core.Defs.Fexp Flocq.Core.Zaux.cond_Zopp]. change (bpow radix2 104) with 20282409603651670423947251286016%R. lra. }
    assert (u24 * (R_of x * R_of x) <= / 1000000 * (R_of x * R_of x))%R by (apply Rmult_le_compat_r; lra). lra.
  - change (fmul x x) with (SFmul 24 128 x x) in F2. rewrite B in F2. discriminate F2.
Qed.
Lemma sum_big : forall simd (f : Z -> f32) l, (forall k, In k l -> nn (f k)) -> (exists k, In k l /\ big (f k)) -> big (add_all simd (map f l)).
Proof.
  intros simd f l N (k & K & H). apply (add_all_some nn big); [split; reflexivity|exact nn_add|exact big_add| |].
  - apply Forall_forall. intros x Hx. apply in_map_iff in Hx as (i & <- & Hi). apply N, Hi.
  - apply Exists_exists. exists (f k). split; [apply in_map, K|exact H].
Qed.
Lemma sum_nan : forall simd (f : Z -> f32) l, (exists k, In k l /\ f k = S754_nan) -> add_all simd (map f l) = S754_nan.
Proof.
  intros simd f l (k & K & H). apply (add_all_some (fun _ => True) (fun x => x = S754_nan)); auto.
  - intros x y _ _ [-> | ->]; [reflexivity|destruct x; reflexivity].
  - apply Forall_forall. auto.
  - apply Exists_exists. exists (f k). split; [apply in_map, K|exact H].
Qed.
(* infinite or not a number *)
Definition lost (x : f32) : Prop := x = S754_infinity false \/ x = S754_nan.
Lemma lost_add : forall x y, lost x -> lost (fadd x y).
Proof. intros x y [->| ->]; destruct y as [s|[|]| |s m e]; unfold lost; cbn; auto. Qed.
Lemma lost_sub : forall x y, lost x -> lost (fsub x y).
Proof. intros x y [->| ->]; destruct y as [s|[|]| |s m e]; unfold lost; cbn; auto. Qed.
Lemma lost_mul : forall m e y, lost y -> lost (fmul (S754_finite false m e) y).
Proof. intros m e y [->| ->]; unfold lost; cbn; auto. Qed.
Lemma lost_mul_inf : forall y, lost y -> lost (fmul (S754_infinity false) y).
Proof. intros y [->| ->]; unfold lost; cbn; auto. Qed.
Lemma lost_div : forall x y, lost x -> lost y -> fdiv x y = S754_nan.
Proof. intros x y [->| ->] [->| ->]; reflexivity. Qed.
Lemma mul_nan_r : forall x, fmul x S754_nan = S754_nan.
Proof. intros [s|s| |s m e]; reflexivity. Qed.
Lemma mul_nan_l : forall x, fmul S754_nan x = S754_nan.
Proof. intros x; reflexivity. Qed.
Lemma div_nan_r : forall x, fdiv x S754_nan = S754_nan.
Proof. intros [s|s| |s m e]; reflexivity. Qed.
Lemma add_nan_l : forall x, fadd S754_nan x = S754_nan.
Proof. intros x; reflexivity. Qed.
Lemma add_nan_r : forall x, fadd x S754_nan = S754_nan.
Proof. intros [s|s| |s m e]; reflexivity. Qed.

(* a set whose amplitudes are finite, one of them above 4.45e9 and one that enhancement weighs above zero *)
Definition overloud (m : parms) : Prop :=
  length (p_Ml m) = 57%nat /\ 9 <= p_L m <= 56 /\ ff (p_w0 m) /\ (/ 1000 <= R_of (p_w0 m))%R /\ (forall k, 1 <= k <= p_L m -> ff (cell zero (p_Ml m) k)) /\
  (exists j, 1 <= j <= p_L m /\ (4450000000 <= R_of (cell zero (p_Ml m) j))%R) /\ (exists k, 1 <= k <= p_L m /\ p_L m < 8 * k /\ (0 < R_of (cell zero (p_Ml m) k))%R).
Lemma moment_big : forall o m, overloud m -> big (moment0 o m).
Proof.
  intros o m (_ & EL & _ & _ & F & (j & J & H) & _). unfold moment0. apply sum_big.
  - intros k K. apply in_upto in K. destruct (F k K) as [V Q]. apply nn_sq; [exact V|]. destruct (cell zero (p_Ml m) k); try discriminate Q; reflexivity.
  - exists j. split; [apply in_upto; lia|]. apply big_sq; [apply F; lia|exact H].
Qed.
Lemma weight_nan : forall o m l, overloud m -> weight o m l = S754_nan.
Proof.
  intros o m l O. pose proof (moment_big o m O) as B. unfold weight. cbv zeta. set (r0 := moment0 o m) in *. set (r1 := moment1 o m). rewrite (big_inf r0 B).
  rewrite lost_div; [cbn [fsqrt SFsqrt]; change (fsqrt S754_nan) with S754_nan; apply mul_nan_r| |].
  - replace (fmul (flit 96 100) (d2f M_PI)) with (S754_finite false 12649723 (-22)) by (vm_compute; reflexivity).
    apply lost_mul, lost_sub, lost_add. left. reflexivity.
  - assert (D : lost (fsub (S754_infinity false) (fmul r1 r1))) by (apply lost_sub; left; reflexivity). destruct O as (_ & _ & [VW FW] & HW & _).
    assert (P : (0 < R_of (p_w0 m))%R) by lra. assert (N : nn (fmul (p_w0 m) r0)) by (apply nn_mul; [split; assumption|exact P|exact (proj1 B)]).
    destruct (nn_inv _ N) as [->|[[V F] _]]; [apply lost_mul_inf, D|].
    assert (Q : (1 <= R_of (fmul (p_w0 m) r0))%R).
    { destruct B as [NB [->|HB]]; [exfalso; destruct (p_w0 m); try discriminate FW; discriminate F|]. destruct (nn_inv _ NB) as [->|[[VB FB] _]]; [exfalso; destruct (p_w0 m); try discriminate FW; discriminate F|].
      destruct (mul_cases 24 128 Hp24 He24 (p_w0 m) r0 VW VB FW FB) as [[_ E]|E].
      - change (R_of (fmul (p_w0 m) r0)) with (R_of (SFmul 24 128 (p_w0 m) r0)). rewrite E. destruct (of_Z_R 1) as [F1 R1]; [lia|]. rewrite <- R1.
        rewrite <- (rnd_vb 24 128 (f_of_Z 1) (proj1 F1)) at 1. apply (rnd_mono 24 128 Hp24). rewrite R1. rewrite edge_R in HB. nra.
      - exfalso. change (fmul (p_w0 m) r0) with (SFmul 24 128 (p_w0 m) r0) in F. rewrite E in F. discriminate F. }
    destruct (fmul (p_w0 m) r0) as [s|s| |[|] mm e]; try discriminate F.
    + rewrite R_zero in Q. lra.
    + pose proof (R_finite_neg mm e). lra.
    + apply lost_mul, D.
Qed.
Lemma restore_nan : forall o m, overloud m -> restore o m = S754_nan.
Proof.
  intros o m O. unfold restore. cbv zeta. assert (E : add_all (o_simd o) (map (fun l => fmul (reweighted o m l) (reweighted o m l)) (upto (p_L m))) = S754_nan).
  { apply sum_nan. pose proof O as (LM & EL & FW & HW & F & _ & (k & K & K8 & H)). exists k. split; [apply in_upto; lia|].
    assert (W : reweighted o m k = S754_nan); [|rewrite W; reflexivity].
    unfold reweighted. cbv zeta. rewrite (weight_nan o m k O). destruct (SFeqb (cell zero (p_Ml m) k) zero) eqn:Z0; [apply eqb_zero_R in Z0; lra|].
    destruct (Z.leb_spec (8 * k) (p_L m)); [lia|]. reflexivity. }
  rewrite E. cbn [SFeqb SFcompare]. change (SFeqb S754_nan zero) with false. cbv iota. rewrite div_nan_r. reflexivity.
Qed.
Lemma enhanced_nan : forall o m l, overloud m -> 1 <= l <= p_L m -> cell zero (enhanced_amplitudes o m) l = S754_nan.
Proof.
  intros o m l O Hl. unfold enhanced_amplitudes, replaced, cell. rewrite (restore_nan o m O). pose proof O as (LM & EL & _).
  erewrite nth_indep; [erewrite (map_nth (fun i => _) _ 0%nat)|rewrite map_length, seq_length; lia]. rewrite seq_nth by lia. cbv zeta. rewrite Nat.add_0_l, Z2Nat.id by lia.
  destruct (Z.leb_spec 1 l); [|lia]. destruct (Z.leb_spec l (p_L m)); [|lia]. reflexivity.
Qed.
