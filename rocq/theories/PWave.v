(* The samples of tone frames against the sinusoids. *)
From Coq Require Import ZArith Reals Lra Lia List Bool.
From Verif Require Import Res F32 MParms SpecTone SpecTrig SpecWave PFloat PFloat2 PReal PNyq PGen PFftErr.
From Flocq Require Import Core.Core Relative IEEE754.BinarySingleNaN.
Import ListNotations.
Local Open Scope R_scope.

(* ---- double precision ---- *)
Definition u53 : R := / 9007199254740992.
Definition dtiny : R := bpow radix2 (-1075).
Lemma rndd_err : forall r, Rabs (rndd r - r) <= u53 * Rabs r + dtiny.
Proof.
  intros r. unfold rndd, rnd. change (SpecFloat.fexp 53 1024) with (FLT_exp (SpecFloat.emin 53 1024) 53).
  destruct (error_N_FLT radix2 (SpecFloat.emin 53 1024) 53 eq_refl (fun x => negb (Z.even x)) r) as (eps & eta & A & B & _ & ->).
  replace (r * (1 + eps) + eta - r) with (eps * r + eta) by ring. eapply Rle_trans; [apply Rabs_triang|]. rewrite Rabs_mult. apply Rplus_le_compat.
  - apply Rmult_le_compat_r; [apply Rabs_pos|]. eapply Rle_trans; [exact A|]. unfold u53. cbn. lra.
  - eapply Rle_trans; [exact B|]. unfold dtiny. change (-1075)%Z with (SpecFloat.emin 53 1024 - 1)%Z. unfold Zminus. rewrite bpow_plus. change (bpow radix2 (- (1))) with (/ 2). right. ring.
Qed.
Lemma dtiny_small : 0 < dtiny <= 1e-20.
Proof. split; [apply bpow_gt_0|]. apply Rle_trans with (bpow radix2 (-70)); [apply bpow_le; lia|]. change (bpow radix2 (-70)) with (/ 1180591620717411303424). lra. Qed.
Definition dbig : f64 := d_of_Z 1000000.
Lemma dbig_R : vd dbig /\ vd (SFopp dbig) /\ R_of dbig = 1000000 /\ R_of (SFopp dbig) = -1000000.
Proof. split; [reflexivity|]. split; [reflexivity|]. split; [R_val dbig|R_val (SFopp dbig)]; lra. Qed.
Lemma d_in : forall r, Rabs r <= 1000000 -> vd (SFopp dbig) /\ vd dbig /\ R_of (SFopp dbig) <= r <= R_of dbig.
Proof. intros r H. destruct dbig_R as (A & B & C & D). rewrite C, D. apply Rabs_le_inv in H. split; [exact B|]. split; [exact A|lra]. Qed.
Lemma dmul_e : forall x y, fd x -> fd y -> Rabs (R_of x * R_of y) <= 1000000 -> fd (dmul x y) /\ Rabs (R_of (dmul x y) - R_of x * R_of y) <= u53 * Rabs (R_of x * R_of y) + dtiny.
Proof.
  intros x y [Vx Fx] [Vy Fy] H. destruct (mul_R 53 1024 Hp53 He53 x y _ _ Vx Vy Fx Fy (d_in _ H)) as [A B].
  split; [split; [apply vd_dmul; assumption|exact A]|]. change (dmul x y) with (SFmul 53 1024 x y). rewrite B. apply rndd_err.
Qed.
Lemma vd_dsub : forall x y, vd x -> vd y -> vd (dsub x y).
Proof. exact (vb_sub 53 1024 Hp53 He53). Qed.
Lemma dsub_e : forall x y, fd x -> fd y -> Rabs (R_of x - R_of y) <= 1000000 -> fd (dsub x y) /\ Rabs (R_of (dsub x y) - (R_of x - R_of y)) <= u53 * Rabs (R_of x - R_of y) + dtiny.
Proof.
  intros x y [Vx Fx] [Vy Fy] H. destruct (sub_R 53 1024 Hp53 He53 x y _ _ Vx Vy Fx Fy (d_in _ H)) as [A B].
  split; [split; [apply vd_dsub; assumption|exact A]|]. change (dsub x y) with (SFsub 53 1024 x y). rewrite B. apply rndd_err.
Qed.
Lemma d2f_e : forall x, fd x -> Rabs (R_of x) <= 1000000 -> ff (d2f x) /\ Rabs (R_of (d2f x) - R_of x) <= u24 * Rabs (R_of x) + tiny.
Proof.
  intros [s|s| |s m e] [V F] H; try discriminate F.
  - split; [split; reflexivity|]. change (R_of (d2f (S754_zero s))) with 0. change (R_of (S754_zero s)) with 0. rewrite Rminus_0_r, Rabs_R0. unfold tiny. pose proof (bpow_gt_0 radix2 (-150)). lra.
  - pose (big := f_of_Z 1000000). assert (B1 : R_of big = 1000000) by (unfold big; R_val (f_of_Z 1000000); lra). assert (B2 : R_of (fopp big) = -1000000) by (unfold big; R_val (fopp (f_of_Z 1000000)); lra).
    destruct (round_R 24 128 Hp24 He24 s m e (fopp big) big) as [A B]; [split; [reflexivity|split; [reflexivity|]]; rewrite B1, B2; apply Rabs_le_inv in H; lra|].
    split; [split; [apply (vb_round 24 128 Hp24 He24)|exact A]|]. change (d2f (S754_finite s m e)) with (SpecFloat.binary_round 24 128 s m e). rewrite B. apply PReal.rnd_rel.
Qed.
Lemma d_of_Z_R : forall z, (0 <= z < 4294967296)%Z -> fd (d_of_Z z) /\ R_of (d_of_Z z) = IZR z.
Proof.
  intros z Hz. pose (hi := d_of_Z 4294967296). pose (lo := d_of_Z 0).
  assert (Vh : vd hi) by reflexivity. assert (Vl : vd lo) by reflexivity.
  assert (Eh : R_of hi = 4294967296) by (unfold hi; R_val (d_of_Z 4294967296); lra). assert (El : R_of lo = 0) by reflexivity.
  assert (EF : F2R (Float radix2 z 0) = IZR z) by (unfold F2R; cbn; lra).
  destruct (norm_R 53 1024 Hp53 He53 z 0 false lo hi) as [A B].
  { split; [exact Vl|]. split; [exact Vh|]. rewrite EF, Eh, El. split; apply IZR_le; lia. }
  split; [split; [apply vd_of_Z|exact A]|]. change (d_of_Z z) with (SpecFloat.binary_normalize 53 1024 z 0 false).
  rewrite B, EF. unfold rnd. apply round_generic; [apply valid_rnd_N|]. rewrite <- EF.
  change (SpecFloat.fexp 53 1024) with (FLT_exp (SpecFloat.emin 53 1024) 53). apply generic_format_FLT. exists (Float radix2 z 0); [reflexivity| |cbn; lia].
  cbn [Fnum]. change (radix2 ^ 53)%Z with (2 ^ 53)%Z. lia.
Qed.

(* ---- the angle of a 32-bit phase ---- *)
Definition turn_angle (ph : Z) : f32 := d2f (dsub (dmul (d_of_Z ph) (ddiv (dmul (d_of_Z 2) M_PI) (d_of_Z 4294967296))) (ddiv M_PI (d_of_Z 2))).
Lemma turn_near : forall ph, (0 <= ph < 4294967296)%Z -> ff (turn_angle ph) /\ Rabs (R_of (turn_angle ph) - (2 * PI * (IZR ph / 4294967296) - PI / 2)) <= 3.2e-7.
Proof.
  intros ph H. destruct (d_of_Z_R ph H) as [F0 E0]. set (c := ddiv (dmul (d_of_Z 2) M_PI) (d_of_Z 4294967296)). set (q := ddiv M_PI (d_of_Z 2)).
  assert (C : fd c /\ R_of c = 2 * R_of M_PI / 4294967296). { split; [split; reflexivity|]. unfold c. R_val (ddiv (dmul (d_of_Z 2) M_PI) (d_of_Z 4294967296)). R_val M_PI. lra. }
  assert (Q : fd q /\ R_of q = R_of M_PI / 2). { split; [split; reflexivity|]. unfold q. R_val (ddiv M_PI (d_of_Z 2)). R_val M_PI. lra. }
  destruct C as [FC EC], Q as [FQ EQ]. pose proof MPI_near as M. pose proof PI_bounds as P. pose proof dtiny_small as T. set (m := R_of M_PI) in *.
  assert (H0 : 0 <= IZR ph) by (apply IZR_le; lia). assert (H1 : IZR ph <= 4294967296) by (apply IZR_le; lia). set (x := IZR ph) in *.
  set (y := x / 4294967296). assert (Y : 0 <= y <= 1) by (unfold y; lra). clearbody m.
  assert (PR : x * (2 * m / 4294967296) = 2 * (y * m)) by (unfold y; lra). assert (YM : 0 <= y * m <= m) by (split; [apply Rmult_le_pos; lra|replace m with (1 * m) at 2 by ring; apply Rmult_le_compat_r; lra]).
  destruct (dmul_e (d_of_Z ph) c F0 FC) as [F1 G1]; rewrite E0, EC, PR in *; [rewrite Rabs_pos_eq; lra|]. rewrite (Rabs_pos_eq (2 * (y * m))) in G1 by lra. set (a := dmul (d_of_Z ph) c) in *.
  assert (G1' : Rabs (R_of a - 2 * (y * m)) <= 1e-14) by (unfold u53 in G1; lra). apply Rabs_le_inv in G1'. clear G1.
  destruct (dsub_e a q F1 FQ) as [F2 G2]; rewrite EQ in *; [apply Rabs_le; lra|]. assert (B2 : Rabs (R_of a - m / 2) <= 5) by (apply Rabs_le; lra). set (b := dsub a q) in *.
  assert (G2' : Rabs (R_of b - (R_of a - m / 2)) <= 1e-14) by (unfold u53 in G2; lra). apply Rabs_le_inv in G2'. clear G2.
  assert (B3 : Rabs (R_of b) <= 4.72) by (apply Rabs_le; lra).
  destruct (d2f_e b F2) as [F3 G3]; [lra|]. change (d2f b) with (turn_angle ph) in *. split; [exact F3|]. fold y. assert (TT : tiny <= 1e-20) by (unfold tiny; apply Rle_trans with (bpow radix2 (-70)); [apply bpow_le; lia|change (bpow radix2 (-70)) with (/ 1180591620717411303424); lra]).
  assert (G3' : Rabs (R_of (turn_angle ph) - R_of b) <= 2.82e-7) by (unfold u24 in G3; lra). apply Rabs_le_inv in G3'.
  assert (YP : Rabs (y * (m - PI)) <= 1e-8). { rewrite Rabs_mult, (Rabs_pos_eq y) by lra. apply Rle_trans with (1 * 1e-8); [apply Rmult_le_compat; try lra; [apply Rabs_pos|apply Rabs_le; lra]|lra]. }
  apply Rabs_le_inv in YP. apply Rabs_le. lra.
Qed.
Lemma wave_near : forall o ph, accurate_turn o -> (0 <= ph < 4294967296)%Z -> ff (osc_wave o ph) /\ Rabs (R_of (osc_wave o ph) - sin (2 * PI * (IZR ph / 4294967296) - PI / 2)) <= 4.5e-7.
Proof.
  intros o ph A H. destruct (turn_near ph H) as [F N]. unfold osc_wave. fold (turn_angle ph). pose proof PI_bounds as P.
  assert (H0 : 0 <= IZR ph) by (apply IZR_le; lia). assert (H1 : IZR ph <= 4294967296) by (apply IZR_le; lia). set (y := IZR ph / 4294967296) in *. assert (Y : 0 <= y <= 1) by (unfold y; lra).
  assert (YP : 0 <= PI * y <= PI) by (split; [apply Rmult_le_pos; lra|replace PI with (PI * 1) at 2 by ring; apply Rmult_le_compat_l; lra]).
  destruct (A (turn_angle ph) F) as (_ & S & _ & E). { apply Rabs_le_inv in N. apply Rabs_le. lra. }
  split; [exact S|]. pose proof (sin_lip (R_of (turn_angle ph)) (2 * PI * y - PI / 2)) as L. apply Rabs_le_inv in E. 
  assert (L' : Rabs (sin (R_of (turn_angle ph)) - sin (2 * PI * y - PI / 2)) <= 3.2e-7) by lra. apply Rabs_le_inv in L'. apply Rabs_le. lra.
Qed.

(* ---- drift of the rounded phase step, and whole turns ---- *)
Lemma step_near : forall h, (0 <= h)%Z -> Rabs (IZR (phase_step h) - IZR h * 4294967296 / 800000) <= / 2.
Proof.
  intros h H. unfold phase_step. change (2 ^ 32)%Z with 4294967296%Z. set (n := (2 * h * 4294967296 + 800000)%Z). pose proof (Z.div_mod n 1600000 ltac:(lia)) as D. pose proof (Z.mod_pos_bound n 1600000 ltac:(lia)) as M.
  set (q := (n / 1600000)%Z) in *. set (r := (n mod 1600000)%Z) in *. apply (f_equal IZR) in D. unfold n in D. rewrite !plus_IZR, !mult_IZR in D. assert (0 <= IZR r < 1600000) by (split; [apply IZR_le|apply IZR_lt]; lia). apply Rabs_le. lra.
Qed.
Lemma sin_turns : forall x k, sin (x + 2 * PI * IZR k) = sin x.
Proof.
  assert (P : forall x n, (0 <= n)%Z -> sin (x + 2 * PI * IZR n) = sin x).
  { intros x n H. rewrite <- (sin_period x (Z.to_nat n)). f_equal. rewrite INR_IZR_INZ, Z2Nat.id by exact H. ring. }
  intros x k. destruct (Z_le_gt_dec 0 k) as [H|H]; [apply P, H|]. rewrite <- (P (x + 2 * PI * IZR k) (- k)%Z) by lia. f_equal. rewrite opp_IZR. ring.
Qed.
Lemma sinusoid_near : forall h p k, (0 <= h)%Z -> (0 <= k)%Z ->
  Rabs (sin (2 * PI * (IZR (osc_phase p (phase_step h) k) / 4294967296) - PI / 2) - sinusoid h p k) <= (IZR k + 1) * 7.4e-10.
Proof.
  intros h p k Hh Hk. unfold osc_phase. change (2 ^ 32)%Z with 4294967296%Z. set (n := (p + phase_step h * (k + 1))%Z). pose proof (Z.div_mod n 4294967296 ltac:(lia)) as D. set (q := (n / 4294967296)%Z) in *. set (r := (n mod 4294967296)%Z) in *.
  apply (f_equal IZR) in D. unfold n in D. rewrite !plus_IZR, !mult_IZR, plus_IZR in D. rewrite <- (sin_turns _ q). unfold sinusoid. eapply Rle_trans; [apply sin_lip|].
  pose proof (step_near h Hh) as S. assert (K : 0 <= IZR k) by (apply IZR_le, Hk). set (s := IZR (phase_step h)) in *. set (kk := IZR k + 1) in *.
  replace (2 * PI * (IZR r / 4294967296) - PI / 2 + 2 * PI * IZR q - (2 * PI * (IZR p / 4294967296 + IZR h / 100 * kk / 8000) - PI / 2)) with (2 * PI / 4294967296 * ((s - IZR h * 4294967296 / 800000) * kk)).
  - pose proof PI_bounds as P. rewrite Rabs_mult, (Rabs_pos_eq (2 * PI / 4294967296)) by lra. rewrite Rabs_mult, (Rabs_pos_eq kk) by (unfold kk; lra).
    apply Rle_trans with (2 * 3.15 / 4294967296 * (/ 2 * kk)); [|unfold kk; lra]. apply Rmult_le_compat; try lra; [apply Rmult_le_pos; [apply Rabs_pos|unfold kk; lra]|apply Rmult_le_compat_r; [unfold kk; lra|exact S]].
  - replace (IZR r) with (IZR p + s * kk - 4294967296 * IZR q) by (rewrite D; fold kk; ring). field.
Qed.

(* ---- the samples ---- *)
Lemma tiny_20 : 0 < tiny <= 1e-20.
Proof. split; [apply bpow_gt_0|]. unfold tiny. apply Rle_trans with (bpow radix2 (-70)); [apply bpow_le; lia|change (bpow radix2 (-70)) with (/ 1180591620717411303424); lra]. Qed.
Lemma mul_near : forall x y a b ea eb A B, ff x -> ff y -> Rabs (R_of x - a) <= ea -> Rabs (R_of y - b) <= eb -> Rabs a <= A -> Rabs b <= B -> (A + ea) * (B + eb) <= 100000 ->
  ff (fmul x y) /\ Rabs (R_of (fmul x y) - a * b) <= ea * (B + eb) + A * eb + 6e-8 * ((A + ea) * (B + eb)) + 1e-20.
Proof.
  intros x y a b ea eb A B FX FY HX HY HA HB HM. pose proof tiny_20 as T.
  assert (X : Rabs (R_of x) <= A + ea) by (replace (R_of x) with (a + (R_of x - a)) by ring; eapply Rle_trans; [apply Rabs_triang|lra]).
  assert (Y : Rabs (R_of y) <= B + eb) by (replace (R_of y) with (b + (R_of y - b)) by ring; eapply Rle_trans; [apply Rabs_triang|lra]).
  assert (P : Rabs (R_of x * R_of y) <= (A + ea) * (B + eb)) by (rewrite Rabs_mult; apply Rmult_le_compat; auto using Rabs_pos).
  destruct (fmul_e x y FX FY) as [F E]; [unfold huge; lra|]. split; [exact F|].
  replace (R_of (fmul x y) - a * b) with ((R_of (fmul x y) - R_of x * R_of y) + ((R_of x - a) * R_of y + a * (R_of y - b))) by ring.
  eapply Rle_trans; [apply Rabs_triang|]. assert (K1 : Rabs ((R_of x - a) * R_of y + a * (R_of y - b)) <= ea * (B + eb) + A * eb).
  { eapply Rle_trans; [apply Rabs_triang|]. rewrite !Rabs_mult. apply Rplus_le_compat; apply Rmult_le_compat; auto using Rabs_pos. }
  assert (K2 : u24 * Rabs (R_of x * R_of y) <= 6e-8 * ((A + ea) * (B + eb))) by (apply Rmult_le_compat; auto using Rabs_pos; unfold u24; lra). lra.
Qed.
Lemma gain_near : forall ad, (0 <= ad <= 127)%Z -> ff (amp_gain ad) /\ Rabs (R_of (amp_gain ad) - tone_level ad) <= 0.002 /\ 0 <= tone_level ad <= 4447.
Proof.
  intros ad H. assert (H0 : 0 <= IZR ad) by (apply IZR_le; lia). assert (H1 : IZR ad <= 127) by (apply IZR_le; lia). pose proof tiny_20 as T.
  destruct (of_Z_R ad) as [F1 E1]; [lia|]. destruct (of_Z_R 127) as [F2 E2]; [lia|]. set (C := fdiv (fmul (f_of_Z 32767) (flit 95 100)) (f_of_Z 7)).
  assert (FC : ff C) by (apply ff_const; vm_compute; reflexivity). assert (EC : Rabs (R_of C - 32767 * 0.95 / 7) <= 0.0006) by (unfold C; R_val (fdiv (fmul (f_of_Z 32767) (flit 95 100)) (f_of_Z 7)); apply Rabs_le; lra).
  destruct (fdiv_e (f_of_Z ad) (f_of_Z 127) F1 F2) as [F3 E3]; [rewrite E2; lra|rewrite E1, E2, Rabs_pos_eq by lra; unfold huge; lra|]. rewrite E1, E2, (Rabs_pos_eq (IZR ad / 127)) in E3 by lra.
  assert (E3' : Rabs (R_of (fdiv (f_of_Z ad) (f_of_Z 127)) - IZR ad / 127) <= 6.1e-8) by (unfold u24 in E3; lra).
  destruct (mul_near _ C (IZR ad / 127) (32767 * 0.95 / 7) 6.1e-8 0.0006 1 4447 F3 FC E3' EC) as [F4 E4]; [rewrite Rabs_pos_eq; lra|rewrite Rabs_pos_eq; lra|lra|].
  unfold amp_gain, tone_level. fold C. split; [exact F4|]. split; [lra|]. split; [apply Rmult_le_pos; lra|]. apply Rle_trans with (1 * 4447); [apply Rmult_le_compat; lra|lra].
Qed.
Lemma osc_range : forall p s k, (0 <= osc_phase p s k < 4294967296)%Z.
Proof. intros. unfold osc_phase. change (2 ^ 32)%Z with 4294967296%Z. apply Z.mod_pos_bound. lia. Qed.
Lemma sin_1 : forall x, Rabs (sin x) <= 1. Proof. intros x. apply Rabs_le. apply SIN_bound. Qed.
Section Sample.
Context (o : oracle) (AT : accurate_turn o) (hz : Z * Z) (ad p1 p2 k : Z) (HA : (0 <= ad <= 127)%Z).
Let w h p := sin (2 * PI * (IZR (osc_phase p (phase_step h) k) / 4294967296) - PI / 2).
Lemma sample_wave : ff (tone_sample o hz ad p1 p2 k) /\
  Rabs (R_of (tone_sample o hz ad p1 p2 k) - (if (snd hz =? 0)%Z then tone_level ad * w (fst hz) p1 else tone_level ad * (w (fst hz) p1 + w (snd hz) p2) / 2)) <= 0.006.
Proof.
  destruct (gain_near ad HA) as (FG & EG & LG). set (g := amp_gain ad) in *. set (v := tone_level ad) in *. assert (AV : Rabs v <= 4447) by (rewrite Rabs_pos_eq; lra).
  destruct (wave_near o _ AT (osc_range p1 (phase_step (fst hz)) k)) as [F1 E1]. fold (w (fst hz) p1) in E1.
  destruct (wave_near o _ AT (osc_range p2 (phase_step (snd hz)) k)) as [F2 E2]. fold (w (snd hz) p2) in E2. unfold tone_sample. cbv zeta. fold g.
  assert (W1 : Rabs (w (fst hz) p1) <= 1) by apply sin_1. assert (W2 : Rabs (w (snd hz) p2) <= 1) by apply sin_1.
  set (s1 := osc_wave o _) in *. set (s2 := osc_wave o (osc_phase p2 _ _)) in *. set (x1 := w (fst hz) p1) in *. set (x2 := w (snd hz) p2) in *. destruct (snd hz =? 0)%Z.
  - destruct (mul_near g s1 v x1 0.002 4.5e-7 4447 1 FG F1 EG E1 AV W1) as [F3 E3]; [lra|]. split; [exact F3|]. eapply Rle_trans; [exact E3|lra].
  - set (h := fdiv (f_of_Z 1) (f_of_Z 2)). assert (FH : ff h) by (apply ff_const; vm_compute; reflexivity). assert (EH : Rabs (R_of h - / 2) <= 0) by (unfold h; R_val (fdiv (f_of_Z 1) (f_of_Z 2)); apply Rabs_le; lra).
    destruct (mul_near h g (/ 2) v 0 0.002 (/ 2) 4447 FH FG EH EG) as [F3 E3]; [rewrite Rabs_pos_eq; lra|exact AV|lra|]. set (hg := fmul h g) in *.
    assert (AH : Rabs (/ 2 * v) <= 2223.5) by (rewrite Rabs_pos_eq; lra). assert (E3' : Rabs (R_of hg - / 2 * v) <= 0.00114) by lra.
    destruct (mul_near hg s1 (/ 2 * v) x1 0.00114 4.5e-7 2223.5 1 F3 F1 E3' E1 AH W1) as [F4 E4]; [lra|]. destruct (mul_near hg s2 (/ 2 * v) x2 0.00114 4.5e-7 2223.5 1 F3 F2 E3' E2 AH W2) as [F5 E5]; [lra|].
    set (a := fmul hg s1) in *. set (b := fmul hg s2) in *.
    assert (B1 : Rabs (/ 2 * v * x1) <= 2223.5) by (rewrite Rabs_mult; apply Rle_trans with (2223.5 * 1); [apply Rmult_le_compat; auto using Rabs_pos|lra]).
    assert (B2 : Rabs (/ 2 * v * x2) <= 2223.5) by (rewrite Rabs_mult; apply Rle_trans with (2223.5 * 1); [apply Rmult_le_compat; auto using Rabs_pos|lra]).
    set (y1 := / 2 * v * x1) in *. set (y2 := / 2 * v * x2) in *. apply Rabs_le_inv in E4, E5, B1, B2.
    assert (BS : Rabs (R_of a + R_of b) <= 4448) by (apply Rabs_le; lra).
    destruct (fadd_e a b F4 F5) as [F6 E6]; [unfold huge; lra|]. split; [exact F6|]. pose proof tiny_20 as T.
    assert (E6' : Rabs (R_of (fadd a b) - (R_of a + R_of b)) <= 0.00028) by (unfold u24 in E6; lra). apply Rabs_le_inv in E6'. replace (v * (x1 + x2) / 2) with (y1 + y2) by (unfold y1, y2; lra). apply Rabs_le. lra.
Qed.
Lemma sample_size : Rabs (R_of (tone_sample o hz ad p1 p2 k)) <= 4448.
Proof.
  destruct sample_wave as [_ E]. destruct (gain_near ad HA) as (_ & _ & LG). set (v := tone_level ad) in *.
  assert (W1 : Rabs (w (fst hz) p1) <= 1) by apply sin_1. assert (W2 : Rabs (w (snd hz) p2) <= 1) by apply sin_1. set (x1 := w (fst hz) p1) in *. set (x2 := w (snd hz) p2) in *.
  match type of E with Rabs (_ - ?y) <= _ => assert (Y : Rabs y <= 4447.5); [|set (z := y) in *; clearbody z; apply Rabs_le_inv in E, Y; apply Rabs_le; lra] end.
  destruct (snd hz =? 0)%Z.
  - rewrite Rabs_mult, (Rabs_pos_eq v) by lra. apply Rle_trans with (4447 * 1); [apply Rmult_le_compat; try lra; apply Rabs_pos|lra].
  - assert (S : Rabs ((x1 + x2) / 2) <= 1) by (apply Rabs_le_inv in W1, W2; apply Rabs_le; lra). replace (v * (x1 + x2) / 2) with (v * ((x1 + x2) / 2)) by lra. rewrite Rabs_mult, (Rabs_pos_eq v) by lra. apply Rle_trans with (4447 * 1); [apply Rmult_le_compat; try lra; apply Rabs_pos|lra].
Qed.
Lemma sample_near : (0 <= fst hz)%Z -> (0 <= snd hz)%Z -> (0 <= k)%Z -> Rabs (R_of (tone_sample o hz ad p1 p2 k) - tone_wave hz ad p1 p2 k) <= 0.006 + 4e-6 * (IZR k + 1).
Proof.
  intros H1 H2 HK. destruct sample_wave as [_ E]. destruct (gain_near ad HA) as (_ & _ & LG). unfold tone_wave. set (v := tone_level ad) in *.
  pose proof (sinusoid_near (fst hz) p1 k H1 HK) as S1. pose proof (sinusoid_near (snd hz) p2 k H2 HK) as S2. fold (w (fst hz) p1) in S1. fold (w (snd hz) p2) in S2. assert (KK : 0 <= IZR k) by (apply IZR_le, HK).
  set (x1 := w (fst hz) p1) in *. set (x2 := w (snd hz) p2) in *. set (z1 := sinusoid (fst hz) p1 k) in *. set (z2 := sinusoid (snd hz) p2 k) in *. set (e := (IZR k + 1) * 7.4e-10) in *.
  assert (Q : 0 <= e) by (unfold e; lra). set (x := R_of (tone_sample o hz ad p1 p2 k)) in *. clearbody x.
  assert (VE : v * e <= 4447 * e) by (apply Rmult_le_compat_r; lra). destruct (snd hz =? 0)%Z.
  - replace (x - v * z1) with ((x - v * x1) + v * (x1 - z1)) by ring. eapply Rle_trans; [apply Rabs_triang|]. rewrite (Rabs_mult v), (Rabs_pos_eq v) by lra.
    assert (v * Rabs (x1 - z1) <= v * e) by (apply Rmult_le_compat_l; lra). unfold e in *. lra.
  - replace (x - v * (z1 + z2) / 2) with ((x - v * (x1 + x2) / 2) + v * (((x1 - z1) + (x2 - z2)) / 2)) by lra. eapply Rle_trans; [apply Rabs_triang|]. rewrite (Rabs_mult v), (Rabs_pos_eq v) by lra.
    assert (D : Rabs (((x1 - z1) + (x2 - z2)) / 2) <= e) by (apply Rabs_le_inv in S1, S2; apply Rabs_le; lra).
    assert (v * Rabs (((x1 - z1) + (x2 - z2)) / 2) <= v * e) by (apply Rmult_le_compat_l; lra). unfold e in *. lra.
Qed.
End Sample.
