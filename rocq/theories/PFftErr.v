(* Rounding errors of the single precision transforms. *)
From Coq Require Import ZArith List Bool Reals Lia Lra Psatz.
From Verif Require Import Res F32 MParms MFft SpecFft SpecTrig SpecFftErr PFftSym PFftRun PFloat PReal PEnh3 PNyq PFftReal PFftF32.
From Flocq Require Import Core.Core.
Import ListNotations.
Local Open Scope R_scope.

(* x is within k units of M of the real d, and d is of size M *)
Definition app (x : f32) (d M k : R) : Prop := ff x /\ Rabs d <= M /\ Rabs (R_of x - d) <= k * u24 * M.
Lemma u24_lt : 0 < u24 /\ u24 <= 6e-8 /\ 5e-8 <= u24. Proof. unfold u24. lra. Qed.
Lemma app_weaken : forall x d M k M' k', app x d M k -> M <= M' -> 0 <= k <= k' -> app x d M' k'.
Proof.
  intros x d M k M' k' (A & B & C) HM HK. pose proof u24_lt. pose proof (Rabs_pos d). split; [exact A|]. split; [lra|]. eapply Rle_trans; [exact C|].
  apply Rmult_le_compat; [nra|lra|nra|lra].
Qed.
Lemma app_round : forall x r d M k, ff x -> Rabs d <= M -> Rabs (r - d) <= k * u24 * M -> Rabs (R_of x - r) <= u24 * Rabs r + tiny -> 0 <= k <= 500 -> 1e-20 <= M -> app x d M (k + 1.005).
Proof.
  intros x r d M k A B C D HK HM. split; [exact A|]. split; [exact B|]. pose proof u24_lt as U. pose proof tiny_40 as T.
  replace (R_of x - d) with ((R_of x - r) + (r - d)) by ring. eapply Rle_trans; [apply Rabs_triang|].
  assert (Rabs r <= M + k * u24 * M). { replace r with (d + (r - d)) by ring. eapply Rle_trans; [apply Rabs_triang|]. lra. }
  assert (K : k * u24 <= 1e-4) by nra. assert (k * u24 * M <= 1e-4 * M) by nra. assert (u24 * Rabs r <= u24 * (1.0001 * M)) by nra.
  assert (1e-40 <= 1e-3 * (u24 * M)). { assert (5e-8 * 1e-20 <= u24 * M) by (apply Rmult_le_compat; lra). lra. } nra.
Qed.
Lemma app_mag : forall x d M k, app x d M k -> 0 <= k <= 500 -> Rabs (R_of x) <= 1.001 * M.
Proof.
  intros x d M k (A & B & C) HK. pose proof u24_lt as U. pose proof (Rabs_pos d). replace (R_of x) with (d + (R_of x - d)) by ring. eapply Rle_trans; [apply Rabs_triang|].
  assert (K : k * u24 <= 1e-4) by nra. nra.
Qed.
Lemma app_add : forall x a M y b N k, app x a M k -> app y b N k -> 0 <= k <= 200 -> 1e-20 <= M + N <= 1e25 -> app (fadd x y) (a + b) (M + N) (k + 1.01).
Proof.
  intros x a M y b N k X Y HK HM. pose proof (app_mag _ _ _ _ X ltac:(lra)) as MX. pose proof (app_mag _ _ _ _ Y ltac:(lra)) as MY. destruct X as (X1 & X2 & X3). destruct Y as (Y1 & Y2 & Y3).
  destruct (fadd_e x y X1 Y1) as (F & E). { eapply Rle_trans; [apply Rabs_triang|]. unfold huge. lra. }
  apply (app_weaken _ _ (M + N) (k + 1.005)); [|lra|lra]. apply (app_round _ (R_of x + R_of y)); [exact F| | |exact E|lra|lra].
  - eapply Rle_trans; [apply Rabs_triang|]. lra.
  - replace (R_of x + R_of y - (a + b)) with ((R_of x - a) + (R_of y - b)) by ring. eapply Rle_trans; [apply Rabs_triang|]. lra.
Qed.
Lemma app_sub : forall x a M y b N k, app x a M k -> app y b N k -> 0 <= k <= 200 -> 1e-20 <= M + N <= 1e25 -> app (fsub x y) (a - b) (M + N) (k + 1.01).
Proof.
  intros x a M y b N k X Y HK HM. pose proof (app_mag _ _ _ _ X ltac:(lra)) as MX. pose proof (app_mag _ _ _ _ Y ltac:(lra)) as MY. destruct X as (X1 & X2 & X3). destruct Y as (Y1 & Y2 & Y3).
  destruct (fsub_e x y X1 Y1) as (F & E). { eapply Rle_trans; [apply Rabs_triang|]. rewrite Rabs_Ropp. unfold huge. lra. }
  apply (app_weaken _ _ (M + N) (k + 1.005)); [|lra|lra]. apply (app_round _ (R_of x - R_of y)); [exact F| | |exact E|lra|lra].
  - eapply Rle_trans; [apply Rabs_triang|]. rewrite Rabs_Ropp. lra.
  - replace (R_of x - R_of y - (a - b)) with ((R_of x - a) + - (R_of y - b)) by ring. eapply Rle_trans; [apply Rabs_triang|]. rewrite Rabs_Ropp. lra.
Qed.
Lemma app_mul : forall x a M k y b N j, app x a M k -> app y b N j -> 0 <= k <= 200 -> 0 <= j <= 200 -> 1e-20 <= M * N <= 1e25 -> app (fmul x y) (a * b) (M * N) (k + j + 1.01).
Proof.
  intros x a M k y b N j X Y HK HJ HM. pose proof (app_mag _ _ _ _ X ltac:(lra)) as MX. pose proof (app_mag _ _ _ _ Y ltac:(lra)) as MY. destruct X as (X1 & X2 & X3). destruct Y as (Y1 & Y2 & Y3).
  pose proof (Rabs_pos a) as PA. pose proof (Rabs_pos b) as PB. pose proof (Rabs_pos (R_of x)) as PX. pose proof (Rabs_pos (R_of y)) as PY. pose proof u24_lt as U.
  assert (0 <= M /\ 0 <= N) as [M0 N0] by lra.
  destruct (fmul_e x y X1 Y1) as (F & E). { rewrite Rabs_mult. apply (Rle_trans _ ((1.001 * M) * (1.001 * N))); [now apply Rmult_le_compat|]. unfold huge. nra. }
  apply (app_weaken _ _ (M * N) (k + j + 0.003 + 1.005)); [|lra|lra]. apply (app_round _ (R_of x * R_of y)); [exact F| | |exact E|lra|lra].
  - rewrite Rabs_mult. now apply Rmult_le_compat.
  - replace (R_of x * R_of y - a * b) with ((R_of x - a) * b + (R_of x - a) * (R_of y - b) + a * (R_of y - b)) by ring. eapply Rle_trans; [apply Rabs_triang|]. eapply Rle_trans; [apply Rplus_le_compat_r, Rabs_triang|].
    rewrite !Rabs_mult.
    assert (H1 : Rabs (R_of x - a) * Rabs b <= k * u24 * M * N) by (apply Rmult_le_compat; try apply Rabs_pos; lra).
    assert (H2 : Rabs (R_of x - a) * Rabs (R_of y - b) <= (k * u24 * M) * (j * u24 * N)) by (apply Rmult_le_compat; try apply Rabs_pos; lra).
    assert (H3 : Rabs a * Rabs (R_of y - b) <= M * (j * u24 * N)) by (apply Rmult_le_compat; try apply Rabs_pos; lra).
    assert (H4 : (k * u24 * M) * (j * u24 * N) <= 0.003 * u24 * (M * N)).
    { replace (k * u24 * M * (j * u24 * N)) with ((k * j * u24) * (u24 * (M * N))) by ring. rewrite (Rmult_assoc 0.003). apply Rmult_le_compat_r; [nra|]. assert (k * j <= 40000) by nra. nra. }
    replace ((k + j + 0.003) * u24 * (M * N)) with (k * u24 * M * N + 0.003 * u24 * (M * N) + M * (j * u24 * N)) by ring. lra.
Qed.

(* the constants *)
Lemma sqrt2_near : forall v e, 0 < v - e -> (v - e) * (v - e) <= 2 -> 2 <= (v + e) * (v + e) -> 0 <= e -> Rabs (v - sqrt 2) <= e.
Proof.
  intros v e A B C D. assert (S : sqrt 2 * sqrt 2 = 2) by (apply sqrt_sqrt; lra). pose proof (sqrt_lt_R0 2 ltac:(lra)). apply Rabs_le. split; nra.
Qed.
Lemma sin_le_abs : forall x, Rabs (sin x) <= Rabs x.
Proof.
  intros x. destruct (Rtotal_order x 0) as [H|[->|H]].
  - rewrite (Rabs_left x) by exact H. pose proof (sin_lt_x (- x) ltac:(lra)) as A. rewrite sin_neg in A. destruct (Rle_lt_dec (-1) x) as [B|B].
    + assert (Q : 0 <= sin (- x)) by (apply sin_ge_0; pose proof PI_bounds; lra). rewrite sin_neg in Q. apply Rabs_le. lra.
    + pose proof (SIN_bound x). apply Rabs_le. lra.
  - rewrite sin_0. apply Rle_refl.
  - rewrite (Rabs_right x) by lra. pose proof (sin_lt_x x ltac:(lra)) as A. destruct (Rle_lt_dec x 1) as [B|B].
    + assert (Q : 0 <= sin x) by (apply sin_ge_0; pose proof PI_bounds; lra). apply Rabs_le. lra.
    + pose proof (SIN_bound x). apply Rabs_le. lra.
Qed.
Lemma cos_lip : forall a b, Rabs (cos a - cos b) <= Rabs (a - b).
Proof.
  intros a b. rewrite form2. rewrite !Rabs_mult. replace (Rabs (-2)) with 2 by (rewrite Rabs_left; lra).
  pose proof (sin_le_abs ((a - b) / 2)) as A. pose proof (SIN_bound ((a + b) / 2)) as B. assert (C : Rabs (sin ((a + b) / 2)) <= 1) by (apply Rabs_le; lra).
  assert (D : Rabs ((a - b) / 2) = Rabs (a - b) / 2) by (unfold Rdiv; rewrite Rabs_mult, (Rabs_right (/ 2)) by lra; reflexivity). rewrite D in A.
  pose proof (Rabs_pos (sin ((a - b) / 2))). pose proof (Rabs_pos (sin ((a + b) / 2))). nra.
Qed.
Lemma sin_lip : forall a b, Rabs (sin a - sin b) <= Rabs (a - b).
Proof.
  intros a b. rewrite form4. rewrite !Rabs_mult. replace (Rabs 2) with 2 by (rewrite Rabs_right; lra).
  pose proof (sin_le_abs ((a - b) / 2)) as A. pose proof (COS_bound ((a + b) / 2)) as B. assert (C : Rabs (cos ((a + b) / 2)) <= 1) by (apply Rabs_le; lra).
  assert (D : Rabs ((a - b) / 2) = Rabs (a - b) / 2) by (unfold Rdiv; rewrite Rabs_mult, (Rabs_right (/ 2)) by lra; reflexivity). rewrite D in A.
  pose proof (Rabs_pos (sin ((a - b) / 2))). pose proof (Rabs_pos (cos ((a + b) / 2))). nra.
Qed.
Lemma nth_map_R : forall cosd sind n x, nth n (map R_of x) (a_int exact 0) = R_of (nth n x (a_int (f32_arith cosd sind) 0)).
Proof. intros cosd sind n x. cbn [f32_arith exact a_int]. destruct (of_Z_R 0) as [_ E]; [lia|]. rewrite <- E. apply map_nth. Qed.
Section Trig.
Context (cosd sind : f32 -> f32) (HT : accurate cosd sind).
Notation ar := (f32_arith cosd sind).
Lemma app_mh : app (a_mh ar) (a_mh exact) 1 1.
Proof.
  cbn [f32_arith exact a_mh]. assert (I : / sqrt 2 = sqrt 2 / 2). { assert (S : sqrt 2 * sqrt 2 = 2) by (apply sqrt_sqrt; lra). pose proof (sqrt_lt_R0 2 ltac:(lra)). apply (Rmult_eq_reg_r (sqrt 2)); [|lra]. rewrite Rinv_l by lra. lra. }
  split; [split; vm_compute; reflexivity|]. rewrite I.
  pose proof (sqrt2_near 1.41421356 1e-7 ltac:(lra) ltac:(lra) ltac:(lra) ltac:(lra)) as Q. apply Rabs_le_inv in Q. split; [rewrite Rabs_Ropp, Rabs_right by lra; lra|].
  R_val (d2f (dlit (-7071067811865475) 10000000000000000)).
  pose proof (sqrt2_near 1.41421356 4e-9 ltac:(lra) ltac:(lra) ltac:(lra) ltac:(lra)) as Q2. apply Rabs_le_inv in Q2. unfold u24. apply Rabs_le. lra.
Qed.
Lemma app_ms : app (a_ms ar) (a_ms exact) 1.5 1.
Proof.
  cbn [f32_arith exact a_ms]. split; [split; vm_compute; reflexivity|].
  pose proof (sqrt2_near 1.41421356 4e-9 ltac:(lra) ltac:(lra) ltac:(lra) ltac:(lra)) as Q. apply Rabs_le_inv in Q. split; [rewrite Rabs_Ropp, Rabs_right by lra; lra|].
  R_val (d2f (dlit (-1414213562373095) 1000000000000000)). unfold u24. apply Rabs_le. lra.
Qed.
Lemma app_two : app (a_two ar) (a_two exact) 2 0.
Proof. cbn [f32_arith exact a_two]. destruct (of_Z_R 2) as [A B]; [lia|]. split; [exact A|]. rewrite B. split; [rewrite Rabs_right; lra|]. rewrite Rminus_diag_eq by reflexivity. rewrite Rabs_R0. lra. Qed.
Lemma app_int : forall z, (0 <= z <= 1000)%Z -> app (a_int ar z) (a_int exact z) (IZR z) 0.
Proof.
  intros z Hz. cbn [f32_arith exact a_int]. destruct (of_Z_R z) as [A B]; [lia|]. split; [exact A|]. rewrite B. assert (0 <= IZR z) by (apply IZR_le; lia). split; [rewrite Rabs_right; lra|]. rewrite Rminus_diag_eq by reflexivity. rewrite Rabs_R0. lra.
Qed.
Lemma app_argh : app (a_argh ar 256) (a_argh exact 256) (2 * PI / 256) 1.1.
Proof.
  cbn [f32_arith exact a_argh]. pose proof PI_bounds as P. split; [split; vm_compute; reflexivity|]. split; [rewrite Rabs_right; lra|]. R_val (d2f (ddiv (dmul (d_of_Z 2) M_PI) (d_of_Z 256))). unfold u24. apply Rabs_le. lra.
Qed.

Definition ok_angle (l j q : Z) : Prop := (1 <= j /\ 1 <= l /\ 1 <= q /\ q * (j * l) <= 96)%Z.
Lemma app_angle : forall l j q, ok_angle l j q ->
  exists r, app (fmul (f_of_Z q) (fmul (f_of_Z (j * l)) (a_argh ar 256))) (IZR q * (IZR (j * l) * (2 * PI / 256))) r 3.12 /\ r <= 2.3563.
Proof.
  intros l j q (A & B & C & D). assert (1 <= j * l)%Z by nia. assert (1 <= q * (j * l))%Z by nia. assert (j * l <= 96 /\ q <= 96)%Z as [E F] by nia.
  pose proof PI_bounds as P. assert (L1 : 1 <= IZR (j * l) <= 96) by (split; apply IZR_le; lia). assert (L2 : 1 <= IZR q <= 96) by (split; apply IZR_le; lia).
  assert (L3 : IZR q * IZR (j * l) <= 96) by (rewrite <- mult_IZR; now apply IZR_le).
  exists (IZR q * (IZR (j * l) * (2 * PI / 256))). split.
  - apply (app_weaken _ _ (IZR q * (IZR (j * l) * (2 * PI / 256))) (0 + (0 + 1.1 + 1.01) + 1.01)); [|lra|lra].
    apply app_mul; [apply app_int; lia| |lra|lra|]. 2:{ assert (0.02 <= IZR (j * l) * (2 * PI / 256) <= 3) by nra. nra. }
    apply app_mul; [apply app_int; lia|apply app_argh|lra|lra|nra].
  - replace (IZR q * (IZR (j * l) * (2 * PI / 256))) with ((IZR q * IZR (j * l)) * (2 * PI / 256)) by ring. nra.
Qed.
Lemma app_tw : forall c d l j q, ok_angle l j q -> app (eval ar c (tw_cos l j q)) (eval exact d (tw_cos l j q)) 1 10 /\ app (eval ar c (tw_sin l j q)) (eval exact d (tw_sin l j q)) 1 10.
Proof.
  intros c d l j q H. destruct (app_angle l j q H) as (r & X & Y). pose proof (app_mag _ _ _ _ X ltac:(lra)) as MG. destruct X as (X1 & X2 & X3).
  unfold tw_cos, tw_sin. cbn [eval]. change (a_int ar) with f_of_Z. change (a_mul ar) with fmul. change (a_int exact) with IZR. change (a_mul exact) with Rmult. change (a_argh exact 256) with (2 * PI / 256). change (a_cos exact) with cos. change (a_sin exact) with sin.
  change (a_cos ar) with (fun x => f_canon (cosd x)). change (a_sin ar) with (fun x => f_canon (sind x)). cbv beta.
  set (x := fmul (f_of_Z q) (fmul (f_of_Z (j * l)) (a_argh ar 256))) in *. set (t := IZR q * (IZR (j * l) * (2 * PI / 256))) in *.
  destruct (HT x X1 ltac:(lra)) as (C1 & S1 & C2 & S2). pose proof u24_lt as U. assert (E : Rabs (R_of x - t) <= 7.4 * u24). { eapply Rle_trans; [exact X3|]. assert (0 <= r) by (pose proof (Rabs_pos t); lra). nra. }
  replace (/ 8388608) with (2 * u24) in * by (unfold u24; lra). split.
  - split; [exact C1|]. split; [apply Rabs_le; apply COS_bound|]. replace (R_of (f_canon (cosd x)) - cos t) with ((R_of (f_canon (cosd x)) - cos (R_of x)) + (cos (R_of x) - cos t)) by ring.
    eapply Rle_trans; [apply Rabs_triang|]. pose proof (cos_lip (R_of x) t). lra.
  - split; [exact S1|]. split; [apply Rabs_le; apply SIN_bound|]. replace (R_of (f_canon (sind x)) - sin t) with ((R_of (f_canon (sind x)) - sin (R_of x)) + (sin (R_of x) - sin t)) by ring.
    eapply Rle_trans; [apply Rabs_triang|]. pose proof (sin_lip (R_of x) t). lra.
Qed.

(* terms *)
Section Terms.
Context (c : Z -> f32) (d : Z -> R) (M e : R) (HE : 0 <= e <= 100) (HM : 1e-15 <= M <= 1e22) (HC : forall i, app (c i) (d i) M e).
Definition ap (t : term) (w k : R) : Prop := app (eval ar c t) (eval exact d t) (w * M) (e + k).
Lemma ap_weak : forall t w k w' k', ap t w k -> w <= w' -> 0 <= k <= k' -> ap t w' k'.
Proof. intros t w k w' k' H A B. apply (app_weaken _ _ (w * M) (e + k)); [exact H|nra|lra]. Qed.
Lemma ap_in : forall i, ap (In i) 1 0.
Proof. intros i. unfold ap. cbn [eval]. rewrite Rmult_1_l, Rplus_0_r. apply HC. Qed.
Lemma ap_add : forall s t v w k, ap s v k -> ap t w k -> 0 <= k <= 90 -> 0 <= v -> 0 <= w -> 0.01 <= v + w <= 100 -> ap (Add s t) (v + w) (k + 1.01).
Proof. intros s t v w k A B K V W H. unfold ap in *. rewrite Rmult_plus_distr_r. rewrite <- Rplus_assoc. cbn [eval]. apply app_add; [exact A|exact B|lra|]. rewrite <- Rmult_plus_distr_r. nra. Qed.
Lemma ap_sub : forall s t v w k, ap s v k -> ap t w k -> 0 <= k <= 90 -> 0 <= v -> 0 <= w -> 0.01 <= v + w <= 100 -> ap (Sub s t) (v + w) (k + 1.01).
Proof. intros s t v w k A B K V W H. unfold ap in *. rewrite Rmult_plus_distr_r. rewrite <- Rplus_assoc. cbn [eval]. apply app_sub; [exact A|exact B|lra|]. rewrite <- Rmult_plus_distr_r. nra. Qed.
Lemma ap_mulr : forall t s v k n j, ap t v k -> app (eval ar c s) (eval exact d s) n j -> 0 <= k <= 90 -> 0 <= j <= 10 -> 0.01 <= v <= 100 -> 1 <= n <= 2 -> ap (Mul t s) (v * n) (k + (j + 1.01)).
Proof.
  intros t s v k n j A B K J V N. unfold ap in *. replace (v * n * M) with (v * M * n) by ring. replace (e + (k + (j + 1.01))) with (e + k + j + 1.01) by ring. cbn [eval]. apply app_mul; [exact A|exact B|lra|lra|].
  assert (1e-17 <= v * M <= 1e24) by nra. nra.
Qed.
Lemma ap_mull : forall t s v k n j, ap t v k -> app (eval ar c s) (eval exact d s) n j -> 0 <= k <= 90 -> 0 <= j <= 10 -> 0.01 <= v <= 100 -> 1 <= n <= 2 -> ap (Mul s t) (v * n) (k + (j + 1.01)).
Proof.
  intros t s v k n j A B K J V N. unfold ap in *. replace (v * n * M) with (n * (v * M)) by ring. replace (e + (k + (j + 1.01))) with (j + (e + k) + 1.01) by ring. cbn [eval]. apply app_mul; [exact B|exact A|lra|lra|].
  assert (1e-17 <= v * M <= 1e24) by nra. nra.
Qed.
(* both halves of a product with a twiddle *)
Lemma ap_conj : forall x y v k l j q, ap x v k -> ap y v k -> ok_angle l j q -> 0 <= k <= 60 -> 0.01 <= v <= 20 ->
  ap (fst (cplxmulconj terms x y (tw_cos l j q) (tw_sin l j q))) (2 * v) (k + 12.02) /\ ap (snd (cplxmulconj terms x y (tw_cos l j q) (tw_sin l j q))) (2 * v) (k + 12.02).
Proof.
  intros x y v k l j q X Y Q K V. destruct (app_tw c d l j q Q) as [C S]. unfold cplxmulconj. cbn [fst snd]. change (a_add terms) with Add. change (a_sub terms) with Sub. change (a_mul terms) with Mul.
  split; (apply (ap_weak _ (v * 1 + v * 1) (k + (10 + 1.01) + 1.01)); [|lra|lra]); [apply ap_add|apply ap_sub]; try lra; apply ap_mulr; assumption || lra.
Qed.
Lemma ap_prod : forall x y v k l j q, ap x v k -> ap y v k -> ok_angle l j q -> 0 <= k <= 60 -> 0.01 <= v <= 20 ->
  ap (fst (cplxmul terms x y (tw_cos l j q) (tw_sin l j q))) (2 * v) (k + 12.02) /\ ap (snd (cplxmul terms x y (tw_cos l j q) (tw_sin l j q))) (2 * v) (k + 12.02).
Proof.
  intros x y v k l j q X Y Q K V. destruct (app_tw c d l j q Q) as [C S]. unfold cplxmul. cbn [fst snd]. change (a_add terms) with Add. change (a_sub terms) with Sub. change (a_mul terms) with Mul.
  split; (apply (ap_weak _ (v * 1 + v * 1) (k + (10 + 1.01) + 1.01)); [|lra|lra]); [apply ap_sub|apply ap_add]; try lra; apply ap_mulr; assumption || lra.
Qed.
Lemma ap_add0 : forall i j, ap (Add (In i) (In j)) 2 1.01.
Proof. intros i j. apply (ap_weak _ (1 + 1) (0 + 1.01)); [|lra|lra]. apply ap_add; try apply ap_in; lra. Qed.
Lemma ap_sub0 : forall i j, ap (Sub (In i) (In j)) 2 1.01.
Proof. intros i j. apply (ap_weak _ (1 + 1) (0 + 1.01)); [|lra|lra]. apply ap_sub; try apply ap_in; lra. Qed.
Definition sum (f : term -> term -> term) : Prop := f = Add \/ f = Sub.
Lemma ap_sum : forall f s t v w k, sum f -> ap s v k -> ap t w k -> 0 <= k <= 90 -> 0 <= v -> 0 <= w -> 0.01 <= v + w <= 100 -> ap (f s t) (v + w) (k + 1.01).
Proof. intros f s t v w k [-> | ->]; [apply ap_add|apply ap_sub]. Qed.
Lemma ap_sum0 : forall f i j, sum f -> ap (f (In i) (In j)) 2 1.01.
Proof. intros f i j [-> | ->]; [apply ap_add0|apply ap_sub0]. Qed.
Lemma s_add : sum Add. Proof. now left. Qed.
Lemma s_sub : sum Sub. Proof. now right. Qed.
Lemma ap_sum4 : forall f g h i j k l, sum f -> sum g -> sum h -> ap (f (g (In i) (In j)) (h (In k) (In l))) 4 2.02.
Proof. intros f g h i j k l F G H. apply (ap_weak _ (2 + 2) (1.01 + 1.01)); [|lra|lra]. apply ap_sum; try apply ap_sum0; assumption || lra. Qed.
Lemma ap_mh : forall f i j, sum f -> ap (Mul Mh (f (In i) (In j))) 2 3.02.
Proof. intros f i j F. apply (ap_weak _ (2 * 1) (1.01 + (1 + 1.01))); [|lra|lra]. apply ap_mull; [now apply ap_sum0|apply app_mh|lra|lra|lra|lra]. Qed.
Lemma ap_mh1 : forall f g i j k, sum f -> sum g -> ap (g (Mul Mh (f (In i) (In j))) (In k)) 3 4.03.
Proof.
  intros f g i j k F G. apply (ap_weak _ (2 + 1) (3.02 + 1.01)); [|lra|lra]. apply ap_sum; [exact G|now apply ap_mh| |lra|lra|lra|lra]. apply (ap_weak _ 1 0); [apply ap_in|lra|lra].
Qed.
Lemma ap_mh2 : forall f g i j k, sum f -> sum g -> ap (g (In k) (Mul Mh (f (In i) (In j)))) 3 4.03.
Proof.
  intros f g i j k F G. apply (ap_weak _ (1 + 2) (3.02 + 1.01)); [|lra|lra]. apply ap_sum; [exact G| |now apply ap_mh|lra|lra|lra|lra]. apply (ap_weak _ 1 0); [apply ap_in|lra|lra].
Qed.
(* the sum of four terms of which the first is an input and the others are twiddled *)
Lemma ap_four : forall f g h x0 x1 x2 x3, sum f -> sum g -> sum h -> ap x0 1 0 -> ap x1 2 12.02 -> ap x2 2 12.02 -> ap x3 2 12.02 ->
  ap (f (g x1 x3) (h x0 x2)) 7 14.1 /\ ap (f (h x0 x2) (g x1 x3)) 7 14.1.
Proof.
  intros f g h x0 x1 x2 x3 F G H A0 A1 A2 A3.
  assert (P : ap (g x1 x3) 4 13.03). { apply (ap_weak _ (2 + 2) (12.02 + 1.01)); [|lra|lra]. apply ap_sum; assumption || lra. }
  assert (Q : ap (h x0 x2) 3 13.03). { apply (ap_weak _ (1 + 2) (12.02 + 1.01)); [|lra|lra]. apply ap_sum; try assumption; try lra. apply (ap_weak _ 1 0); [exact A0|lra|lra]. }
  split; [apply (ap_weak _ (4 + 3) (13.03 + 1.01))|apply (ap_weak _ (3 + 4) (13.03 + 1.01))]; try lra; apply ap_sum; assumption || lra.
Qed.
Lemma ap_four' : forall f g h x0 x1 x2 x3, sum f -> sum g -> sum h -> ap x0 1 0 -> ap x1 2 12.02 -> ap x2 2 12.02 -> ap x3 2 12.02 -> ap (f (g x3 x1) (h x0 x2)) 7 14.1.
Proof. intros f g h x0 x1 x2 x3 F G H A0 A1 A2 A3. exact (proj1 (ap_four f g h x0 x3 x2 x1 F G H A0 A3 A2 A1)). Qed.

Lemma quarter_q : forall m r, (0 < m -> 0 <= r < 4 * m -> r <> 0 -> r <> 4 * m - 1 -> r <> 2 * m - 1 -> r <> 2 * m ->
  let f := (r + 1) / 2 in let t := 2 * f / m in let q := if t =? 0 then f else if t =? 1 then m - f else if t =? 2 then f - m else 2 * m - f in 1 <= q /\ 2 * q <= m)%Z.
Proof.
  intros m r Hm Hr N0 N1 N2 N3 f t q. assert (F : (2 * f <= r + 1 < 2 * f + 2)%Z) by (unfold f; pose proof (Z.div_mod (r + 1) 2 ltac:(lia)); pose proof (Z.mod_pos_bound (r + 1) 2 ltac:(lia)); lia).
  assert (T : (m * t <= 2 * f < m * t + m)%Z) by (unfold t; pose proof (Z.div_mod (2 * f) m ltac:(lia)); pose proof (Z.mod_pos_bound (2 * f) m ltac:(lia)); lia).
  unfold q. clearbody f t. clear q.
  destruct (Z.eqb_spec t 0) as [->|T0]; [lia|]. destruct (Z.eqb_spec t 1) as [->|T1]; [lia|]. destruct (Z.eqb_spec t 2) as [->|T2]; [lia|].
  assert (0 <= t)%Z by nia. assert (3 <= t)%Z by lia. assert (3 * m <= m * t)%Z by nia. lia.
Qed.
Lemma fterm_ap : forall m l k r, (0 < m -> 1 <= l -> 4 * m * l = 256 -> 0 <= r < 4 * m -> ap (fterm_at m l k r) 7 14.1)%Z.
Proof.
  intros m l k r Hm Hl HL Hr. pose proof s_add as SA. pose proof s_sub as SS. unfold fterm_at.
  destruct (Z.eqb_spec r 0) as [E|N0]; [apply (ap_weak _ 4 2.02); [now apply ap_sum4|lra|lra]|].
  destruct (Z.eqb_spec r (4 * m - 1)) as [E|N1]; [apply (ap_weak _ 4 2.02); [now apply ap_sum4|lra|lra]|].
  destruct (Z.eqb_spec r (2 * m - 1)) as [E|N2]; [apply (ap_weak _ 2 1.01); [now apply ap_sum0|lra|lra]|].
  destruct (Z.eqb_spec r (2 * m)) as [E|N3]; [apply (ap_weak _ 2 1.01); [now apply ap_sum0|lra|lra]|].
  destruct (Z.eqb_spec r (m - 1)) as [E|N4]; [apply (ap_weak _ 3 4.03); [now apply ap_mh1|lra|lra]|].
  destruct (Z.eqb_spec r (3 * m - 1)) as [E|N5]; [apply (ap_weak _ 3 4.03); [now apply ap_mh2|lra|lra]|].
  destruct (Z.eqb_spec r m) as [E|N6]; [apply (ap_weak _ 3 4.03); [now apply ap_mh1|lra|lra]|].
  destruct (Z.eqb_spec r (3 * m)) as [E|N7]; [apply (ap_weak _ 3 4.03); [now apply ap_mh1|lra|lra]|].
  pose proof (quarter_q m r Hm Hr N0 N1 N2 N3) as Q. cbv zeta in Q |- *.
  set (f := ((r + 1) / 2)%Z) in *. set (t := (2 * f / m)%Z) in *. set (q := (if (t =? 0)%Z then f else if (t =? 1)%Z then (m - f)%Z else if (t =? 2)%Z then (f - m)%Z else (2 * m - f)%Z)) in *.
  clearbody q. clearbody t. change (0 =? 0)%Z with true. change (1 =? 0)%Z with false. change (2 =? 0)%Z with false. change (3 =? 0)%Z with false. cbv iota.
  assert (OK : forall j, (1 <= j <= 3)%Z -> ok_angle l j q). { intros j Hj. unfold ok_angle. assert (q * l <= 32)%Z by nia. replace (q * (j * l))%Z with (j * (q * l))%Z by ring. repeat split; try lia. nia. }
  assert (A : forall j, (1 <= j <= 3)%Z -> ap (fst (cplxmulconj terms (In (m * (k + l * j) + (2 * q - 1))) (In (m * (k + l * j) + 2 * q)) (tw_cos l j q) (tw_sin l j q))) 2 12.02 /\
    ap (snd (cplxmulconj terms (In (m * (k + l * j) + (2 * q - 1))) (In (m * (k + l * j) + 2 * q)) (tw_cos l j q) (tw_sin l j q))) 2 12.02).
  { intros j Hj. destruct (ap_conj _ _ 1 0 l j q (ap_in (m * (k + l * j) + (2 * q - 1))) (ap_in (m * (k + l * j) + 2 * q)) (OK j Hj) ltac:(lra) ltac:(lra)) as [A1 A2]. split; [apply (ap_weak _ _ _ _ _ A1)|apply (ap_weak _ _ _ _ _ A2)]; lra. }
  destruct (A 1%Z ltac:(lia)) as [R1 I1]. destruct (A 2%Z ltac:(lia)) as [R2 I2]. destruct (A 3%Z ltac:(lia)) as [R3 I3]. clear A OK.
  destruct (cplxmulconj terms (In (m * (k + l * 1) + (2 * q - 1))) (In (m * (k + l * 1) + 2 * q)) (tw_cos l 1 q) (tw_sin l 1 q)) as [r1 i1].
  destruct (cplxmulconj terms (In (m * (k + l * 2) + (2 * q - 1))) (In (m * (k + l * 2) + 2 * q)) (tw_cos l 2 q) (tw_sin l 2 q)) as [r2 i2].
  destruct (cplxmulconj terms (In (m * (k + l * 3) + (2 * q - 1))) (In (m * (k + l * 3) + 2 * q)) (tw_cos l 3 q) (tw_sin l 3 q)) as [r3 i3]. cbn [fst snd] in *.
  pose proof (ap_in (m * (k + l * 0) + (2 * q - 1))) as R0. pose proof (ap_in (m * (k + l * 0) + 2 * q)) as I0.
  destruct (Z.odd r), (t =? 0)%Z, (t =? 3)%Z, (t =? 2)%Z; first [apply ap_four; assumption | apply ap_four'; assumption].
Qed.
Lemma fterm_ap1 : forall k r, (0 <= r < 4)%Z -> ap (fterm_at 1 64 k r) 4 2.02.
Proof.
  intros k r Hr. pose proof s_add as SA. pose proof s_sub as SS. unfold fterm_at. assert (C : (r = 0 \/ r = 1 \/ r = 2 \/ r = 3)%Z) by lia.
  destruct C as [->|[->|[->| ->]]]; cbn [Z.eqb Pos.eqb Z.mul Pos.mul Z.sub Z.add Z.opp Pos.add Z.pos_sub Pos.pred_double].
  - now apply ap_sum4.
  - apply (ap_weak _ 2 1.01); [now apply ap_sum0|lra|lra].
  - apply (ap_weak _ 2 1.01); [now apply ap_sum0|lra|lra].
  - now apply ap_sum4.
Qed.
Lemma bterm_ap1 : forall m l k j, ap (bterm_at m l k j 0) 4 2.02.
Proof.
  intros m l k j. pose proof s_add as SA. pose proof s_sub as SS. unfold bterm_at. cbn [Z.eqb]. cbv zeta.
  assert (T : forall i, ap (Mul Two (In i)) 2 1.01). { intros i. apply (ap_weak _ (1 * 2) (0 + (0 + 1.01))); [|lra|lra]. apply ap_mull; [apply ap_in|apply app_two|lra|lra|lra|lra]. }
  assert (G : forall f g a b x, sum f -> sum g -> ap (f (g (In a) (In b)) (Mul Two (In x))) 4 2.02).
  { intros f g a b x F G. apply (ap_weak _ (2 + 2) (1.01 + 1.01)); [|lra|lra]. apply ap_sum; [exact F|now apply ap_sum0|apply T|lra|lra|lra|lra]. }
  destruct (j =? 0)%Z, (j =? 1)%Z, (j =? 2)%Z; now apply G.
Qed.
Lemma bterm_ap : forall m l k j r, (0 < m -> 1 <= l -> 4 * m * l = 256 -> 0 <= r < m -> ap (bterm_at m l k j r) 8 14.1)%Z.
Proof.
  intros m l k j r Hm Hl HL Hr. pose proof s_add as SA. pose proof s_sub as SS.
  destruct (Z.eqb_spec r 0) as [E|N0]; [subst r; apply (ap_weak _ 4 2.02); [apply bterm_ap1|lra|lra]|]. unfold bterm_at. rewrite (proj2 (Z.eqb_neq r 0) N0).
  destruct (Z.eqb_spec r (m - 1)) as [E|N1].
  { cbv zeta. assert (MS : forall f g h a b x y, sum f -> sum g -> sum h -> ap (Mul Ms (f (g (In a) (In b)) (h (In x) (In y)))) 8 14.1).
    { intros f g h a b x y F G H. apply (ap_weak _ (4 * 1.5) (2.02 + (1 + 1.01))); [|lra|lra]. apply ap_mull; [now apply ap_sum4|apply app_ms|lra|lra|lra|lra]. }
    assert (S4 : forall f g h a b x y, sum f -> sum g -> sum h -> ap (f (g (In a) (In b)) (h (In x) (In y))) 8 14.1) by (intros; apply (ap_weak _ 4 2.02); [now apply ap_sum4|lra|lra]).
    destruct (j =? 0)%Z; [now apply S4|]. destruct (j =? 1)%Z; [now apply MS|]. destruct (j =? 2)%Z; [now apply S4|now apply MS]. }
  cbv zeta. set (q := ((r + 1) / 2)%Z). assert (Q : (1 <= q /\ 2 * q <= m)%Z). { unfold q. pose proof (Z.div_mod (r + 1) 2 ltac:(lia)). pose proof (Z.mod_pos_bound (r + 1) 2 ltac:(lia)). lia. } clearbody q.
  assert (OK : forall j, (1 <= j <= 3)%Z -> ok_angle l j q). { intros j' Hj. unfold ok_angle. assert (q * l <= 32)%Z by nia. replace (q * (j' * l))%Z with (j' * (q * l))%Z by ring. repeat split; try lia. nia. }
  assert (P : forall j' x y, (1 <= j' <= 3)%Z -> ap x 4 2.02 -> ap y 4 2.02 -> ap (if Z.odd r then fst (cplxmul terms x y (tw_cos l j' q) (tw_sin l j' q)) else snd (cplxmul terms x y (tw_cos l j' q) (tw_sin l j' q))) 8 14.1).
  { intros j' x y Hj X Y. destruct (ap_prod x y 4 2.02 l j' q X Y (OK j' Hj) ltac:(lra) ltac:(lra)) as [A B]. destruct (Z.odd r); [apply (ap_weak _ _ _ _ _ A)|apply (ap_weak _ _ _ _ _ B)]; lra. }
  destruct (j =? 0)%Z; [cbn [fst snd]; destruct (Z.odd r); apply (ap_weak _ 4 2.02); try lra; now apply ap_sum4|].
  destruct (j =? 1)%Z; [apply P; [lia| |]; now apply ap_sum4|]. destruct (j =? 2)%Z; apply P; try lia; now apply ap_sum4.
Qed.
End Terms.

Definition all_app (c : Z -> f32) (d : Z -> R) (M e : R) : Prop := forall i, app (c i) (d i) M e.
Lemma fstep_app : forall m l c d M e, (0 < m -> 1 <= l -> 4 * m * l = 256)%Z -> (0 < m)%Z -> (1 <= l)%Z -> 0 <= e <= 100 -> 1e-15 <= M <= 1e22 -> all_app c d M e ->
  all_app (fstep ar m l c) (fstep exact m l d) (7 * M) (e + 14.1).
Proof. intros m l c d M e HL Hm Hl HE HM H p. unfold fstep, fterm. apply fterm_ap; auto. apply Z.mod_pos_bound. lia. Qed.
Lemma bstep_app : forall m l c d M e, (0 < m -> 1 <= l -> 4 * m * l = 256)%Z -> (0 < m)%Z -> (1 <= l)%Z -> 0 <= e <= 100 -> 1e-15 <= M <= 1e22 -> all_app c d M e ->
  all_app (bstep ar m l c) (bstep exact m l d) (8 * M) (e + 14.1).
Proof. intros m l c d M e HL Hm Hl HE HM H p. unfold bstep, bterm. apply bterm_ap; auto. apply Z.mod_pos_bound. lia. Qed.
Lemma bstep_app1 : forall c d M e, 0 <= e <= 100 -> 1e-15 <= M <= 1e22 -> all_app c d M e -> all_app (bstep ar 1 64 c) (bstep exact 1 64 d) (4 * M) (e + 2.02).
Proof. intros c d M e HE HM H p. unfold bstep, bterm. rewrite Z.mod_1_r. apply bterm_ap1; auto. Qed.
Lemma forward_app : forall c d B k, 1e-15 <= B <= 1e18 -> all_app c d B 0 -> app (forward ar c k) (forward exact d k) (1372 * B) 44.4.
Proof.
  intros c d B k HB H. unfold forward.
  assert (S1 : all_app (fstep ar 1 64 c) (fstep exact 1 64 d) (4 * B) 2.02).
  { intros p. unfold fstep, fterm. apply (app_weaken _ _ (4 * B) (0 + 2.02)); [|lra|lra]. apply fterm_ap1; auto; try lra. apply Z.mod_pos_bound. lia. }
  assert (S2 := fstep_app 4 16 _ _ (4 * B) 2.02 ltac:(lia) ltac:(lia) ltac:(lia) ltac:(lra) ltac:(lra) S1).
  assert (S3 := fstep_app 16 4 _ _ (7 * (4 * B)) (2.02 + 14.1) ltac:(lia) ltac:(lia) ltac:(lia) ltac:(lra) ltac:(lra) S2).
  assert (S4 := fstep_app 64 1 _ _ (7 * (7 * (4 * B))) (2.02 + 14.1 + 14.1) ltac:(lia) ltac:(lia) ltac:(lia) ltac:(lra) ltac:(lra) S3).
  apply (app_weaken _ _ _ _ _ _ (S4 (fwd_pos k))); lra.
Qed.
Lemma backward_app : forall c d B k, 1e-15 <= B <= 1e18 -> all_app c d B 0 -> app (backward ar c k) (backward exact d k) (2048 * B) 44.4.
Proof.
  intros c d B k HB H. unfold backward. assert (S0 : all_app (fun k => c (bwd_pos k)) (fun k => d (bwd_pos k)) B 0) by (intros p; apply H).
  assert (S1 := bstep_app 64 1 _ _ B 0 ltac:(lia) ltac:(lia) ltac:(lia) ltac:(lra) ltac:(lra) S0).
  assert (S2 := bstep_app 16 4 _ _ (8 * B) (0 + 14.1) ltac:(lia) ltac:(lia) ltac:(lia) ltac:(lra) ltac:(lra) S1).
  assert (S3 := bstep_app 4 16 _ _ (8 * (8 * B)) (0 + 14.1 + 14.1) ltac:(lia) ltac:(lia) ltac:(lia) ltac:(lra) ltac:(lra) S2).
  assert (S4 := bstep_app1 _ _ (8 * (8 * (8 * B))) (0 + 14.1 + 14.1 + 14.1) ltac:(lra) ltac:(lra) S3 k).
  apply (app_weaken _ _ _ _ _ _ S4); lra.
Qed.
Lemma env_app : forall x B, 0 <= B -> Forall (sized B) x -> all_app (env_of ar x) (env_of exact (map R_of x)) B 0.
Proof.
  intros x B HB H i. unfold env_of. rewrite (nth_map_R cosd sind).
  assert (S : sized B (nth (Z.to_nat i) x (a_int ar 0))).
  { destruct (nth_in_or_default (Z.to_nat i) x (a_int ar 0)) as [K|K]; [exact (proj1 (Forall_forall _ _) H _ K)|]. rewrite K. destruct (of_Z_R 0) as [A E]; [lia|]. split; [exact A|]. cbn [f32_arith a_int]. rewrite E. rewrite Rabs_R0. exact HB. }
  destruct S as [A C]. split; [exact A|]. split; [exact C|]. rewrite Rminus_diag_eq by reflexivity. rewrite Rabs_R0. lra.
Qed.
End Trig.

Lemma Forall2_nth_intro : forall {A B} (P : A -> B -> Prop) x y a b, length x = length y -> (forall n, (n < length x)%nat -> P (nth n x a) (nth n y b)) -> Forall2 P x y.
Proof.
  intros A B P x. induction x as [|v x IH]; intros [|w y] a b L H; try discriminate L; constructor.
  - exact (H 0%nat ltac:(cbn; lia)).
  - apply (IH y a b); [cbn in L; lia|]. intros n Hn. exact (H (S n) ltac:(cbn; lia)).
Qed.
Lemma Forall2_nth_elim : forall {A B} (P : A -> B -> Prop) x y a b n, Forall2 P x y -> (n < length x)%nat -> P (nth n x a) (nth n y b).
Proof. intros A B P x y a b n H. revert n. induction H as [|v w x y V H IH]; intros n Hn; [cbn in Hn; lia|]. destruct n as [|n]; [exact V|]. apply IH. cbn in Hn. lia. Qed.
Lemma Forall2_len : forall {A B} (P : A -> B -> Prop) x y, Forall2 P x y -> length x = length y.
Proof. intros A B P x y H. induction H; cbn; congruence. Qed.
Lemma zs_length : forall {A} (g : Z -> A), length (map g (zs 256)) = 256%nat.
Proof. intros. unfold zs. now rewrite !map_length, seq_length. Qed.

Theorem fft_error : forall cosd sind x B out scr, accurate cosd sind -> 1e-15 <= B <= 1e18 -> Forall (sized B) x -> length x = 256%nat -> length out = 256%nat -> length scr = 256%nat ->
  exists y, fft256 (f32_arith cosd sind) x out scr = Ok y /\ Forall2 (fun v r => near v r (B / 256)) y (packed (bin_re (map R_of x)) (bin_im (map R_of x))).
Proof.
  intros cosd sind x B out scr HT HB H L Lo Ls. rewrite fft256_run by assumption. eexists. split; [reflexivity|].
  assert (Lm : length (map R_of x) = 256%nat) by now rewrite map_length.
  assert (E : packed (bin_re (map R_of x)) (bin_im (map R_of x)) = map (forward exact (env_of exact (map R_of x))) (zs 256)).
  { pose proof (fft_exact (map R_of x) (fresh 256) (fresh 256) Lm eq_refl eq_refl) as E. rewrite fft256_run in E by (try exact Lm; reflexivity). congruence. }
  rewrite E. apply (Forall2_nth_intro _ _ _ fzero 0); [now rewrite !zs_length|]. rewrite zs_length. intros n Hn. rewrite !map_zs_nth by exact Hn.
  destruct (forward_app cosd sind HT _ _ B (Z.of_nat n) HB (env_app cosd sind x B ltac:(lra) H)) as (A1 & _ & A3). split; [exact A1|]. eapply Rle_trans; [exact A3|]. unfold u24. lra.
Qed.
Theorem ifft_error : forall cosd sind x B out scr, accurate cosd sind -> 1e-15 <= B <= 1e18 -> Forall (sized B) x -> length x = 256%nat -> length out = 256%nat -> length scr = 256%nat ->
  exists y, ifft256 (f32_arith cosd sind) x out scr = Ok y /\ Forall2 (fun v r => near v r (B / 128)) y (map (synthesis (map R_of x)) (seq 0 256)).
Proof.
  intros cosd sind x B out scr HT HB H L Lo Ls. rewrite ifft256_run by assumption. eexists. split; [reflexivity|].
  assert (Lm : length (map R_of x) = 256%nat) by now rewrite map_length.
  assert (E : map (synthesis (map R_of x)) (seq 0 256) = map (backward exact (env_of exact (map R_of x))) (zs 256)).
  { pose proof (ifft_exact (map R_of x) (fresh 256) (fresh 256) Lm eq_refl eq_refl) as E. rewrite ifft256_run in E by (try exact Lm; reflexivity). congruence. }
  rewrite E. apply (Forall2_nth_intro _ _ _ fzero 0); [now rewrite !zs_length|]. rewrite zs_length. intros n Hn. rewrite !map_zs_nth by exact Hn.
  destruct (backward_app cosd sind HT _ _ B (Z.of_nat n) HB (env_app cosd sind x B ltac:(lra) H)) as (A1 & _ & A3). split; [exact A1|]. eapply Rle_trans; [exact A3|]. unfold u24. lra.
Qed.

(* sums of bounded terms *)
Lemma total_bound : forall n f b, (forall k, (k < n)%nat -> Rabs (f k) <= b) -> Rabs (total n f) <= INR n * b.
Proof.
  induction n as [|n IH]; intros f b H; cbn [total]; [rewrite Rabs_R0; cbn; lra|]. rewrite S_INR. eapply Rle_trans; [apply Rabs_triang|]. pose proof (IH f b (fun k K => H k ltac:(lia))). pose proof (H n ltac:(lia)). lra.
Qed.
Lemma total_minus : forall n f g, total n f - total n g = total n (fun k => f k - g k).
Proof. induction n as [|n IH]; intros f g; cbn [total]; [ring|]. rewrite <- IH. ring. Qed.
Lemma unit_cos : forall a t, Rabs (a * cos t) <= Rabs a.
Proof. intros a t. rewrite Rabs_mult. pose proof (Rabs_pos a). assert (Rabs (cos t) <= 1) by (apply Rabs_le, COS_bound). nra. Qed.
Lemma unit_sin : forall a t, Rabs (a * sin t) <= Rabs a.
Proof. intros a t. rewrite Rabs_mult. pose proof (Rabs_pos a). assert (Rabs (sin t) <= 1) by (apply Rabs_le, SIN_bound). nra. Qed.
Lemma synthesis_close : forall y z e m, (forall k, (k < 256)%nat -> Rabs (sample y k - sample z k) <= e) -> Rabs (synthesis y m - synthesis z m) <= 510 * e.
Proof.
  intros y z e m H. unfold synthesis.
  match goal with |- Rabs (?a + ?b * ?c + 2 * ?s - (?d + ?f * ?c + 2 * ?t)) <= _ => replace (a + b * c + 2 * s - (d + f * c + 2 * t)) with ((a - d) + (b - f) * c + 2 * (s - t)) by ring end.
  rewrite total_minus. eapply Rle_trans; [apply Rabs_triang|]. rewrite (Rabs_mult 2). rewrite (Rabs_right 2) by lra.
  assert (T : forall k, (k < 127)%nat -> Rabs (sample y (2 * S k) * cos (turn (S k) m) - sample y (2 * S k + 1) * sin (turn (S k) m) - (sample z (2 * S k) * cos (turn (S k) m) - sample z (2 * S k + 1) * sin (turn (S k) m))) <= 2 * e).
  { intros k K. match goal with |- Rabs (?a * ?c - ?b * ?s - (?d * ?c - ?f * ?s)) <= _ => replace (a * c - b * s - (d * c - f * s)) with ((a - d) * c + - ((b - f) * s)) by ring end.
    eapply Rle_trans; [apply Rabs_triang|]. rewrite Rabs_Ropp. pose proof (H (2 * S k)%nat ltac:(lia)). pose proof (H (2 * S k + 1)%nat ltac:(lia)).
    pose proof (unit_cos (sample y (2 * S k) - sample z (2 * S k)) (turn (S k) m)). pose proof (unit_sin (sample y (2 * S k + 1) - sample z (2 * S k + 1)) (turn (S k) m)). lra. }
  apply total_bound in T. replace (INR 127) with 127 in T by (rewrite INR_IZR_INZ; reflexivity).
  pose proof (Rabs_triang (sample y 0 - sample z 0) ((sample y 1 - sample z 1) * cos (turn 128 m))) as A. pose proof (unit_cos (sample y 1 - sample z 1) (turn 128 m)) as A1. pose proof (H 0%nat ltac:(lia)). pose proof (H 1%nat ltac:(lia)). lra.
Qed.
Lemma bins_bound : forall x B k, (forall m, (m < 256)%nat -> Rabs (sample x m) <= B) -> Rabs (bin_re x k) <= 256 * B /\ Rabs (bin_im x k) <= 256 * B.
Proof.
  intros x B k H. replace 256 with (INR 256) by (rewrite INR_IZR_INZ; reflexivity). unfold bin_re, bin_im. rewrite Rabs_Ropp. split; apply total_bound; intros m Hm.
  - eapply Rle_trans; [apply unit_cos|now apply H].
  - eapply Rle_trans; [apply unit_sin|now apply H].
Qed.
Lemma packed_bound : forall x B, (forall m, (m < 256)%nat -> Rabs (sample x m) <= B) -> Forall (fun r => Rabs r <= 256 * B) (packed (bin_re x) (bin_im x)).
Proof.
  intros x B H. unfold packed. constructor; [now apply bins_bound|]. constructor; [now apply bins_bound|]. apply Forall_forall. intros r K. apply in_flat_map in K. destruct K as (k & _ & [<-|[<-|[]]]); now apply bins_bound.
Qed.
Lemma sized_sample : forall x B, length x = 256%nat -> Forall (sized B) x -> forall m, (m < 256)%nat -> Rabs (sample (map R_of x) m) <= B.
Proof.
  intros x B L H m Hm. unfold sample. rewrite nth_indep with (d' := R_of fzero) by (rewrite map_length; lia). rewrite map_nth. apply (proj1 (Forall_forall _ _) H). apply nth_In. lia.
Qed.
Theorem roundtrip_error : forall cosd sind x B y out scr out' scr', accurate cosd sind -> 1e-15 <= B <= 1e15 -> Forall (sized B) x -> length x = 256%nat -> length out = 256%nat -> length scr = 256%nat ->
  length out' = 256%nat -> length scr' = 256%nat -> fft256 (f32_arith cosd sind) x out scr = Ok y ->
  exists z, ifft256 (f32_arith cosd sind) y out' scr' = Ok z /\ Forall2 (fun v a => near v (256 * R_of a) (5 * B)) z x.
Proof.
  intros cosd sind x B y out scr out' scr' HT HB H L Lo Ls Lo' Ls' EY.
  destruct (fft_error cosd sind x B out scr HT ltac:(lra) H L Lo Ls) as (y' & E & F). rewrite E in EY. assert (y' = y) by congruence. subst y'. clear EY.
  set (P := packed (bin_re (map R_of x)) (bin_im (map R_of x))) in *. assert (LP : length P = 256%nat) by apply packed_length. assert (Ly : length y = 256%nat) by (rewrite (Forall2_len _ _ _ F); exact LP).
  pose proof (packed_bound (map R_of x) B (sized_sample x B L H)) as PB. fold P in PB.
  assert (SY : Forall (sized (257 * B)) y).
  { apply Forall_forall. intros v K. apply (In_nth _ _ fzero) in K. destruct K as (n & Hn & <-). pose proof (Forall2_nth_elim _ _ _ fzero 0 n F Hn) as [A1 A2]. split; [exact A1|].
    assert (Rabs (nth n P 0) <= 256 * B) by (apply (proj1 (Forall_forall _ _) PB), nth_In; lia). replace (R_of (nth n y fzero)) with ((R_of (nth n y fzero) - nth n P 0) + nth n P 0) by ring. eapply Rle_trans; [apply Rabs_triang|]. lra. }
  destruct (ifft_error cosd sind y (257 * B) out' scr' HT ltac:(lra) SY Ly Lo' Ls') as (z & EZ & FZ). exists z. split; [exact EZ|].
  assert (Lz : length z = 256%nat) by (rewrite (Forall2_len _ _ _ FZ), map_length, seq_length; reflexivity).
  assert (X : map (synthesis P) (seq 0 256) = map (Rmult 256) (map R_of x)).
  { assert (Lm : length (map R_of x) = 256%nat) by now rewrite map_length.
    pose proof (roundtrip_exact (map R_of x) P (fresh 256) (fresh 256) (fresh 256) (fresh 256) Lm eq_refl eq_refl eq_refl eq_refl (fft_exact _ (fresh 256) (fresh 256) Lm eq_refl eq_refl)) as X. rewrite ifft_exact in X by (try exact LP; reflexivity). congruence. }
  apply (Forall2_nth_intro _ _ _ fzero fzero); [lia|]. rewrite Lz. intros n Hn. pose proof (Forall2_nth_elim _ _ _ fzero 0 n FZ ltac:(lia)) as [A1 A2]. split; [exact A1|].
  assert (S1 : nth n (map (synthesis (map R_of y)) (seq 0 256)) 0 = synthesis (map R_of y) n). { erewrite nth_indep by (rewrite map_length, seq_length; exact Hn). rewrite (map_nth (synthesis (map R_of y)) (seq 0 256) 0%nat). now rewrite seq_nth. }
  assert (S2 : synthesis P n = 256 * R_of (nth n x fzero)).
  { assert (Q : nth n (map (synthesis P) (seq 0 256)) 0 = synthesis P n) by (erewrite nth_indep by (rewrite map_length, seq_length; exact Hn); rewrite (map_nth (synthesis P) (seq 0 256) 0%nat); now rewrite seq_nth).
    rewrite <- Q, X, map_map. erewrite nth_indep by (rewrite map_length; lia). rewrite (map_nth (fun v => 256 * R_of v) x fzero). reflexivity. }
  rewrite S1 in A2. rewrite <- S2.
  assert (C : Rabs (synthesis (map R_of y) n - synthesis P n) <= 510 * (B / 256)).
  { apply synthesis_close. intros k Hk. unfold sample. rewrite nth_indep with (d' := R_of fzero) by (rewrite map_length; lia). rewrite map_nth. apply (Forall2_nth_elim _ _ _ fzero 0 k F ltac:(lia)). }
  replace (R_of (nth n z fzero) - synthesis P n) with ((R_of (nth n z fzero) - synthesis (map R_of y) n) + (synthesis (map R_of y) n - synthesis P n)) by ring. eapply Rle_trans; [apply Rabs_triang|]. lra.
Qed.

(* functions of this accuracy exist *)
Definition grid (f : R -> R) (x : f32) : f32 := fmul (f_of_Z (up (16777216 * f (R_of x) - / 2))) (flit 1 16777216).
Lemma grid_near : forall f x, Rabs (f (R_of x)) <= 1 -> ff (grid f x) /\ Rabs (R_of (grid f x) - f (R_of x)) <= / 8388608.
Proof.
  intros f x H. unfold grid. set (r := f (R_of x)) in *. clearbody r. apply Rabs_le_inv in H. destruct (archimed (16777216 * r - / 2)) as [A B]. set (n := up (16777216 * r - / 2)) in *.
  assert (N : (-16777216 <= n <= 16777216)%Z). { split; apply le_IZR || idtac. - assert (Z : IZR (-16777217) < IZR n) by lra. apply lt_IZR in Z. apply IZR_le. lia. - assert (Z : IZR n < IZR 16777217) by lra. apply lt_IZR in Z. apply IZR_le. lia. }
  destruct (of_Z_R n) as [F E]; [lia|]. assert (FL : ff (flit 1 16777216)) by (split; vm_compute; reflexivity). assert (VL : R_of (flit 1 16777216) = / 16777216) by (R_val (flit 1 16777216); lra).
  assert (NB : Rabs (IZR n) <= 16777216) by (destruct N as [N1 N2]; apply IZR_le in N1; apply IZR_le in N2; apply Rabs_le; lra).
  assert (PB : Rabs (R_of (f_of_Z n) * R_of (flit 1 16777216)) <= 1). { rewrite E, VL, Rabs_mult, (Rabs_right (/ 16777216)) by lra. lra. }
  destruct (fmul_e _ _ F FL) as [G K]; [unfold huge; lra|]. split; [exact G|]. rewrite E, VL in *. pose proof tiny_40.
  replace (R_of (fmul (f_of_Z n) (flit 1 16777216)) - r) with ((R_of (fmul (f_of_Z n) (flit 1 16777216)) - IZR n * / 16777216) + (IZR n * / 16777216 - r)) by ring. eapply Rle_trans; [apply Rabs_triang|].
  assert (Rabs (IZR n * / 16777216 - r) <= / 33554432) by (apply Rabs_le; lra). unfold u24 in K. lra.
Qed.
Lemma grid_accurate : accurate (grid cos) (grid sin).
Proof.
  intros x F _. destruct (grid_near cos x) as [A B]; [apply Rabs_le, COS_bound|]. destruct (grid_near sin x) as [C D]; [apply Rabs_le, SIN_bound|].
  rewrite !canon_id by (apply A || apply C). auto.
Qed.
