(* Proofs about the oscillators of voiced synthesis. *)
From Coq Require Import ZArith Reals Lra Lia List Bool.
From Verif Require Import Res F32 MParms SpecSynth PFloat PReal SpecTrig.
From Flocq Require Import Core.Core.
Local Open Scope R_scope.

Definition N2 (x y : R) : R := sqrt (x * x + y * y).
Lemma N2_pos : forall x y, 0 <= N2 x y. Proof. intros. apply sqrt_pos. Qed.
Lemma N2_tri : forall x y a b, N2 (x + a) (y + b) <= N2 x y + N2 a b.
Proof.
  intros x y a b. pose proof (triangle (x + a) (y + b) 0 0 a b) as T. unfold dist_euc, Rsqr in T. unfold N2.
  replace (sqrt (x * x + y * y)) with (sqrt ((x + a - a) * (x + a - a) + (y + b - b) * (y + b - b))) by (f_equal; ring).
  replace (sqrt ((x + a) * (x + a) + (y + b) * (y + b))) with (sqrt ((x + a - 0) * (x + a - 0) + (y + b - 0) * (y + b - 0))) by (f_equal; ring).
  replace (sqrt (a * a + b * b)) with (sqrt ((a - 0) * (a - 0) + (b - 0) * (b - 0))) by (f_equal; ring). exact T.
Qed.
Lemma N2_rot : forall x y t, N2 (x * cos t - y * sin t) (y * cos t + x * sin t) = N2 x y.
Proof.
  intros x y t. unfold N2. f_equal. pose proof (sin2_cos2 t) as H. unfold Rsqr in H.
  replace ((x * cos t - y * sin t) * (x * cos t - y * sin t) + (y * cos t + x * sin t) * (y * cos t + x * sin t))
    with ((x * x + y * y) * (sin t * sin t + cos t * cos t)) by ring. rewrite H. ring.
Qed.
Lemma N2_max : forall x y m, Rabs x <= m -> Rabs y <= m -> N2 x y <= 1.42 * m.
Proof.
  intros x y m X Y. pose proof (Rabs_pos x) as P. unfold N2.
  apply (Rle_trans _ (sqrt ((1.42 * m) * (1.42 * m)))); [|rewrite sqrt_square; lra].
  apply sqrt_le_1_alt. apply Rabs_le_inv in X. apply Rabs_le_inv in Y. nra.
Qed.
Lemma N2_fst : forall x y, Rabs x <= N2 x y.
Proof.
  intros x y. unfold N2. rewrite <- (sqrt_Rsqr_abs x). apply sqrt_le_1_alt. unfold Rsqr. nra.
Qed.
Lemma N2_snd : forall x y, Rabs y <= N2 x y.
Proof.
  intros x y. unfold N2. rewrite <- (sqrt_Rsqr_abs y). apply sqrt_le_1_alt. unfold Rsqr. nra.
Qed.

(* one step: two products of numbers below 1.01 and their sum or difference *)
Definition eps : R := 3.1 * u24 + 2.05 * (2 * u24).
Lemma prod_e : forall x y a b, ff x -> ff y -> Rabs (R_of x) <= 1.01 -> Rabs b <= 1 -> Rabs (R_of y - b) <= 2 * u24 -> a = R_of x ->
  ff (fmul x y) /\ Rabs (R_of (fmul x y) - a * b) <= 1.025 * u24 + 1.015 * (2 * u24) /\ Rabs (R_of (fmul x y)) <= 1.0101.
Proof.
  intros x y a b X Y HX HB HY ->. assert (U : u24 <= / 1000000) by (unfold u24; lra). assert (U0 : 0 < u24) by (unfold u24; lra).
  pose proof tiny_small as T. assert (T' : tiny <= u24 / 1000) by (unfold u24; lra).
  assert (P : Rabs (R_of x * R_of y - R_of x * b) <= 1.01 * (2 * u24)).
  { rewrite <- Rmult_minus_distr_l, Rabs_mult. apply Rmult_le_compat; auto using Rabs_pos. }
  assert (Q : Rabs (R_of x * b) <= 1.01).
  { rewrite Rabs_mult. replace 1.01 with (1.01 * 1) by ring. apply Rmult_le_compat; auto using Rabs_pos. }
  assert (S : Rabs (R_of x * R_of y) <= 1.01001).
  { apply Rabs_le_inv in P. apply Rabs_le_inv in Q. apply Rabs_le. lra. }
  destruct (fmul_e x y X Y) as (A & B); [unfold huge; lra|]. split; [exact A|].
  assert (B' : Rabs (R_of (fmul x y) - R_of x * R_of y) <= u24 * 1.0111).
  { eapply Rle_trans; [exact B|]. assert (u24 * Rabs (R_of x * R_of y) <= u24 * 1.01001) by (apply Rmult_le_compat_l; lra). lra. }
  clear B. apply Rabs_le_inv in P. apply Rabs_le_inv in B'. apply Rabs_le_inv in S. split; apply Rabs_le; lra.
Qed.
Lemma rotate_step : forall c1 s1 c s phi theta E, ff c1 -> ff s1 -> ff c -> ff s -> Rabs (R_of c1 - cos theta) <= 2 * u24 -> Rabs (R_of s1 - sin theta) <= 2 * u24 ->
  E <= / 100 -> N2 (R_of c - cos phi) (R_of s - sin phi) <= E ->
  let p := rotate c1 s1 (c, s) in ff (fst p) /\ ff (snd p) /\ N2 (R_of (fst p) - cos (phi + theta)) (R_of (snd p) - sin (phi + theta)) <= E + 12 * u24.
Proof.
  intros c1 s1 c s phi theta E C1 S1 C S H1 H2 HE HN. cbv zeta. unfold rotate. cbn [fst snd].
  assert (U : u24 <= / 1000000) by (unfold u24; lra). assert (U0 : 0 < u24) by (unfold u24; lra).
  pose proof tiny_small as T. assert (T' : tiny <= u24 / 1000) by (unfold u24; lra).
  pose proof (COS_bound phi) as B1. pose proof (SIN_bound phi) as B2. pose proof (COS_bound theta) as B3. pose proof (SIN_bound theta) as B4.
  pose proof (N2_fst (R_of c - cos phi) (R_of s - sin phi)) as F1. pose proof (N2_snd (R_of c - cos phi) (R_of s - sin phi)) as F2.
  assert (G1 : Rabs (R_of c) <= 1.01). { assert (Q : Rabs (R_of c - cos phi) <= / 100) by lra. apply Rabs_le_inv in Q. apply Rabs_le. lra. }
  assert (G2 : Rabs (R_of s) <= 1.01). { assert (Q : Rabs (R_of s - sin phi) <= / 100) by lra. apply Rabs_le_inv in Q. apply Rabs_le. lra. }
  assert (K3 : Rabs (cos theta) <= 1) by (apply Rabs_le; lra). assert (K4 : Rabs (sin theta) <= 1) by (apply Rabs_le; lra).
  destruct (prod_e c c1 _ _ C C1 G1 K3 H1 eq_refl) as (P1 & Q1 & R1). destruct (prod_e s s1 _ _ S S1 G2 K4 H2 eq_refl) as (P2 & Q2 & R2).
  destruct (prod_e s c1 _ _ S C1 G2 K3 H1 eq_refl) as (P3 & Q3 & R3). destruct (prod_e c s1 _ _ C S1 G1 K4 H2 eq_refl) as (P4 & Q4 & R4).
  apply Rabs_le_inv in R1. apply Rabs_le_inv in R2. apply Rabs_le_inv in R3. apply Rabs_le_inv in R4.
  destruct (fsub_e _ _ P1 P2) as (A1 & D1); [unfold huge; apply Rabs_le; lra|].
  destruct (fadd_e _ _ P3 P4) as (A2 & D2); [unfold huge; apply Rabs_le; lra|].
  split; [exact A1|]. split; [exact A2|].
  assert (W1 : Rabs (R_of (fmul c c1) - R_of (fmul s s1)) <= 2.03) by (apply Rabs_le; lra).
  assert (W2 : Rabs (R_of (fmul s c1) + R_of (fmul c s1)) <= 2.03) by (apply Rabs_le; lra).
  assert (D1' : Rabs (R_of (fsub (fmul c c1) (fmul s s1)) - (R_of (fmul c c1) - R_of (fmul s s1))) <= 2.04 * u24).
  { eapply Rle_trans; [exact D1|]. apply (Rmult_le_compat_l u24) in W1; lra. }
  assert (D2' : Rabs (R_of (fadd (fmul s c1) (fmul c s1)) - (R_of (fmul s c1) + R_of (fmul c s1))) <= 2.04 * u24).
  { eapply Rle_trans; [exact D2|]. apply (Rmult_le_compat_l u24) in W2; lra. }
  clear D1 D2. rewrite cos_plus, sin_plus.
  set (x := R_of (fsub _ _)) in *. set (y := R_of (fadd _ _)) in *.
  replace (x - (cos phi * cos theta - sin phi * sin theta)) with
    (((R_of c - cos phi) * cos theta - (R_of s - sin phi) * sin theta) + (x - (R_of c * cos theta - R_of s * sin theta))) by ring.
  replace (y - (sin phi * cos theta + cos phi * sin theta)) with
    (((R_of s - sin phi) * cos theta + (R_of c - cos phi) * sin theta) + (y - (R_of s * cos theta + R_of c * sin theta))) by ring.
  eapply Rle_trans; [apply N2_tri|]. rewrite N2_rot. apply Rplus_le_compat; [exact HN|].
  eapply Rle_trans; [apply (N2_max _ _ (8.4 * u24))|lra].
  - apply Rabs_le_inv in D1'. apply Rabs_le_inv in Q1. apply Rabs_le_inv in Q2. apply Rabs_le. lra.
  - apply Rabs_le_inv in D2'. apply Rabs_le_inv in Q3. apply Rabs_le_inv in Q4. apply Rabs_le. lra.
Qed.
Lemma oscillator_near : forall o start step n, (n <= 160)%nat -> trig_close o start -> trig_close o step ->
  near (oscillator o start step n) (cos (R_of start + INR n * R_of step)) (/ 8192).
Proof.
  intros o start step n Hn (A1 & A2 & A3 & A4) (B1 & B2 & B3 & B4). unfold near, oscillator.
  assert (U : 2 * u24 = / 8388608) by (unfold u24; lra). rewrite <- U in A3, A4, B3, B4.
  assert (Q : let p := Nat.iter n (rotate (cosf o step) (sinf o step)) (cosf o start, sinf o start) in let phi := R_of start + INR n * R_of step in
    ff (fst p) /\ ff (snd p) /\ N2 (R_of (fst p) - cos phi) (R_of (snd p) - sin phi) <= INR n * (12 * u24) + 3 * u24).
  { induction n as [|n IH].
    - cbn [Nat.iter nat_rect]. cbv zeta. cbn [fst snd]. split; [exact A1|]. split; [exact A2|]. cbn [INR]. replace (R_of start + 0 * R_of step) with (R_of start) by ring.
      eapply Rle_trans; [apply (N2_max _ _ (2 * u24)); auto|]. unfold u24. lra.
    - specialize (IH ltac:(lia)). cbv zeta in IH |- *. change (Nat.iter (S n) (rotate (cosf o step) (sinf o step)) (cosf o start, sinf o start))
        with (rotate (cosf o step) (sinf o step) (Nat.iter n (rotate (cosf o step) (sinf o step)) (cosf o start, sinf o start))).
      destruct (Nat.iter n (rotate (cosf o step) (sinf o step)) (cosf o start, sinf o start)) as [c s]. cbn [fst snd] in IH. destruct IH as (C & S & I).
      assert (HI : INR n <= 160). { apply (Rle_trans _ (INR 160)); [apply le_INR; lia|]. rewrite INR_IZR_INZ. apply IZR_le. lia. }
      assert (HE : INR n * (12 * u24) + 3 * u24 <= / 100) by (unfold u24; lra).
      destruct (rotate_step (cosf o step) (sinf o step) c s _ (R_of step) _ B1 B2 C S B3 B4 HE I) as (X & Y & Z).
      split; [exact X|]. split; [exact Y|]. rewrite S_INR. replace (R_of start + (INR n + 1) * R_of step) with (R_of start + INR n * R_of step + R_of step) by ring. lra. }
  cbv zeta in Q. destruct Q as (C & _ & I). split; [exact C|]. eapply Rle_trans; [apply N2_fst|]. eapply Rle_trans; [exact I|].
  assert (HI : INR n <= 160). { apply (Rle_trans _ (INR 160)); [apply le_INR; lia|]. rewrite INR_IZR_INZ. apply IZR_le. lia. }
  unfold u24. lra.
Qed.
