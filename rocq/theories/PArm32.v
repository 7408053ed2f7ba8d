(* Proofs about the overlap-add on 32-bit ARM. *)
From Coq Require Import ZArith Reals Lra Lia List Bool.
From Verif Require Import Res F32 TabWola MParms MAdaptive MUnvoiced MSynth MArm32 SpecAdaptive SpecWola SpecFftErr SpecArm32 PBase PRun PArr PSse PPower PFloat PFloat2 PReal PNum PNum2 PWola.
From Flocq Require Import Core.Core IEEE754.BinarySingleNaN.
Import ListNotations.
Local Open Scope Z_scope.

(* ---- one lane, four lanes, all samples: the same arithmetic in place of the division ---- *)
Definition term32 (prev curr : list f32) (n : Z) : f32 :=
  vmul32 (vadd32 (vmul32 (window n) (sample_at prev (n + 128))) (vmul32 (window (n - 160)) (sample_at curr (n - 32)))) (vrecip32 (normaliser n)).
Definition sum32 (prev curr : list f32) (n : Z) (x : f32) : f32 :=
  if (32 <=? n) && (n <? 128) then vadd32 x (term32 prev curr n) else fadd x (overlap_term prev curr n).
Lemma normaliser_flush : forall n, 0 <= n < 160 -> fgt (neon_flush (normaliser n)) f_1em10 = true.
Proof.
  intros n H. assert (K : forallb (fun n => fgt (neon_flush (normaliser n)) f_1em10) (zrange 160) = true) by (vm_compute; reflexivity).
  exact (zrange_forallb 160 _ K n H).
Qed.
Lemma lane32_ok : forall out prev curr k x, length prev = 256%nat -> length curr = 256%nat -> 32 <= k < 128 ->
  rd out k = Ok x -> wola_lane32 out prev curr k = Ok (vadd32 x (term32 prev curr k)).
Proof.
  intros out prev curr k x Lp Lc Hk Hx. unfold wola_lane32. rewrite !sample_in by (assumption || lia). cbn [bind]. rewrite denom_ok.
  unfold wola_w_prev, wola_w_curr. rewrite !window_ok. cbn [bind]. rewrite Hx. cbn [bind]. rewrite normaliser_flush by lia.
  cbv beta zeta iota. unfold term32. f_equal.
Qed.
Lemma vec32_ok : forall prev curr k out, length prev = 256%nat -> length curr = 256%nat -> 32 <= k -> k + 4 <= 128 -> length out = 160%nat ->
  exists out', wola_vec4_32 prev curr k out = Ok out' /\ length out' = 160%nat /\
  (forall i x, k <= i < k + 4 -> rd out i = Ok x -> rd out' i = Ok (vadd32 x (term32 prev curr i))) /\
  (forall i, 0 <= i -> ~ k <= i < k + 4 -> rd out' i = rd out i).
Proof.
  intros prev curr k out Lp Lc H1 H2 Lo. unfold wola_vec4_32.
  destruct (rd_ok out k) as [x0 X0]; [lia|]. destruct (rd_ok out (k + 1)) as [x1 X1]; [lia|].
  destruct (rd_ok out (k + 2)) as [x2 X2]; [lia|]. destruct (rd_ok out (k + 3)) as [x3 X3]; [lia|].
  rewrite (lane32_ok out prev curr k x0), (lane32_ok out prev curr (k + 1) x1), (lane32_ok out prev curr (k + 2) x2),
    (lane32_ok out prev curr (k + 3) x3) by (assumption || lia). cbn [bind].
  rewrite wr_ok by lia. cbn [bind]. rewrite wr_ok by (rewrite set_nth_length; lia). cbn [bind].
  rewrite wr_ok by (rewrite !set_nth_length; lia). cbn [bind]. rewrite wr_ok by (rewrite !set_nth_length; lia).
  eexists. split; [reflexivity|]. split; [now rewrite !set_nth_length|]. split.
  - intros i x Hi Hx. assert (C : i = k \/ i = k + 1 \/ i = k + 2 \/ i = k + 3) by lia.
    destruct C as [->|[->|[->| ->]]]; repeat rewrite rd_set_other by lia; rewrite rd_set_same by (rewrite ?set_nth_length; lia); congruence.
  - intros i Hi N. now repeat rewrite rd_set_other by lia.
Qed.
Lemma combine_arm32 : forall out prev curr, length out = 160%nat -> length prev = 256%nat -> length curr = 256%nat ->
  exists l, mbe_wola_combine_arm32 out prev curr = Ok l /\ length l = 160%nat /\
  forall i x, 0 <= i < 160 -> rd out i = Ok x -> rd l i = Ok (sum32 prev curr i x).
Proof.
  intros out prev curr Lo Lp Lc. unfold mbe_wola_combine_arm32.
  destruct (update_loop (fun n x => fadd x (overlap_term prev curr n)) (wola_scalar_head prev) 0 32 out)
    as (l1 & E1 & L1 & P1 & Q1); [lia..| |].
  { intros k s x Hk Ls Hs _. unfold wola_scalar_head. rewrite sample_in by (assumption || lia). cbn [bind]. rewrite denom_ok.
    unfold wola_w_prev, wola_w_curr. rewrite !window_ok. cbn [bind]. rewrite normaliser_pos by lia. rewrite Hs. cbn [bind].
    unfold overlap_term, wola_term. rewrite (sample_out curr (k - 32)) by lia. reflexivity. }
  rewrite E1. cbn [bind].
  destruct (loop_ok (fun k s => 32 <= k /\ length s = 160%nat /\ (forall i x, 32 <= i < k -> rd l1 i = Ok x -> rd s i = Ok (vadd32 x (term32 prev curr i))) /\
      (forall i, 0 <= i -> ~ 32 <= i < k -> rd s i = rd l1 i)) (wola_vec4_32 prev curr) 4 24 32 l1) as (l2 & E2 & _ & L2 & P2 & Q2).
  { intros k s Hk (H0 & Ls & P & Q). replace (32 + (k + 1) * 4) with (32 + k * 4 + 4) by lia. set (i0 := 32 + k * 4) in *.
    destruct (vec32_ok prev curr i0 s Lp Lc) as (s' & Es & L' & P' & Q'); [lia..|]. exists s'. split; [exact Es|]. split; [lia|]. split; [exact L'|]. split.
    - intros i x Hi Hx. destruct (Z_lt_ge_dec i i0) as [B|B].
      + rewrite Q' by lia. apply P; [lia|exact Hx].
      + apply P'; [lia|]. rewrite Q by lia. exact Hx.
    - intros i Hi N. rewrite Q' by lia. apply Q; lia. }
  { split; [lia|]. split; [lia|]. split; [intros; lia|reflexivity]. }
  rewrite E2. cbn [bind]. change (32 + Z.of_nat 24 * 4) with 128 in *.
  destruct (update_loop (fun n x => fadd x (overlap_term prev curr n)) (wola_scalar_tail curr) 128 160 l2)
    as (l3 & E3 & L3 & P3 & Q3); [lia..| |].
  { intros k s x Hk Ls Hs _. unfold wola_scalar_tail. rewrite sample_in by (assumption || lia). cbn [bind]. rewrite denom_ok.
    unfold wola_w_prev, wola_w_curr. rewrite !window_ok. cbn [bind]. rewrite normaliser_pos by lia. rewrite Hs. cbn [bind].
    unfold overlap_term, wola_term. rewrite (sample_out prev (k + 128)) by lia. reflexivity. }
  exists l3. split; [exact E3|]. split; [lia|]. intros i x Hi Hx. unfold sum32.
  destruct (Z_lt_ge_dec i 32) as [B|B].
  - replace (32 <=? i) with false by (symmetry; apply Z.leb_gt; lia). cbn [andb]. rewrite Q3, Q2 by lia. apply P1; [lia|exact Hx].
  - replace (32 <=? i) with true by (symmetry; apply Z.leb_le; lia). cbn [andb]. destruct (Z_lt_ge_dec i 128) as [C|C].
    + replace (i <? 128) with true by (symmetry; apply Z.ltb_lt; lia). rewrite Q3 by lia. apply P2; [lia|]. rewrite Q1 by lia. exact Hx.
    + replace (i <? 128) with false by (symmetry; apply Z.ltb_ge; lia). apply P3; [lia|]. rewrite Q2, Q1 by lia. exact Hx.
Qed.

(* ---- the arithmetic in real numbers ---- *)
Local Open Scope R_scope.
Lemma flush_e : forall x, ff x -> ff (neon_flush x) /\ Rabs (R_of (neon_flush x) - R_of x) <= 1e-37.
Proof.
  intros x [V F]. destruct x as [s|s| |s m e]; try discriminate F; try (split; [split; assumption|unfold neon_flush; rewrite Rminus_diag_eq, Rabs_R0 by reflexivity; lra]).
  unfold neon_flush. destruct (Z.ltb_spec (Z.pos m) 8388608) as [H|H].
  2: split; [split; assumption|rewrite Rminus_diag_eq, Rabs_R0 by reflexivity; lra].
  split; [split; reflexivity|].
  assert (E : (e <= -149)%Z).
  { unfold vf in V. cbn [SpecFloat.valid_binary] in V. apply andb_true_iff in V as [V _]. unfold SpecFloat.canonical_mantissa in V. apply Zeq_bool_eq in V.
    assert (D : (Z.pos (SpecFloat.digits2_pos m) <= 23)%Z).
    { rewrite Digits.Zpos_digits2_pos. apply Digits.Zdigits_le_Zpower. change (Z.abs (Z.pos m)) with (Z.pos m). change (Zaux.radix2 ^ 23)%Z with 8388608%Z. exact H. }
    unfold SpecFloat.fexp, SpecFloat.emin in V. lia. }
  replace (R_of (SpecFloat.S754_zero s) - R_of (SpecFloat.S754_finite s m e)) with (- F2R (Float radix2 (cond_Zopp s (Z.pos m)) e)) by (unfold R_of; cbn; ring).
  rewrite Rabs_Ropp, <- F2R_Zabs, abs_cond_Zopp. unfold F2R. cbn [Fnum Fexp]. change (Z.abs (Z.pos m)) with (Z.pos m).
  apply (Rle_trans _ (8388608 * bpow radix2 (-149))).
  - apply Rmult_le_compat; [apply IZR_le; lia|apply bpow_ge_0|apply IZR_le; lia|apply bpow_le; exact E].
  - apply (Rle_trans _ (bpow radix2 (-123))).
    + change 8388608 with (IZR (Zpower radix2 23)). rewrite IZR_Zpower, <- bpow_plus by lia. apply bpow_le. lia.
    + unfold bpow. replace (Z.pow_pos radix2 123) with (2 ^ 123)%Z by reflexivity. change (2 ^ 123)%Z with 10633823966279326983230456482242756608%Z. lra.
Qed.
Lemma prod_le : forall x y a c, Rabs x <= a -> Rabs y <= c -> Rabs (x * y) <= a * c.
Proof. intros x y a c A C. rewrite Rabs_mult. apply Rmult_le_compat; try apply Rabs_pos; assumption. Qed.
Lemma tri : forall x y a c, Rabs x <= a -> Rabs y <= c -> Rabs (x + y) <= a + c.
Proof. intros x y a c A C. eapply Rle_trans; [apply Rabs_triang|]. lra. Qed.
Lemma tiny37 : tiny <= 1e-37.
Proof.
  unfold tiny. apply (Rle_trans _ (bpow radix2 (-123))); [apply bpow_le; lia|].
  unfold bpow. replace (Z.pow_pos radix2 123) with (2 ^ 123)%Z by reflexivity. change (2 ^ 123)%Z with 10633823966279326983230456482242756608%Z. lra.
Qed.
(* a float of size at most a, within e of r *)
Definition vnear (x : f32) (r e a : R) : Prop := ff x /\ Rabs (R_of x - r) <= e /\ Rabs r <= a.
Lemma vadd32_e : forall x y r s e f a c, vnear x r e a -> vnear y s f c -> 0 <= e <= a -> 0 <= f <= c -> a <= 1e37 -> c <= 1e37 ->
  vnear (vadd32 x y) (r + s) (e + f + 6e-8 * (a + c + e + f) + 1e-36) (a + c).
Proof.
  intros x y r s e f a c (X & Ex & Ax) (Y & Ey & Ay) He Hf Ha Hc. unfold vadd32.
  destruct (flush_e x X) as [X' Fx]. destruct (flush_e y Y) as [Y' Fy].
  set (x' := neon_flush x) in *. set (y' := neon_flush y) in *.
  assert (Dx : Rabs (R_of x' - r) <= 1e-37 + e) by (replace (R_of x' - r) with ((R_of x' - R_of x) + (R_of x - r)) by ring; apply tri; assumption).
  assert (Dy : Rabs (R_of y' - s) <= 1e-37 + f) by (replace (R_of y' - s) with ((R_of y' - R_of y) + (R_of y - s)) by ring; apply tri; assumption).
  assert (S : Rabs (R_of x' + R_of y') <= a + c + e + f + 2e-37).
  { replace (R_of x' + R_of y') with (((R_of x' - r) + (R_of y' - s)) + (r + s)) by ring. eapply Rle_trans; [apply tri; [apply tri; eassumption|apply tri; eassumption]|]. lra. }
  destruct (fadd_e x' y' X' Y') as [Z Ez]; [unfold huge; lra|]. destruct (flush_e _ Z) as [Z' Fz].
  split; [exact Z'|]. split; [|apply tri; assumption]. pose proof tiny37 as T. unfold u24 in Ez.
  replace (R_of (neon_flush (fadd x' y')) - (r + s)) with ((R_of (neon_flush (fadd x' y')) - R_of (fadd x' y')) + ((R_of (fadd x' y') - (R_of x' + R_of y')) + ((R_of x' - r) + (R_of y' - s)))) by ring.
  eapply Rle_trans; [apply tri; [exact Fz|apply tri; [exact Ez|apply tri; eassumption]]|]. lra.
Qed.
Lemma vmul32_e : forall x y r s e f a c, vnear x r e a -> vnear y s f c -> 0 <= e <= a -> 0 <= f <= c -> a <= 1e37 -> c <= 1e37 -> a * c <= 1e34 ->
  vnear (vmul32 x y) (r * s) (a * f + c * e + e * f + 6e-8 * (a * c + a * f + c * e + e * f) + 1e-36 * (a + c + 1)) (a * c).
Proof.
  intros x y r s e f a c (X & Ex & Ax) (Y & Ey & Ay) He Hf Ha Hc M1. unfold vmul32.
  destruct (flush_e x X) as [X' Fx]. destruct (flush_e y Y) as [Y' Fy].
  set (x' := neon_flush x) in *. set (y' := neon_flush y) in *.
  assert (Dx : Rabs (R_of x' - r) <= 1e-37 + e) by (replace (R_of x' - r) with ((R_of x' - R_of x) + (R_of x - r)) by ring; apply tri; assumption).
  assert (Dy : Rabs (R_of y' - s) <= 1e-37 + f) by (replace (R_of y' - s) with ((R_of y' - R_of y) + (R_of y - s)) by ring; apply tri; assumption).
  assert (D : Rabs (R_of x' * R_of y' - r * s) <= a * (1e-37 + f) + (c * (1e-37 + e) + (1e-37 + e) * (1e-37 + f))).
  { replace (R_of x' * R_of y' - r * s) with (r * (R_of y' - s) + (s * (R_of x' - r) + (R_of x' - r) * (R_of y' - s))) by ring.
    apply tri; [apply prod_le; assumption|]. apply tri; apply prod_le; assumption. }
  assert (P : Rabs (r * s) <= a * c) by (apply prod_le; assumption).
  assert (S : Rabs (R_of x' * R_of y') <= a * c + (a * (1e-37 + f) + (c * (1e-37 + e) + (1e-37 + e) * (1e-37 + f)))).
  { replace (R_of x' * R_of y') with (r * s + (R_of x' * R_of y' - r * s)) by ring. apply tri; assumption. }
  assert (M2 : a * f <= a * c) by (apply Rmult_le_compat_l; lra). assert (M3 : c * e <= a * c) by (rewrite (Rmult_comm a); apply Rmult_le_compat_l; lra).
  assert (M4 : e * f <= a * c) by (apply Rmult_le_compat; lra).
  assert (N1 : 0 <= a * c) by (apply Rmult_le_pos; lra). assert (N2 : 0 <= a * f) by (apply Rmult_le_pos; lra). assert (N3 : 0 <= c * e) by (apply Rmult_le_pos; lra). assert (N4 : 0 <= e * f) by (apply Rmult_le_pos; lra).
  replace ((1e-37 + e) * (1e-37 + f)) with (e * f + 1e-37 * (e + f + 1e-37)) in * by ring.
  replace (a * (1e-37 + f)) with (a * f + 1e-37 * a) in * by ring. replace (c * (1e-37 + e)) with (c * e + 1e-37 * c) in * by ring.
  destruct (fmul_e x' y' X' Y') as [Z Ez]; [unfold huge; lra|]. destruct (flush_e _ Z) as [Z' Fz].
  split; [exact Z'|]. split; [|exact P]. pose proof tiny37 as T. unfold u24 in Ez.
  replace (R_of (neon_flush (fmul x' y')) - r * s) with ((R_of (neon_flush (fmul x' y')) - R_of (fmul x' y')) + ((R_of (fmul x' y') - R_of x' * R_of y') + (R_of x' * R_of y' - r * s))) by ring.
  eapply Rle_trans; [apply tri; [exact Fz|apply tri; [exact Ez|exact D]]|]. lra.
Qed.

(* ---- the reciprocals of the normalisers ---- *)
Definition recip_good (d r : f32) : bool :=
  match d, r with
  | SpecFloat.S754_finite false m e, SpecFloat.S754_finite false m' e' =>
      SpecFloat.valid_binary 24 128 r && (e + e' <=? 0)%Z && (Z.abs (Z.pos m * Z.pos m' - 2 ^ (- (e + e'))) * 4194304 <=? 2 ^ (- (e + e')))%Z
  | _, _ => false
  end.
Lemma recip_good_R : forall d r, recip_good d r = true -> ff r /\ Rabs (R_of r * R_of d - 1) <= / 4194304.
Proof.
  intros d r H. destruct d as [| | |[] m e]; try discriminate H. destruct r as [| | |[] m' e']; try discriminate H. unfold recip_good in H.
  apply andb_true_iff in H as [H C]. apply andb_true_iff in H as [A B]. apply Z.leb_le in B, C. split; [split; [exact A|reflexivity]|].
  unfold R_of, BinarySingleNaN.SF2R, F2R. cbn [Fnum Fexp cond_Zopp]. set (k := (- (e + e'))%Z) in *.
  assert (K : 0 < IZR (2 ^ k)) by (apply IZR_lt, Z.pow_pos_nonneg; lia).
  assert (Q : bpow radix2 e * bpow radix2 e' = / IZR (2 ^ k)).
  { rewrite <- bpow_plus. replace (e + e')%Z with (- k)%Z by (unfold k; lia). rewrite bpow_opp. f_equal. symmetry. apply (IZR_Zpower radix2). lia. }
  replace (IZR (Z.pos m') * bpow radix2 e' * (IZR (Z.pos m) * bpow radix2 e) - 1) with (IZR (Z.pos m * Z.pos m' - 2 ^ k) * / IZR (2 ^ k)).
  - rewrite Rabs_mult, <- abs_IZR, (Rabs_pos_eq (/ _)) by (left; apply Rinv_0_lt_compat; exact K).
    apply IZR_le in C. rewrite mult_IZR in C. apply (Rmult_le_reg_r (IZR (2 ^ k))); [exact K|]. rewrite Rmult_assoc, Rinv_l by lra. lra.
  - replace (IZR (Z.pos m') * bpow radix2 e' * (IZR (Z.pos m) * bpow radix2 e)) with (IZR (Z.pos m) * IZR (Z.pos m') * (bpow radix2 e * bpow radix2 e')) by ring.
    rewrite Q, minus_IZR, mult_IZR. field. lra.
Qed.
Lemma reciprocals : forallb (fun n => recip_good (normaliser n) (vrecip32 (normaliser n))) (zrange 160) = true.
Proof. vm_compute. reflexivity. Qed.
Lemma recip_normaliser : forall n, (0 <= n < 160)%Z -> ff (vrecip32 (normaliser n)) /\ Rabs (R_of (vrecip32 (normaliser n)) * R_of (normaliser n) - 1) <= / 4194304.
Proof. intros n H. apply recip_good_R. exact (zrange_forallb 160 _ reciprocals n H). Qed.

(* ---- the sums ---- *)
Lemma vnear_sized : forall b x, sized b x -> vnear x (R_of x) 0 b.
Proof. intros b x [F H]. split; [exact F|]. split; [rewrite Rminus_diag_eq, Rabs_R0 by reflexivity; lra|exact H]. Qed.
Definition exact_sum (prev curr : list f32) (n : Z) : R :=
  R_of (window n) * R_of (sample_at prev (n + 128)) + R_of (window (n - 160)) * R_of (sample_at curr (n - 32)).
Lemma recip_dist : forall d r, 0.4 <= d -> Rabs (r * d - 1) <= / 4194304 -> Rabs (r - / d) <= 6e-7.
Proof.
  intros d r H E. assert (G : 0 < / d <= 2.5) by (split; [apply Rinv_0_lt_compat; lra|replace 2.5 with (/ 0.4) by lra; apply Rinv_le_contravar; lra]).
  replace (r - / d) with ((r * d - 1) * / d) by (field; lra).
  eapply Rle_trans; [apply (prod_le _ _ (/ 4194304) 2.5); [exact E|rewrite Rabs_pos_eq; lra]|]. lra.
Qed.
Lemma div_diff : forall z s d, 0.4 <= d -> z / d - s * / d = (z - s) * / d.
Proof. intros z s d H. field. lra. Qed.
Section Close.
Context (b : R) (B : 1 <= b <= 1e30) (prev curr : list f32) (P : Forall (sized b) prev) (C : Forall (sized b) curr) (n : Z) (Hn : (0 <= n < 160)%Z).
Let g := / R_of (normaliser n).
Lemma g_range : 0 < g <= 2.5.
Proof.
  destruct (normaliser_low n Hn) as [_ L]. unfold g. split; [apply Rinv_0_lt_compat; lra|]. replace 2.5 with (/ 0.4) by lra. apply Rinv_le_contravar; lra.
Qed.
Lemma term32_near : vnear (term32 prev curr n) (exact_sum prev curr n * g) (2.3e-6 * b) (5 * b).
Proof.
  unfold term32. pose proof g_range as G. destruct (normaliser_low n Hn) as [NF NL].
  assert (W1 : vnear (window n) (R_of (window n)) 0 1) by (apply vnear_sized, window_sized; lia).
  assert (W2 : vnear (window (n - 160)) (R_of (window (n - 160))) 0 1) by (apply vnear_sized, window_sized; lia).
  assert (S1 : vnear (sample_at prev (n + 128)) (R_of (sample_at prev (n + 128))) 0 b) by (apply vnear_sized, sample_at_sized; [lra|exact P]).
  assert (S2 : vnear (sample_at curr (n - 32)) (R_of (sample_at curr (n - 32))) 0 b) by (apply vnear_sized, sample_at_sized; [lra|exact C]).
  destruct (recip_normaliser n Hn) as [RF RE].
  assert (R1 : vnear (vrecip32 (normaliser n)) g 6e-7 2.5).
  { split; [exact RF|]. split; [exact (recip_dist _ _ NL RE)|rewrite Rabs_pos_eq; lra]. }
  pose proof (vmul32_e _ _ _ _ _ _ _ _ W1 S1) as A1. pose proof (vmul32_e _ _ _ _ _ _ _ _ W2 S2) as A2.
  assert (T1 : vnear (vmul32 (window n) (sample_at prev (n + 128))) (R_of (window n) * R_of (sample_at prev (n + 128))) (6.1e-8 * b) b).
  { destruct A1 as (F & E & A); try lra. split; [exact F|]. split; lra. }
  assert (T2 : vnear (vmul32 (window (n - 160)) (sample_at curr (n - 32))) (R_of (window (n - 160)) * R_of (sample_at curr (n - 32))) (6.1e-8 * b) b).
  { destruct A2 as (F & E & A); try lra. split; [exact F|]. split; lra. }
  clear A1 A2. pose proof (vadd32_e _ _ _ _ _ _ _ _ T1 T2) as A.
  assert (T : vnear (vadd32 (vmul32 (window n) (sample_at prev (n + 128))) (vmul32 (window (n - 160)) (sample_at curr (n - 32)))) (exact_sum prev curr n) (2.5e-7 * b) (2 * b)).
  { destruct A as (F & E & A); try lra. split; [exact F|]. unfold exact_sum. split; lra. }
  pose proof (vmul32_e _ _ _ _ _ _ _ _ T R1) as M. destruct M as (F & E & M); try lra. split; [exact F|]. split; lra.
Qed.
Lemma term_near : vnear (overlap_term prev curr n) (exact_sum prev curr n * g) (1e-6 * b) (5 * b).
Proof.
  unfold overlap_term. pose proof g_range as G. destruct (normaliser_low n Hn) as [NF NL]. pose proof tiny37 as T37.
  destruct (window_sized n) as [WF1 W1]; [lia|]. destruct (window_sized (n - 160)) as [WF2 W2]; [lia|].
  destruct (sample_at_sized b prev (n + 128)) as [SF1 S1]; [lra|exact P|]. destruct (sample_at_sized b curr (n - 32)) as [SF2 S2]; [lra|exact C|].
  assert (Q1 : Rabs (R_of (window n) * R_of (sample_at prev (n + 128))) <= 1 * b) by (apply prod_le; assumption).
  assert (Q2 : Rabs (R_of (window (n - 160)) * R_of (sample_at curr (n - 32))) <= 1 * b) by (apply prod_le; assumption).
  destruct (fmul_e (window n) (sample_at prev (n + 128))) as [F1 E1]; auto; [unfold huge; lra|].
  destruct (fmul_e (window (n - 160)) (sample_at curr (n - 32))) as [F2 E2]; auto; [unfold huge; lra|].
  set (x := fmul (window n) (sample_at prev (n + 128))) in *. set (y := fmul (window (n - 160)) (sample_at curr (n - 32))) in *. unfold u24 in *.
  assert (D : Rabs (R_of x + R_of y - exact_sum prev curr n) <= 6.1e-8 * b + 6.1e-8 * b).
  { unfold exact_sum. match goal with |- Rabs (?a + ?c - (?d + ?e)) <= _ => replace (a + c - (d + e)) with ((a - d) + (c - e)) by ring end. apply tri; lra. }
  assert (Z : Rabs (exact_sum prev curr n) <= 1 * b + 1 * b) by (unfold exact_sum; apply tri; assumption).
  assert (Y : Rabs (R_of x + R_of y) <= (6.1e-8 * b + 6.1e-8 * b) + (1 * b + 1 * b)).
  { replace (R_of x + R_of y) with ((R_of x + R_of y - exact_sum prev curr n) + exact_sum prev curr n) by ring. apply tri; assumption. }
  destruct (fadd_e x y F1 F2) as [F3 E3]; [unfold huge; lra|]. set (z := fadd x y) in *. unfold u24 in E3.
  assert (D3 : Rabs (R_of z - exact_sum prev curr n) <= 2.6e-7 * b).
  { replace (R_of z - exact_sum prev curr n) with ((R_of z - (R_of x + R_of y)) + (R_of x + R_of y - exact_sum prev curr n)) by ring. eapply Rle_trans; [apply tri; [exact E3|exact D]|]. lra. }
  assert (D4 : Rabs (R_of z / R_of (normaliser n) - exact_sum prev curr n * g) <= 2.6e-7 * b * 2.5).
  { replace (R_of z / R_of (normaliser n) - exact_sum prev curr n * g) with ((R_of z - exact_sum prev curr n) * g) by (symmetry; apply div_diff; exact NL). apply prod_le; [exact D3|rewrite Rabs_pos_eq; lra]. }
  assert (D5 : Rabs (exact_sum prev curr n * g) <= (1 * b + 1 * b) * 2.5) by (apply prod_le; [exact Z|rewrite Rabs_pos_eq; lra]).
  assert (D6 : Rabs (R_of z / R_of (normaliser n)) <= 2.6e-7 * b * 2.5 + (1 * b + 1 * b) * 2.5).
  { replace (R_of z / R_of (normaliser n)) with ((R_of z / R_of (normaliser n) - exact_sum prev curr n * g) + exact_sum prev curr n * g) by ring. apply tri; assumption. }
  destruct (fdiv_e z (normaliser n) F3 NF) as [F7 E7]; [lra|unfold huge; lra|]. unfold u24 in E7. split; [exact F7|]. split; [|lra].
  replace (R_of (fdiv z (normaliser n)) - exact_sum prev curr n * g) with ((R_of (fdiv z (normaliser n)) - R_of z / R_of (normaliser n)) + (R_of z / R_of (normaliser n) - exact_sum prev curr n * g)) by ring.
  eapply Rle_trans; [apply tri; [exact E7|exact D4]|]. lra.
Qed.
Lemma sums_close : forall x, sized b x -> ff (sum32 prev curr n x) /\ ff (fadd x (overlap_term prev curr n)) /\
  Rabs (R_of (sum32 prev curr n x) - R_of (fadd x (overlap_term prev curr n))) <= b / 200000.
Proof.
  intros x [XF XS]. pose proof tiny37 as T37.
  destruct term_near as (TF & TE & TA). set (t := exact_sum prev curr n * g) in *.
  assert (TB : Rabs (R_of x + R_of (overlap_term prev curr n)) <= 6.1 * b).
  { replace (R_of x + R_of (overlap_term prev curr n)) with (R_of x + (t + (R_of (overlap_term prev curr n) - t))) by ring. eapply Rle_trans; [apply tri; [exact XS|apply tri; eassumption]|]. lra. }
  destruct (fadd_e x (overlap_term prev curr n) XF TF) as [F E]; [unfold huge; lra|]. unfold u24 in E.
  unfold sum32. destruct (_ && _).
  2: { split; [exact F|]. split; [exact F|]. rewrite Rminus_diag_eq, Rabs_R0 by reflexivity. lra. }
  pose proof term32_near as N. pose proof (vadd32_e _ _ _ _ _ _ _ _ (vnear_sized b x (conj XF XS)) N) as (G & H & _); try lra.
  split; [exact G|]. split; [exact F|].
  set (v := vadd32 x (term32 prev curr n)) in *. set (w := fadd x (overlap_term prev curr n)) in *. set (q := overlap_term prev curr n) in *. fold t in H.
  replace (R_of v - R_of w) with ((R_of v - (R_of x + t)) + (- (R_of w - (R_of x + R_of q)) + - (R_of q - t))) by ring.
  eapply Rle_trans; [apply tri; [exact H|apply tri; rewrite Rabs_Ropp; eassumption]|]. lra.
Qed.
End Close.
Lemma arm32_close : forall b out prev curr, 1 <= b <= 1e30 -> length out = 160%nat -> length prev = 256%nat -> length curr = 256%nat ->
  Forall (sized b) out -> Forall (sized b) prev -> Forall (sized b) curr ->
  exists l r, mbe_wola_combine_arm32 out prev curr = Ok l /\ mbe_wola_combine_fast out prev curr = Ok r /\ length l = 160%nat /\ arrays_within (b / 200000) l r.
Proof.
  intros b out prev curr B Lo Lp Lc Ho Hp Hc. destruct (combine_arm32 out prev curr Lo Lp Lc) as (l & E & L & H).
  exists l, (overlap_add out prev curr). split; [exact E|]. split; [apply combine_fast; assumption|]. split; [exact L|].
  split; [unfold overlap_add; rewrite map_length, seq_length; exact L|]. rewrite L. change (Z.of_nat 160) with 160%Z. intros i Hi.
  destruct (rd_ok out i) as [x X]; [lia|]. exists (sum32 prev curr i x), (fadd x (overlap_term prev curr i)).
  split; [exact (H i x Hi X)|]. split.
  - unfold overlap_add. rewrite rd_map_seq by exact Hi. rewrite Z2Nat.id by lia. pose proof (rd_nth out i fzero ltac:(lia)) as Y. rewrite X in Y. injection Y as ->. reflexivity.
  - apply sums_close; auto. pose proof (rd_nth out i fzero ltac:(lia)) as Y. rewrite X in Y. injection Y as ->.
    rewrite Forall_forall in Ho. apply Ho, nth_In. lia.
Qed.
Lemma arm32_outside : forall out prev curr, length out = 160%nat -> length prev = 256%nat -> length curr = 256%nat ->
  exists l r, mbe_wola_combine_arm32 out prev curr = Ok l /\ mbe_wola_combine_fast out prev curr = Ok r /\ length l = 160%nat /\
  same_at (fun i => 0 <= i < 32 \/ 128 <= i < 160)%Z l r.
Proof.
  intros out prev curr Lo Lp Lc. destruct (combine_arm32 out prev curr Lo Lp Lc) as (l & E & L & H).
  exists l, (overlap_add out prev curr). split; [exact E|]. split; [apply combine_fast; assumption|]. split; [exact L|].
  split; [unfold overlap_add; rewrite map_length, seq_length; exact L|]. intros i Hi.
  destruct (rd_ok out i) as [x X]; [lia|]. rewrite (H i x) by (lia || exact X).
  unfold overlap_add. rewrite rd_map_seq by lia. rewrite Z2Nat.id by lia. pose proof (rd_nth out i fzero ltac:(lia)) as Y. rewrite X in Y. injection Y as ->.
  unfold sum32. destruct (Z.leb_spec 32 i), (Z.ltb_spec i 128); try lia; reflexivity.
Qed.

(* ---- the estimate ---- *)
Lemma estimate_all : forallb (fun k => let a := (256 + k)%Z in let r := recip_estimate a in
  (256 <=? r) && (r <? 512) && (Z.abs (r * a - 131072) <=? 512) && (Z.abs (r * (a + 1) - 131072) <=? 512))%Z (zrange 256) = true.
Proof. vm_compute. reflexivity. Qed.
Lemma estimate_good : forall m e, (8388608 <= Z.pos m < 16777216)%Z -> (-149 <= e < 103)%Z ->
  let d := SpecFloat.S754_finite false m e in Rabs (R_of (vrecpe32 d) * R_of d - 1) <= / 256.
Proof.
  intros m e Hm He d. unfold vrecpe32, d. cbn [neon_flush]. destruct (Z.ltb_spec (Z.pos m) 8388608); [lia|]. destruct (Z.leb_spec 103 e); [lia|].
  set (a := (Z.pos m / 32768)%Z). assert (A : (32768 * a <= Z.pos m < 32768 * (a + 1))%Z).
  { unfold a. pose proof (Z.div_mod (Z.pos m) 32768 ltac:(lia)). pose proof (Z.mod_pos_bound (Z.pos m) 32768 ltac:(lia)). lia. }
  assert (A2 : (256 <= a < 512)%Z) by lia.
  pose proof (zrange_forallb 256 _ estimate_all (a - 256)%Z ltac:(lia)) as K. cbv beta zeta in K. replace (256 + (a - 256))%Z with a in K by lia.
  set (r := recip_estimate a) in *. apply andb_true_iff in K as [K K4]. apply andb_true_iff in K as [K K3]. apply andb_true_iff in K as [K1 K2].
  apply Z.leb_le in K1, K3, K4. apply Z.ltb_lt in K2.
  unfold R_of, BinarySingleNaN.SF2R, F2R. cbn [Fnum Fexp cond_Zopp]. rewrite Z2Pos.id by lia.
  assert (P : (Z.abs (r * Z.pos m - 4294967296) <= 16777216)%Z) by nia.
  assert (Q : bpow radix2 (- e - 47) * bpow radix2 e = / IZR 140737488355328).
  { rewrite <- bpow_plus. replace (- e - 47 + e)%Z with (- (47))%Z by lia. rewrite bpow_opp. f_equal. }
  replace (IZR (r * 32768) * bpow radix2 (- e - 47) * (IZR (Z.pos m) * bpow radix2 e) - 1) with (IZR (r * Z.pos m - 4294967296) * / 4294967296).
  - rewrite Rabs_mult, <- abs_IZR, (Rabs_pos_eq (/ _)) by lra. apply IZR_le in P. lra.
  - replace (IZR (r * 32768) * bpow radix2 (- e - 47) * (IZR (Z.pos m) * bpow radix2 e)) with (IZR (r * 32768) * IZR (Z.pos m) * (bpow radix2 (- e - 47) * bpow radix2 e)) by ring.
    rewrite Q, minus_IZR, !mult_IZR. field.
Qed.
Lemma ramps_sized : Forall (sized 8192) silence160 /\ Forall (sized 8192) rising256 /\ Forall (sized 8192) falling256.
Proof.
  split; [|split]; apply Forall_forall; intros x Hx.
  - apply repeat_spec in Hx as ->. apply s_zero. lra.
  - apply in_map_iff in Hx as (k & <- & Hk). apply in_seq in Hk. apply s_int; [lia|apply IZR_le; lia].
  - apply in_map_iff in Hx as (k & <- & Hk). apply in_seq in Hk. apply s_int; [lia|apply IZR_le; lia].
Qed.
Lemma ramps_differ : mbe_wola_combine_arm32 silence160 rising256 falling256 <> mbe_wola_combine_fast silence160 rising256 falling256.
Proof.
  assert (K : match mbe_wola_combine_arm32 silence160 rising256 falling256, mbe_wola_combine_fast silence160 rising256 falling256 with
    | Ok l, Ok r => match nth 80 l fzero, nth 80 r fzero with SpecFloat.S754_finite _ m _, SpecFloat.S754_finite _ m' _ => Pos.eqb m m' | _, _ => true end | _, _ => true end = false) by (vm_compute; reflexivity).
  intros E. rewrite E in K. destruct (mbe_wola_combine_fast _ _ _) as [l|]; [|discriminate K].
  destruct (nth 80 l fzero); try discriminate K. rewrite Pos.eqb_refl in K. discriminate K.
Qed.
