(* Rounding errors of the single precision vector transforms. *)
From Coq Require Import ZArith List Bool Reals Lia Lra Psatz.
From Verif Require Import Res F32 MParms MFft MFftSimd SpecFft SpecTrig SpecFftErr SpecFftSimd PFftSym PFftRun PFloat PReal PEnh3 PNyq PFftReal PFftF32 PFftErr PFftSimd PFftSimdReal.
From Flocq Require Import Core.Core.
Import ListNotations.
Local Open Scope R_scope.

Lemma scales_f32 : forall cosd sind, scales (f32_sarith cosd sind).
Proof.
  intros cosd sind z Hz. cbn [f32_sarith s_ar f32_arith a_mul a_int a_argh].
  assert (C : (z = 1 \/ z = 2 \/ z = 3 \/ z = 4 \/ z = 5 \/ z = 6 \/ z = 7 \/ z = 8 \/ z = 9 \/ z = 10 \/ z = 11 \/ z = 12)%Z) by lia.
  repeat (destruct C as [->|C]; [vm_compute; reflexivity|]). subst z. vm_compute. reflexivity.
Qed.

(* the angles of the table e *)
Definition angle_ok (j q : Z) (a : f32) : bool :=
  match a with
  | S754_finite s m e => (e <? 0)%Z && (Z.abs (cond_Zopp s (Zpos m) * 12800000000 + j * q * 314159265 * Z.pow 2 (- e)) <=? 2560 * Z.pow 2 (- e))%Z && SpecFloat.bounded 24 128 m e
  | _ => false
  end.
Lemma angle_R : forall j q a, (1 <= j * q <= 96)%Z -> angle_ok j q a = true -> ff a /\ Rabs (R_of a - (- 2 * PI * IZR j * IZR q / 256)) <= 2.1e-7.
Proof.
  intros j q a J H. destruct a as [s|s| |s m e]; try discriminate H. cbn [angle_ok] in H. apply andb_prop in H. destruct H as [H V]. apply andb_prop in H. destruct H as [E H]. apply Z.ltb_lt in E. apply Z.leb_le in H.
  split; [split; [exact V|reflexivity]|]. rewrite R_neg_exp by exact E. pose proof PI_bounds as P. set (v := cond_Zopp s (Zpos m)) in *. assert (K : (0 < Z.pow 2 (- e))%Z) by (apply Z.pow_pos_nonneg; lia). set (k := (Z.pow 2 (- e))%Z) in *. clearbody v k.
  assert (Hv : (- (2560 * k) <= v * 12800000000 + j * q * 314159265 * k <= 2560 * k)%Z) by lia. destruct Hv as [H1 H2]. apply IZR_le in H1, H2. rewrite opp_IZR, plus_IZR, !mult_IZR in H1. rewrite plus_IZR, !mult_IZR in H2.
  assert (K' : 0 < IZR k) by (now apply IZR_lt). destruct J as [J1 J2]. apply IZR_le in J1, J2. rewrite mult_IZR in J1, J2. set (jq := IZR j * IZR q) in *.
  assert (X : IZR v / IZR k * IZR k = IZR v) by (field; lra). set (x := IZR v / IZR k) in *. clearbody x. rewrite <- X in H1, H2.
  replace (- 2 * PI * IZR j * IZR q / 256) with (- (jq * (PI / 128))) by (unfold jq; field). clearbody jq.
  assert (B1 : - 2560 <= x * 12800000000 + jq * 314159265) by (apply (Rmult_le_reg_r (IZR k)); [exact K'|]; lra). assert (B2 : x * 12800000000 + jq * 314159265 <= 2560) by (apply (Rmult_le_reg_r (IZR k)); [exact K'|]; lra).
  assert (0 <= jq * (PI - 314159265 / 100000000) <= 96 * 1e-8) by nra. apply Rabs_le. lra.
Qed.
Lemma angles_ok : forallb (fun j => forallb (fun q => angle_ok j q (d2f (ddiv (dmul (dmul (dmul (d_of_Z (-2)) M_PI) (d_of_Z j)) (d_of_Z q)) (d_of_Z 256)))) (map Z.of_nat (seq 1 31))) [1; 2; 3]%Z = true.
Proof. vm_compute. reflexivity. Qed.

Section Trig.
Context (cosd sind : f32 -> f32) (HT : accurate cosd sind).
Notation fs := (f32_sarith cosd sind).
Notation ar := (f32_arith cosd sind).
Lemma app_e : forall j q, (1 <= j <= 3)%Z -> (1 <= q < 32)%Z -> app (ec fs j q) (ec exact_simd j q) 1 10 /\ app (es fs j q) (es exact_simd j q) 1 10.
Proof.
  intros j q Hj Hq. assert (A : angle_ok j q (s_arg fs j q 256) = true).
  { pose proof (proj1 (forallb_forall _ _) angles_ok j ltac:(cbn [List.In]; lia)) as A. cbv beta in A. rewrite forallb_forall in A. apply (A q). apply in_map_iff. exists (Z.to_nat q). split; [lia|]. apply in_seq. lia. }
  destruct (angle_R j q _ ltac:(nia) A) as [X1 X2]. unfold ec, es. set (x := s_arg fs j q 256) in *. change (s_arg exact_simd j q 256) with (- 2 * PI * IZR j * IZR q / 256).
  assert (T : Rabs (- 2 * PI * IZR j * IZR q / 256) <= 2.5). { replace (- 2 * PI * IZR j * IZR q / 256) with (- (IZR (j * q) * (PI / 128))) by (rewrite mult_IZR; field). rewrite Rabs_Ropp. pose proof PI_bounds. assert (0 <= IZR (j * q) <= 93) by (split; apply IZR_le; nia). rewrite Rabs_right by nra. nra. }
  set (t := - 2 * PI * IZR j * IZR q / 256) in *. assert (MG : Rabs (R_of x) <= 3). { replace (R_of x) with (t + (R_of x - t)) by ring. eapply Rle_trans; [apply Rabs_triang|]. lra. }
  destruct (HT x X1 MG) as (C1 & S1 & C2 & S2). cbn [f32_sarith exact_simd s_ar f32_arith exact a_cos a_sin].
  assert (U : u24 = / 16777216) by (unfold u24; lra). split.
  - split; [exact C1|]. split; [apply Rabs_le; apply COS_bound|]. replace (R_of (f_canon (cosd x)) - cos t) with ((R_of (f_canon (cosd x)) - cos (R_of x)) + (cos (R_of x) - cos t)) by ring.
    eapply Rle_trans; [apply Rabs_triang|]. pose proof (cos_lip (R_of x) t). rewrite U. lra.
  - split; [exact S1|]. split; [apply Rabs_le; apply SIN_bound|]. replace (R_of (f_canon (sind x)) - sin t) with ((R_of (f_canon (sind x)) - sin (R_of x)) + (sin (R_of x) - sin t)) by ring.
    eapply Rle_trans; [apply Rabs_triang|]. pose proof (sin_lip (R_of x) t). rewrite U. lra.
Qed.
Lemma app_neg : forall x d M k, app x d M k -> app (fopp x) (- d) M k.
Proof. intros x d M k (A & B & C). split; [now apply fopp_ff|]. rewrite R_fopp, Rabs_Ropp. split; [exact B|]. replace (- R_of x - - d) with (- (R_of x - d)) by ring. now rewrite Rabs_Ropp. Qed.
Lemma app_h : app (d2f M_SQRT1_2) (/ sqrt 2) 1 1.
Proof.
  assert (I : / sqrt 2 = sqrt 2 / 2). { assert (S : sqrt 2 * sqrt 2 = 2) by (apply sqrt_sqrt; lra). pose proof (sqrt_lt_R0 2 ltac:(lra)). apply (Rmult_eq_reg_r (sqrt 2)); [|lra]. rewrite Rinv_l by lra. lra. }
  split; [split; vm_compute; reflexivity|]. rewrite I.
  pose proof (sqrt2_near 1.41421356 4e-9 ltac:(lra) ltac:(lra) ltac:(lra) ltac:(lra)) as Q. apply Rabs_le_inv in Q. split; [rewrite Rabs_right by lra; lra|].
  R_val (d2f M_SQRT1_2). unfold u24. apply Rabs_le. lra.
Qed.
Lemma app_2 : app (d2f M_SQRT2) (sqrt 2) 1.5 1.
Proof.
  split; [split; vm_compute; reflexivity|].
  pose proof (sqrt2_near 1.41421356 4e-9 ltac:(lra) ltac:(lra) ltac:(lra) ltac:(lra)) as Q. apply Rabs_le_inv in Q. split; [rewrite Rabs_right by lra; lra|].
  R_val (d2f M_SQRT2). unfold u24. apply Rabs_le. lra.
Qed.

Section Steps.
Context (c : Z -> f32) (d : Z -> R) (M e : R) (HE : 0 <= e <= 100) (HM : 1e-15 <= M <= 1e22) (HC : forall i, app (c i) (d i) M e).
Definition ax (x : f32) (r w k : R) : Prop := app x r (w * M) (e + k).
Lemma ax_weak : forall x r w k w' k', ax x r w k -> w <= w' -> 0 <= k <= k' -> ax x r w' k'.
Proof. intros x r w k w' k' H A B. apply (app_weaken _ _ (w * M) (e + k)); [exact H|nra|lra]. Qed.
Lemma ax_in : forall i, ax (c i) (d i) 1 0.
Proof. intros i. unfold ax. rewrite Rmult_1_l, Rplus_0_r. apply HC. Qed.
Lemma ax_add : forall x y r s v w k, ax x r v k -> ax y s w k -> 0 <= k <= 90 -> 0 <= v -> 0 <= w -> 0.01 <= v + w <= 100 -> ax (fadd x y) (r + s) (v + w) (k + 1.01).
Proof. intros x y r s v w k A B K V W H. unfold ax in *. rewrite Rmult_plus_distr_r. rewrite <- Rplus_assoc. apply app_add; [exact A|exact B|lra|]. rewrite <- Rmult_plus_distr_r. nra. Qed.
Lemma ax_sub : forall x y r s v w k, ax x r v k -> ax y s w k -> 0 <= k <= 90 -> 0 <= v -> 0 <= w -> 0.01 <= v + w <= 100 -> ax (fsub x y) (r - s) (v + w) (k + 1.01).
Proof. intros x y r s v w k A B K V W H. unfold ax in *. rewrite Rmult_plus_distr_r. rewrite <- Rplus_assoc. apply app_sub; [exact A|exact B|lra|]. rewrite <- Rmult_plus_distr_r. nra. Qed.
Lemma ax_mulr : forall x r t s v k n j, ax x r v k -> app t s n j -> 0 <= k <= 90 -> 0 <= j <= 10 -> 0.01 <= v <= 100 -> 1 <= n <= 2 -> ax (fmul x t) (r * s) (v * n) (k + (j + 1.01)).
Proof.
  intros x r t s v k n j A B K J V N. unfold ax in *. replace (v * n * M) with (v * M * n) by ring. replace (e + (k + (j + 1.01))) with (e + k + j + 1.01) by ring. apply app_mul; [exact A|exact B|lra|lra|].
  assert (1e-17 <= v * M <= 1e24) by nra. nra.
Qed.
Lemma ax_mull : forall x r t s v k n j, ax x r v k -> app t s n j -> 0 <= k <= 90 -> 0 <= j <= 10 -> 0.01 <= v <= 100 -> 1 <= n <= 2 -> ax (fmul t x) (s * r) (v * n) (k + (j + 1.01)).
Proof.
  intros x r t s v k n j A B K J V N. unfold ax in *. replace (v * n * M) with (n * (v * M)) by ring. replace (e + (k + (j + 1.01))) with (j + (e + k) + 1.01) by ring. apply app_mul; [exact B|exact A|lra|lra|].
  assert (1e-17 <= v * M <= 1e24) by nra. nra.
Qed.
Lemma ax_neg : forall x r v k, ax x r v k -> ax (fopp x) (- r) v k.
Proof. intros. now apply app_neg. Qed.
(* sums and differences *)
Definition two_of (f : f32 -> f32 -> f32) (g : R -> R -> R) : Prop := f = fadd /\ g = Rplus \/ f = fsub /\ g = Rminus.
Lemma two_add : two_of fadd Rplus. Proof. now left. Qed.
Lemma two_sub : two_of fsub Rminus. Proof. now right. Qed.
Lemma ax_two : forall f g x y r s v w k, two_of f g -> ax x r v k -> ax y s w k -> 0 <= k <= 90 -> 0 <= v -> 0 <= w -> 0.01 <= v + w <= 100 -> ax (f x y) (g r s) (v + w) (k + 1.01).
Proof. intros f g x y r s v w k [[-> ->]|[-> ->]]; [apply ax_add|apply ax_sub]. Qed.
Lemma ax_two0 : forall f g i j, two_of f g -> ax (f (c i) (c j)) (g (d i) (d j)) 2 1.01.
Proof. intros f g i j F. apply (ax_weak _ _ (1 + 1) (0 + 1.01)); [|lra|lra]. apply ax_two; try apply ax_in; try assumption; lra. Qed.
Lemma ax_two4 : forall f g f1 g1 f2 g2 i j k l, two_of f g -> two_of f1 g1 -> two_of f2 g2 -> ax (f (f1 (c i) (c j)) (f2 (c k) (c l))) (g (g1 (d i) (d j)) (g2 (d k) (d l))) 4 2.02.
Proof. intros. apply (ax_weak _ _ (2 + 2) (1.01 + 1.01)); [|lra|lra]. apply ax_two; try apply ax_two0; assumption || lra. Qed.
(* a product of complex numbers *)
Lemma ax_cpx : forall f1 g1 f2 g2 x y X Y v k ca sa CA SA, two_of f1 g1 -> two_of f2 g2 -> ax x X v k -> ax y Y v k -> app ca CA 1 10 -> app sa SA 1 10 -> 0 <= k <= 60 -> 0.01 <= v <= 20 ->
  ax (f1 (fmul x ca) (fmul y sa)) (g1 (X * CA) (Y * SA)) (2 * v) (k + 12.02) /\ ax (f2 (fmul y ca) (fmul x sa)) (g2 (Y * CA) (X * SA)) (2 * v) (k + 12.02).
Proof.
  intros f1 g1 f2 g2 x y X Y v k ca sa CA SA T1 T2 HX HY HC' HS K V.
  split; (apply (ax_weak _ _ (v * 1 + v * 1) (k + (10 + 1.01) + 1.01)); [|lra|lra]); apply ax_two; try assumption; try lra; apply ax_mulr; assumption || lra.
Qed.
Lemma ax_rot : forall q j, (1 <= q < 32)%Z -> (1 <= j <= 3)%Z -> ax (fst (rot fs c q j)) (fst (rot exact_simd d q j)) 2 12.02 /\ ax (snd (rot fs c q j)) (snd (rot exact_simd d q j)) 2 12.02.
Proof.
  intros q j Hq Hj. unfold rot. rewrite (proj2 (Z.eqb_neq j 0)) by lia. destruct (app_e j q Hj Hq) as [C S]. unfold cplxmul. cbn [fst snd]. cbn [f32_sarith exact_simd s_ar].
  change (a_add ar) with fadd. change (a_sub ar) with fsub. change (a_mul ar) with fmul. change (a_add exact) with Rplus. change (a_sub exact) with Rminus. change (a_mul exact) with Rmult.
  destruct (ax_cpx fsub Rminus fadd Rplus _ _ _ _ 1 0 _ _ _ _ two_sub two_add (ax_in (64 * j + (2 * q - 1))) (ax_in (64 * j + 2 * q)) C S ltac:(lra) ltac:(lra)) as [A B].
  split; [apply (ax_weak _ _ _ _ _ _ A)|apply (ax_weak _ _ _ _ _ _ B)]; lra.
Qed.
Lemma ax_four : forall f g f1 g1 f2 g2 x0 x1 x2 x3 X0 X1 X2 X3, two_of f g -> two_of f1 g1 -> two_of f2 g2 -> ax x0 X0 1 0 -> ax x1 X1 2 12.02 -> ax x2 X2 2 12.02 -> ax x3 X3 2 12.02 ->
  ax (f (f1 x1 x3) (f2 x0 x2)) (g (g1 X1 X3) (g2 X0 X2)) 7 14.1 /\ ax (f (f2 x0 x2) (f1 x1 x3)) (g (g2 X0 X2) (g1 X1 X3)) 7 14.1.
Proof.
  intros f g f1 g1 f2 g2 x0 x1 x2 x3 X0 X1 X2 X3 F G H A0 A1 A2 A3.
  assert (P : ax (f1 x1 x3) (g1 X1 X3) 4 13.03). { apply (ax_weak _ _ (2 + 2) (12.02 + 1.01)); [|lra|lra]. apply ax_two; assumption || lra. }
  assert (Q : ax (f2 x0 x2) (g2 X0 X2) 3 13.03). { apply (ax_weak _ _ (1 + 2) (12.02 + 1.01)); [|lra|lra]. apply ax_two; try assumption; try lra. apply (ax_weak _ _ 1 0); [exact A0|lra|lra]. }
  split; [apply (ax_weak _ _ (4 + 3) (13.03 + 1.01))|apply (ax_weak _ _ (3 + 4) (13.03 + 1.01))]; try lra; apply ax_two; assumption || lra.
Qed.
Lemma fin_ax : forall p, (0 <= p < 256)%Z -> ax (fin_cell fs c p) (fin_cell exact_simd d p) 7 14.1.
Proof.
  intros p Hp. pose proof two_add as TA. pose proof two_sub as TS. destruct (fin_cases p Hp) as [I|(t & q & Ht & Hq & E)].
  - assert (S4 : forall f g f1 g1 f2 g2 i j k l, two_of f g -> two_of f1 g1 -> two_of f2 g2 -> ax (f (f1 (c i) (c j)) (f2 (c k) (c l))) (g (g1 (d i) (d j)) (g2 (d k) (d l))) 7 14.1) by (intros; apply (ax_weak _ _ 4 2.02); [now apply ax_two4|lra|lra]).
    assert (S2 : forall f g i j, two_of f g -> ax (f (c i) (c j)) (g (d i) (d j)) 7 14.1) by (intros; apply (ax_weak _ _ 2 1.01); [now apply ax_two0|lra|lra]).
    assert (MH : forall f g f1 g1 x X i j, two_of f g -> two_of f1 g1 -> ax x X 1 0 -> ax (f x (fmul (d2f M_SQRT1_2) (f1 (c i) (c j)))) (g X (/ sqrt 2 * g1 (d i) (d j))) 7 14.1).
    { intros f g f1 g1 x X i j F F1 HX. apply (ax_weak _ _ (1 + 2 * 1) (1.01 + (1 + 1.01) + 1.01)); [|lra|lra]. apply ax_two; [exact F|apply (ax_weak _ _ 1 0); [exact HX|lra|lra]| |lra|lra|lra|lra]. apply ax_mull; [now apply ax_two0|apply app_h|lra|lra|lra|lra]. }
    cbn [List.In] in I. unfold fin_cell.
    repeat (destruct I as [<-|I]; [cbn [Z.eqb Pos.eqb]; cbv zeta; cbn [f32_sarith exact_simd s_ar s_h s_neg]; change (a_add ar) with fadd; change (a_sub ar) with fsub; change (a_mul ar) with fmul; change (a_add exact) with Rplus; change (a_sub exact) with Rminus; change (a_mul exact) with Rmult;
      first [apply S4; assumption|apply S2; assumption|apply MH; try assumption; first [apply ax_in|apply ax_neg, ax_in]]|]). destruct I.
  - destruct (fin_at fs c t q Ht Hq) as [E1 E2]. destruct (fin_at exact_simd d t q Ht Hq) as [E3 E4].
    assert (K : ax (fst (fin_bin fs c t q)) (fst (fin_bin exact_simd d t q)) 7 14.1 /\ ax (snd (fin_bin fs c t q)) (snd (fin_bin exact_simd d t q)) 7 14.1).
    { destruct (ax_rot q 1 ltac:(lia) ltac:(lia)) as [R1 I1]. destruct (ax_rot q 2 ltac:(lia) ltac:(lia)) as [R2 I2]. destruct (ax_rot q 3 ltac:(lia) ltac:(lia)) as [R3 I3]. unfold fin_bin.
      destruct (rot fs c q 1) as [r1 i1]. destruct (rot fs c q 2) as [r2 i2]. destruct (rot fs c q 3) as [r3 i3]. destruct (rot exact_simd d q 1) as [r1' i1']. destruct (rot exact_simd d q 2) as [r2' i2']. destruct (rot exact_simd d q 3) as [r3' i3'].
      cbn [fst snd] in R1, I1, R2, I2, R3, I3. unfold rot. cbn [Z.eqb]. cbv zeta. cbn [f32_sarith exact_simd s_ar]. change (a_add ar) with fadd. change (a_sub ar) with fsub. change (a_add exact) with Rplus. change (a_sub exact) with Rminus.
      pose proof (ax_in (2 * q - 1)) as R0. pose proof (ax_in (2 * q)) as I0.
      destruct (t =? 0)%Z, (t =? 1)%Z, (t =? 2)%Z; cbn [fst snd]; (split; first [eapply (fun F G H A B C D => proj1 (ax_four _ _ _ _ _ _ _ _ _ _ _ _ _ _ F G H A B C D)); eassumption|eapply (fun F G H A B C D => proj2 (ax_four _ _ _ _ _ _ _ _ _ _ _ _ _ _ F G H A B C D)); eassumption]). }
    destruct K as [K1 K2]. destruct E as [-> | ->]; [rewrite E1, E3|rewrite E2, E4]; assumption.
Qed.
Lemma pre_ax : forall p, ax (pre_cell fs c p) (pre_cell exact_simd d p) 8 14.1.
Proof.
  intros p. pose proof two_add as TA. pose proof two_sub as TS. unfold pre_cell. cbv zeta. cbn [f32_sarith exact_simd s_ar s_2 s_neg].
  pose proof (Z.mod_pos_bound p 64 ltac:(lia)) as Hr. set (r := (p mod 64)%Z) in *. set (j := (p / 64)%Z). clearbody r j.
  change (a_add ar) with fadd. change (a_sub ar) with fsub. change (a_mul ar) with fmul. change (a_add exact) with Rplus. change (a_sub exact) with Rminus. change (a_mul exact) with Rmult.
  assert (T2 : app (a_int ar 2) (a_int exact 2) 2 0) by (apply app_int; lia).
  assert (T : forall i, ax (fmul (a_int ar 2) (c i)) (a_int exact 2 * d i) 2 1.01). { intros i. apply (ax_weak _ _ (1 * 2) (0 + (0 + 1.01))); [|lra|lra]. apply ax_mull; [apply ax_in|exact T2|lra|lra|lra|lra]. }
  assert (G : forall f g f1 g1 a b x, two_of f g -> two_of f1 g1 -> ax (f (f1 (c a) (c b)) (fmul (a_int ar 2) (c x))) (g (g1 (d a) (d b)) (a_int exact 2 * d x)) 8 14.1).
  { intros. apply (ax_weak _ _ (2 + 2) (1.01 + 1.01)); [|lra|lra]. apply ax_two; [assumption|now apply ax_two0|apply T|lra|lra|lra|lra]. }
  assert (S2 : forall f g f1 g1 s1 S1 s2 S2 a b x y, two_of f g -> two_of f1 g1 -> app s1 S1 1.5 1 -> app s2 S2 1.5 1 -> ax (fsub (fmul s1 (f (c a) (c b))) (fmul s2 (f1 (c x) (c y)))) (S1 * g (d a) (d b) - S2 * g1 (d x) (d y)) 8 14.1).
  { intros f g f1 g1 s1 S1 s2 S2 a b x y F F1 H1 H2. apply (ax_weak _ _ (2 * 1.5 + 2 * 1.5) (1.01 + (1 + 1.01) + 1.01)); [|lra|lra]. apply ax_sub; try lra; (apply ax_mull; [now apply ax_two0|assumption|lra|lra|lra|lra]). }
  assert (D2 : forall f g a b, two_of f g -> ax (fmul (a_int ar 2) (f (c a) (c b))) (a_int exact 2 * g (d a) (d b)) 8 14.1). { intros f g a b F. apply (ax_weak _ _ (2 * 2) (1.01 + (0 + 1.01))); [|lra|lra]. apply ax_mull; [now apply ax_two0|exact T2|lra|lra|lra|lra]. }
  destruct (Z.eqb_spec r 0) as [R0|R0]; [destruct (j =? 0)%Z; [now apply G|]; destruct (j =? 1)%Z; [now apply G|]; destruct (j =? 2)%Z; now apply G|].
  destruct (Z.eqb_spec r 63) as [R1|R1].
  { pose proof app_2 as A2. pose proof (app_neg _ _ _ _ A2) as A2n. destruct (j =? 0)%Z; [now apply D2|]. destruct (j =? 1)%Z; [now apply S2|]. destruct (j =? 2)%Z; [now apply D2|]. apply S2; assumption. }
  set (q := ((r + 1) / 2)%Z). assert (Q : (1 <= q < 32)%Z). { unfold q. pose proof (Z.div_mod (r + 1) 2 ltac:(lia)). pose proof (Z.mod_pos_bound (r + 1) 2 ltac:(lia)). lia. } clearbody q.
  assert (P : forall j' x y X Y, (1 <= j' <= 3)%Z -> ax x X 4 2.02 -> ax y Y 4 2.02 -> ax (if Z.odd r then fst (cplxmulconj ar x y (ec fs j' q) (es fs j' q)) else snd (cplxmulconj ar x y (ec fs j' q) (es fs j' q)))
    (if Z.odd r then fst (cplxmulconj exact X Y (ec exact_simd j' q) (es exact_simd j' q)) else snd (cplxmulconj exact X Y (ec exact_simd j' q) (es exact_simd j' q))) 8 14.1).
  { intros j' x y X Y Hj HX HY. destruct (app_e j' q Hj Q) as [C S]. destruct (ax_cpx fadd Rplus fsub Rminus _ _ _ _ 4 2.02 _ _ _ _ TA TS HX HY C S ltac:(lra) ltac:(lra)) as [A B].
    unfold cplxmulconj. cbn [fst snd]. change (a_add ar) with fadd. change (a_sub ar) with fsub. change (a_mul ar) with fmul. change (a_add exact) with Rplus. change (a_sub exact) with Rminus. change (a_mul exact) with Rmult.
    destruct (Z.odd r); [apply (ax_weak _ _ _ _ _ _ A)|apply (ax_weak _ _ _ _ _ _ B)]; lra. }
  destruct (j =? 0)%Z; [cbn [fst snd]; destruct (Z.odd r); apply (ax_weak _ _ 4 2.02); try lra; now apply ax_two4|].
  destruct (j =? 1)%Z; [apply P; [lia| |]; now apply ax_two4|]. destruct (j =? 2)%Z; apply P; try lia; now apply ax_two4.
Qed.
End Steps.

(* the last and the first step only look at the 256 cells, so the bound is stated for those *)
Lemma vforward_app : forall c d B p, 1e-15 <= B <= 1e18 -> all_app c d B 0 -> (0 <= p < 256)%Z -> app (vforward fs c p) (vforward exact_simd d p) (1372 * B) 44.4.
Proof.
  intros c d B p HB H Hp. unfold vforward. change (s_ar fs) with ar. change (s_ar exact_simd) with exact.
  assert (S1 : all_app (fstep ar 1 64 c) (fstep exact 1 64 d) (4 * B) 2.02).
  { intros i. unfold fstep, fterm. apply (app_weaken _ _ (4 * B) (0 + 2.02)); [|lra|lra]. apply fterm_ap1; auto; try lra. apply Z.mod_pos_bound. lia. }
  assert (S2 := fstep_app cosd sind HT 4 16 _ _ (4 * B) 2.02 ltac:(lia) ltac:(lia) ltac:(lia) ltac:(lra) ltac:(lra) S1).
  assert (S3 := fstep_app cosd sind HT 16 4 _ _ (7 * (4 * B)) (2.02 + 14.1) ltac:(lia) ltac:(lia) ltac:(lia) ltac:(lra) ltac:(lra) S2).
  assert (S4 := fin_ax _ _ (7 * (7 * (4 * B))) (2.02 + 14.1 + 14.1) ltac:(lra) ltac:(lra) S3 p Hp).
  apply (app_weaken _ _ _ _ _ _ S4); lra.
Qed.
Lemma vbackward_app : forall c d B p, 1e-15 <= B <= 1e18 -> all_app c d B 0 -> app (vbackward fs c p) (vbackward exact_simd d p) (2048 * B) 44.4.
Proof.
  intros c d B p HB H. unfold vbackward. change (s_ar fs) with ar. change (s_ar exact_simd) with exact.
  assert (S1 : all_app (pre_cell fs c) (pre_cell exact_simd d) (8 * B) (0 + 14.1)) by (intros i; apply (pre_ax c d B 0); auto; lra).
  assert (S2 := bstep_app cosd sind HT 16 4 _ _ (8 * B) (0 + 14.1) ltac:(lia) ltac:(lia) ltac:(lia) ltac:(lra) ltac:(lra) S1).
  assert (S3 := bstep_app cosd sind HT 4 16 _ _ (8 * (8 * B)) (0 + 14.1 + 14.1) ltac:(lia) ltac:(lia) ltac:(lia) ltac:(lra) ltac:(lra) S2).
  assert (S4 := bstep_app1 cosd sind _ _ (8 * (8 * (8 * B))) (0 + 14.1 + 14.1 + 14.1) ltac:(lra) ltac:(lra) S3 p).
  apply (app_weaken _ _ _ _ _ _ S4); lra.
Qed.
End Trig.

(* the results are canonical *)
Section Canonical.
Context (cosd sind : f32 -> f32).
Notation fs := (f32_sarith cosd sind).
Notation ar := (f32_arith cosd sind).
Ltac vfs := repeat first [assumption | apply vf_fadd | apply vf_fsub | apply vf_fmul | apply vf_fopp | apply vf_d2f | apply vf_canon | apply vf_of_Z].
Lemma cpx_vf : forall x y a b, vf x -> vf y -> vf a -> vf b -> vf (fst (cplxmul ar x y a b)) /\ vf (snd (cplxmul ar x y a b)) /\ vf (fst (cplxmulconj ar x y a b)) /\ vf (snd (cplxmulconj ar x y a b)).
Proof. intros x y a b X Y A B. unfold cplxmul, cplxmulconj. cbn [fst snd f32_arith a_add a_sub a_mul]. repeat split; vfs. Qed.
Lemma e_vf : forall j q, vf (ec fs j q) /\ vf (es fs j q).
Proof. intros j q. unfold ec, es. cbn [f32_sarith s_ar f32_arith a_cos a_sin]. split; vfs. Qed.
Lemma fin_vf : forall c p, (forall i, vf (c i)) -> vf (fin_cell fs c p).
Proof.
  intros c p H. unfold fin_cell. cbv zeta. cbn [f32_sarith s_ar f32_arith a_add a_sub a_mul s_h s_neg].
  repeat match goal with |- vf (if (p =? ?k)%Z then _ else _) => destruct (p =? k)%Z; [vfs; apply H|] end.
  generalize (p / 2 / 32)%Z. intros t. match goal with |- context [fin_bin _ _ t ?z] => generalize z end. intros q.
  assert (R : forall j, vf (fst (rot fs c q j)) /\ vf (snd (rot fs c q j))). { intros j. unfold rot. destruct (j =? 0)%Z; [split; apply H|]. destruct (e_vf j q) as [E1 E2]. destruct (cpx_vf (c (64 * j + (2 * q - 1))%Z) (c (64 * j + 2 * q)%Z) _ _ (H _) (H _) E1 E2) as (A & B & _). split; assumption. }
  assert (K : vf (fst (fin_bin fs c t q)) /\ vf (snd (fin_bin fs c t q))).
  { unfold fin_bin. destruct (R 0%Z), (R 1%Z), (R 2%Z), (R 3%Z). destruct (rot fs c q 0), (rot fs c q 1), (rot fs c q 2), (rot fs c q 3). cbn [fst snd] in *. cbv zeta. cbn [f32_sarith s_ar f32_arith a_add a_sub].
    destruct (t =? 0)%Z, (t =? 1)%Z, (t =? 2)%Z; cbn [fst snd]; split; vfs. }
  destruct (p mod 2 =? 0)%Z; apply K.
Qed.
Lemma pre_vf : forall c p, (forall i, vf (c i)) -> vf (pre_cell fs c p).
Proof.
  intros c p H. unfold pre_cell. cbv zeta. cbn [f32_sarith s_ar f32_arith a_add a_sub a_mul a_int s_2 s_neg]. generalize (p / 64)%Z. intros j. generalize (p mod 64)%Z. intros r.
  assert (T : forall (b : bool) u v, vf u -> vf v -> vf (if b then u else v)) by (intros [|]; auto).
  apply T; [repeat (apply T; [vfs; apply H|]); vfs; apply H|]. apply T; [repeat (apply T; [vfs; apply H|]); vfs; apply H|].
  generalize ((r + 1) / 2)%Z. intros q. destruct (e_vf 1 q) as [E1 F1]. destruct (e_vf 2 q) as [E2 F2]. destruct (e_vf 3 q) as [E3 F3].
  destruct (j =? 0)%Z; [cbn [fst snd]; apply T; vfs; apply H|].
  destruct (j =? 1)%Z; [|destruct (j =? 2)%Z]; (match goal with |- vf (if _ then fst (cplxmulconj _ ?x ?y ?a ?b) else _) => destruct (cpx_vf x y a b) as (_ & _ & A & B) end; [vfs; apply H|vfs; apply H|assumption|assumption|apply T; assumption]).
Qed.
Lemma vforward_vf : forall c k, (forall i, vf (c i)) -> vf (vforward fs c k).
Proof. intros c k H. unfold vforward. apply fin_vf. intros ?. unfold fstep. change (s_ar fs) with ar. repeat (apply eval_vf; intros ?). apply H. Qed.
Lemma vbackward_vf : forall c k, (forall i, vf (c i)) -> vf (vbackward fs c k).
Proof. intros c k H. unfold vbackward, bstep. change (s_ar fs) with ar. do 3 (apply eval_vf; intros ?). apply pre_vf, H. Qed.
Theorem vfft_defined : forall x, length x = 256%nat -> exists y, length y = 256%nat /\ (Forall vf x -> Forall vf y) /\
  (forall out scr, length out = 64%nat -> length scr = 64%nat -> vfft256 fs x out scr = Ok y) /\
  (forall o, Forall vf x -> fft_fwd (with_pffft_simd cosd sind o) x = y).
Proof.
  intros x L. exists (map (vforward fs (env_of ar x)) (zs 256)). split; [apply zs_length|]. split. { intros H. apply Forall_forall. intros v K. apply in_map_iff in K. destruct K as (k & <- & _). apply vforward_vf. intros i. now apply env_vf. }
  split. { intros out scr Lo Ls. apply vfft256_run; try assumption. apply scales_f32. }
  intros o H. unfold fft_fwd, with_pffft_simd. cbn [o_fft]. rewrite vfft256_run by (try exact L; try apply scales_f32; reflexivity). change (s_ar fs) with ar.
  rewrite (seq_zs (fun k => f_canon (nth (Z.to_nat k) (map (vforward fs (env_of ar x)) (zs 256)) fzero))). refine (eq_trans _ (map_zs_id _)). apply map_ext. intros k. apply canon_id.
  destruct (nth_in_or_default (Z.to_nat k) (map (vforward fs (env_of ar x)) (zs 256)) fzero) as [K|K]; [|rewrite K; reflexivity]. apply in_map_iff in K. destruct K as (j & <- & _). apply vforward_vf. intros i. now apply env_vf.
Qed.
Theorem vifft_defined : forall x, length x = 256%nat -> exists y, length y = 256%nat /\ (Forall vf x -> Forall vf y) /\
  (forall out scr, length out = 64%nat -> length scr = 64%nat -> vifft256 fs x out scr = Ok y) /\
  (forall o, Forall vf x -> fft_bwd (with_pffft_simd cosd sind o) x = y).
Proof.
  intros x L. exists (map (vbackward fs (env_of ar x)) (zs 256)). split; [apply zs_length|]. split. { intros H. apply Forall_forall. intros v K. apply in_map_iff in K. destruct K as (k & <- & _). apply vbackward_vf. intros i. now apply env_vf. }
  split. { intros out scr Lo Ls. apply vifft256_run; try assumption. apply scales_f32. }
  intros o H. unfold fft_bwd, with_pffft_simd. cbn [o_ifft]. rewrite vifft256_run by (try exact L; try apply scales_f32; reflexivity). change (s_ar fs) with ar.
  rewrite (seq_zs (fun k => f_canon (nth (Z.to_nat k) (map (vbackward fs (env_of ar x)) (zs 256)) fzero))). refine (eq_trans _ (map_zs_id _)). apply map_ext. intros k. apply canon_id.
  destruct (nth_in_or_default (Z.to_nat k) (map (vbackward fs (env_of ar x)) (zs 256)) fzero) as [K|K]; [|rewrite K; reflexivity]. apply in_map_iff in K. destruct K as (j & <- & _). apply vbackward_vf. intros i. now apply env_vf.
Qed.
End Canonical.
Theorem vfft_error : forall cosd sind x B out scr, accurate cosd sind -> 1e-15 <= B <= 1e18 -> Forall (sized B) x -> length x = 256%nat -> length out = 64%nat -> length scr = 64%nat ->
  exists y, vfft256 (f32_sarith cosd sind) x out scr = Ok y /\ Forall2 (fun v r => near v r (B / 256)) y (packed (bin_re (map R_of x)) (bin_im (map R_of x))).
Proof.
  intros cosd sind x B out scr HT HB H L Lo Ls. rewrite vfft256_run by (try assumption; apply scales_f32). eexists. split; [reflexivity|].
  assert (Lm : length (map R_of x) = 256%nat) by now rewrite map_length.
  assert (E : packed (bin_re (map R_of x)) (bin_im (map R_of x)) = map (vforward exact_simd (env_of exact (map R_of x))) (zs 256)).
  { pose proof (vfft_exact (map R_of x) (fresh 64) (fresh 64) Lm eq_refl eq_refl) as E. rewrite vfft256_run in E by (try exact Lm; try exact scales_exact; reflexivity). change (s_ar exact_simd) with exact in E. congruence. }
  rewrite E. apply (Forall2_nth_intro _ _ _ fzero 0); [now rewrite !zs_length|]. rewrite zs_length. intros n Hn. rewrite !map_zs_nth by exact Hn. change (s_ar (f32_sarith cosd sind)) with (f32_arith cosd sind).
  destruct (vforward_app cosd sind HT _ _ B (Z.of_nat n) HB (env_app cosd sind x B ltac:(lra) H) ltac:(lia)) as (A1 & _ & A3). split; [exact A1|]. eapply Rle_trans; [exact A3|]. unfold u24. lra.
Qed.
Theorem vifft_error : forall cosd sind x B out scr, accurate cosd sind -> 1e-15 <= B <= 1e18 -> Forall (sized B) x -> length x = 256%nat -> length out = 64%nat -> length scr = 64%nat ->
  exists y, vifft256 (f32_sarith cosd sind) x out scr = Ok y /\ Forall2 (fun v r => near v r (B / 128)) y (map (synthesis (map R_of x)) (seq 0 256)).
Proof.
  intros cosd sind x B out scr HT HB H L Lo Ls. rewrite vifft256_run by (try assumption; apply scales_f32). eexists. split; [reflexivity|].
  assert (Lm : length (map R_of x) = 256%nat) by now rewrite map_length.
  assert (E : map (synthesis (map R_of x)) (seq 0 256) = map (vbackward exact_simd (env_of exact (map R_of x))) (zs 256)).
  { pose proof (vifft_exact (map R_of x) (fresh 64) (fresh 64) Lm eq_refl eq_refl) as E. rewrite vifft256_run in E by (try exact Lm; try exact scales_exact; reflexivity). change (s_ar exact_simd) with exact in E. congruence. }
  rewrite E. apply (Forall2_nth_intro _ _ _ fzero 0); [now rewrite !zs_length|]. rewrite zs_length. intros n Hn. rewrite !map_zs_nth by exact Hn. change (s_ar (f32_sarith cosd sind)) with (f32_arith cosd sind).
  destruct (vbackward_app cosd sind HT _ _ B (Z.of_nat n) HB (env_app cosd sind x B ltac:(lra) H)) as (A1 & _ & A3). split; [exact A1|]. eapply Rle_trans; [exact A3|]. unfold u24. lra.
Qed.
(* two results near the same values are near each other *)
Lemma near_near : forall y z r e f, Forall2 (fun v r => near v r e) y r -> Forall2 (fun v r => near v r f) z r -> Forall2 (fun v w => near v (R_of w) (e + f)) y z.
Proof.
  intros y z r e f H. revert z. induction H as [|v r y rs V H IH]; intros z K; inversion K as [|w r' z' rs' W K' E1 E2]; subst; constructor; [|now apply IH].
  destruct V as [V1 V2]. destruct W as [W1 W2]. split; [exact V1|]. replace (R_of v - R_of w) with ((R_of v - r) + - (R_of w - r)) by ring. eapply Rle_trans; [apply Rabs_triang|]. rewrite Rabs_Ropp. lra.
Qed.
Lemma near_weak : forall y z e f, e <= f -> Forall2 (fun v w => near v (R_of w) e) y z -> Forall2 (fun v w => near v (R_of w) f) y z.
Proof. intros y z e f L H. induction H as [|v w y z [A B] H IH]; constructor; [split; [exact A|lra]|exact IH]. Qed.
Theorem vfft_scalar : forall cosd sind x B out scr out' scr', accurate cosd sind -> 1e-15 <= B <= 1e18 -> Forall (sized B) x -> length x = 256%nat -> length out = 64%nat -> length scr = 64%nat -> length out' = 256%nat -> length scr' = 256%nat ->
  exists y z, vfft256 (f32_sarith cosd sind) x out scr = Ok y /\ fft256 (f32_arith cosd sind) x out' scr' = Ok z /\ Forall2 (fun v w => near v (R_of w) (B / 128)) y z.
Proof.
  intros cosd sind x B out scr out' scr' HT HB H L Lo Ls Lo' Ls'. destruct (vfft_error cosd sind x B out scr HT HB H L Lo Ls) as (y & E & N). destruct (fft_error cosd sind x B out' scr' HT HB H L Lo' Ls') as (z & F & O).
  exists y, z. split; [exact E|]. split; [exact F|]. apply (near_weak _ _ (B / 256 + B / 256)); [lra|]. exact (near_near _ _ _ _ _ N O).
Qed.
Theorem vifft_scalar : forall cosd sind x B out scr out' scr', accurate cosd sind -> 1e-15 <= B <= 1e18 -> Forall (sized B) x -> length x = 256%nat -> length out = 64%nat -> length scr = 64%nat -> length out' = 256%nat -> length scr' = 256%nat ->
  exists y z, vifft256 (f32_sarith cosd sind) x out scr = Ok y /\ ifft256 (f32_arith cosd sind) x out' scr' = Ok z /\ Forall2 (fun v w => near v (R_of w) (B / 64)) y z.
Proof.
  intros cosd sind x B out scr out' scr' HT HB H L Lo Ls Lo' Ls'. destruct (vifft_error cosd sind x B out scr HT HB H L Lo Ls) as (y & E & N). destruct (ifft_error cosd sind x B out' scr' HT HB H L Lo' Ls') as (z & F & O).
  exists y, z. split; [exact E|]. split; [exact F|]. apply (near_weak _ _ (B / 128 + B / 128)); [lra|]. exact (near_near _ _ _ _ _ N O).
Qed.
Theorem vroundtrip_error : forall cosd sind x B y out scr out' scr', accurate cosd sind -> 1e-15 <= B <= 1e15 -> Forall (sized B) x -> length x = 256%nat -> length out = 64%nat -> length scr = 64%nat ->
  length out' = 64%nat -> length scr' = 64%nat -> vfft256 (f32_sarith cosd sind) x out scr = Ok y ->
  exists z, vifft256 (f32_sarith cosd sind) y out' scr' = Ok z /\ Forall2 (fun v a => near v (256 * R_of a) (5 * B)) z x.
Proof.
  intros cosd sind x B y out scr out' scr' HT HB H L Lo Ls Lo' Ls' EY.
  destruct (vfft_error cosd sind x B out scr HT ltac:(lra) H L Lo Ls) as (y' & E & F). rewrite E in EY. assert (y' = y) by congruence. subst y'. clear EY.
  set (P := packed (bin_re (map R_of x)) (bin_im (map R_of x))) in *. assert (LP : length P = 256%nat) by apply packed_length. assert (Ly : length y = 256%nat) by (rewrite (Forall2_len _ _ _ F); exact LP).
  pose proof (packed_bound (map R_of x) B (sized_sample x B L H)) as PB. fold P in PB.
  assert (SY : Forall (sized (257 * B)) y).
  { apply Forall_forall. intros v K. apply (In_nth _ _ fzero) in K. destruct K as (n & Hn & <-). pose proof (Forall2_nth_elim _ _ _ fzero 0 n F Hn) as [A1 A2]. split; [exact A1|].
    assert (Rabs (nth n P 0) <= 256 * B) by (apply (proj1 (Forall_forall _ _) PB), nth_In; lia). replace (R_of (nth n y fzero)) with ((R_of (nth n y fzero) - nth n P 0) + nth n P 0) by ring. eapply Rle_trans; [apply Rabs_triang|]. lra. }
  destruct (vifft_error cosd sind y (257 * B) out' scr' HT ltac:(lra) SY Ly Lo' Ls') as (z & EZ & FZ). exists z. split; [exact EZ|].
  assert (Lz : length z = 256%nat) by (rewrite (Forall2_len _ _ _ FZ), map_length, seq_length; reflexivity).
  assert (X : map (synthesis P) (seq 0 256) = map (Rmult 256) (map R_of x)).
  { assert (Lm : length (map R_of x) = 256%nat) by now rewrite map_length.
    pose proof (roundtrip_exact (map R_of x) P (fresh 256) (fresh 256) (fresh 256) (fresh 256) Lm eq_refl eq_refl eq_refl eq_refl (fft_exact _ (fresh 256) (fresh 256) Lm eq_refl eq_refl)) as X. rewrite ifft_exact in X by (try exact LP; reflexivity). congruence. }
  apply (Forall2_nth_intro _ _ _ fzero fzero); [lia|]. rewrite Lz. intros n Hn. pose proof (Forall2_nth_elim _ _ _ fzero 0 n FZ ltac:(lia)) as [A1 A2]. split; [exact A1|].
  assert (S1 : nth n (map (synthesis (map R_of y)) (seq 0 256)) 0 = synthesis (map R_of y) n). { erewrite nth_indep by (rewrite map_length, seq_length; exact Hn). rewrite (map_nth (synthesis (map R_of y)) (seq 0 256) 0%nat). now rewrite seq_nth. }
  assert (S2 : synthesis P n = 256 * R_of (nth n x fzero)).
  { assert (Q : nth n (map (synthesis P) (seq 0 256)) 0 = synthesis P n) by (erewrite nth_indep by (rewrite map_length, seq_length; exact Hn); rewrite (map_nth (synthesis P) (seq 0 256) 0%nat); now rewrite seq_nth).
    rewrite <- Q, X, map_map. erewrite nth_indep by (rewrite map_length; lia). rewrite (map_nth (fun v => 256 * R_of v) x fzero). reflexivity. }
  rewrite S1 in A2. rewrite <- S2.
  assert (C : Rabs (synthesis (map R_of y) n - synthesis P n) <= 510 * (B / 256)).
  { apply synthesis_close. intros k Hk. unfold sample. rewrite nth_indep with (d' := R_of fzero) by (rewrite map_length; lia). rewrite map_nth. apply (Forall2_nth_elim _ _ _ fzero 0 k F ltac:(lia)). }
  replace (R_of (nth n z fzero) - synthesis P n) with ((R_of (nth n z fzero) - synthesis (map R_of y) n) + (synthesis (map R_of y) n - synthesis P n)) by ring. eapply Rle_trans; [apply Rabs_triang|]. lra.
Qed.

