(* Streams of AMBE frames whose residuals and gains are tame: every parameter set is moderate. *)
From Coq Require Import ZArith Reals Lra Lia List Bool.
From Verif Require Import Res F32 TabAmbe2450 TabAmbe2400 MFrame MParms MAdaptive MUnvoiced MSynth MImbe MAmbe SpecEcc SpecFrame SpecImbe SpecAmbe SpecAmp SpecState SpecAdaptive SpecGen SpecOut SpecWola SpecEnh SpecTone SpecMachine SpecAmbeMachine SpecBound SpecLoud SpecSynth SpecTrig SpecEnh2 SpecFftErr SpecNum SpecNum2
  PBase PFloat PFloat2 PDec PArr PRun PLoop PState PAdapt PGen POut PWola PSpeech PReal PImbe PExp2 PAmbeDec PAmbeDec2 PEnh PEnh3 PNyq PTone PAmp PAmp2 PPredict PConv PMachine PStream PAmbeMachine PAmbeStream PResid PResid2 PBound PBound2 PNum PNum5 PNum7 PNum9 PNum10.
From Flocq Require Import Core.Core.
Import ListNotations.
Local Open Scope R_scope.

Lemma six_of : forall o, log2_three_six o -> log2_in_six o.
Proof. intros o H L HL. destruct (H L HL) as [A B]. split; [exact A|]. apply Rabs_le. lra. Qed.
(* the level: gain less half the logarithm of the number of harmonics less the mean of the residuals *)
Lemma level_near : forall o L g f T, log2_three_six o -> (9 <= L <= 56)%Z -> ff g -> Rabs (R_of g) <= 14 -> 0 <= T <= 14 -> (forall l, (1 <= l <= L)%Z -> ff (f l) /\ Rabs (R_of (f l)) <= T) ->
  let G := fsub (fsub g (fmul (flit 1 2) (log2f o (f_of_Z L)))) (fdiv (fsum L f) (f_of_Z L)) in let m := rsum (Z.to_nat L) (fun l => R_of (f l)) / IZR L in
  ff G /\ Rabs (R_of G - (R_of g - / 2 * R_of (log2f o (f_of_Z L)) - m)) <= / 500.
Proof.
  intros o L g f T LO HL GF GB HT HF. cbv zeta. destruct (LO L HL) as [LF LB]. destruct half_R as [HH HV]. pose proof u24_small as U. pose proof tiny_u as TU.
  set (lg := log2f o (f_of_Z L)) in *. assert (LA : Rabs (R_of lg) <= 6) by (apply Rabs_le; lra).
  assert (M := about_mul _ _ _ _ 0 0 1 6 (about_self _ HH) (about_self _ LF)). rewrite HV in M. rewrite (Rabs_pos_eq (/ 2)) in M by lra. specialize (M ltac:(lra) ltac:(lra) ltac:(lra) ltac:(unfold huge; lra)).
  assert (B2 : Rabs (/ 2 * R_of lg) <= / 2 * 6) by (apply abs_mul_le; [rewrite Rabs_pos_eq; lra|exact LA]).
  assert (A := about_sub _ _ _ _ _ _ 30 (about_self _ GF) M ltac:(lra) ltac:(unfold huge; lra)).
  assert (A' := about_weak _ _ _ (/ 10000) A ltac:(lra)).
  assert (S : about (fsum L f) (rsum (Z.to_nat L) (fun l => R_of (f l))) (IZR L * (0 + / 1000))).
  { replace L with (Z.of_nat (Z.to_nat L)) at 1 by lia. replace (IZR L) with (INR (Z.to_nat L)) by (rewrite INR_IZR_INZ; f_equal; lia).
    apply (fsum_about _ _ _ _ 20); [lia|lra|lra|lra|]. intros k Hk. destruct (HF k ltac:(lia)) as [F1 F2]. split; [apply about_self, F1|lra]. }
  assert (SB : Rabs (rsum (Z.to_nat L) (fun l => R_of (f l))) <= IZR L * T).
  { replace (IZR L) with (INR (Z.to_nat L)) by (rewrite INR_IZR_INZ; f_equal; lia). apply rsum_abs. intros k Hk. apply HF. lia. }
  set (rs := rsum _ _) in *. set (s := fsum L f) in *. destruct S as [SF SE]. destruct (of_Z_R L) as [O1 O2]; [lia|].
  assert (L1 : 9 <= IZR L <= 56) by (split; apply IZR_le; lia).
  assert (SA : Rabs (R_of s) <= IZR L * (T + / 1000)). { replace (R_of s) with ((R_of s - rs) + rs) by ring. eapply Rle_trans; [apply Rabs_triang|lra]. }
  assert (NN : forall x b, Rabs x <= IZR L * b -> Rabs (x / IZR L) <= b).
  { intros x b Hx. unfold Rdiv. rewrite Rabs_mult, (Rabs_pos_eq (/ IZR L)) by (apply Rlt_le, Rinv_0_lt_compat; lra). apply (Rmult_le_reg_r (IZR L)); [lra|]. rewrite Rmult_assoc, Rinv_l by lra. lra. }
  assert (Q : Rabs (R_of s / R_of (f_of_Z L)) <= T + / 1000) by (rewrite O2; apply NN, SA).
  assert (QM : Rabs (R_of s / IZR L - rs / IZR L) <= / 1000). { replace (R_of s / IZR L - rs / IZR L) with ((R_of s - rs) / IZR L) by (field; lra). apply NN. lra. }
  assert (Q15 : Rabs (R_of s / R_of (f_of_Z L)) <= 15) by lra.
  destruct (fdiv_e s (f_of_Z L) SF O1) as (DF & DE); [rewrite O2; lra|unfold huge; lra|]. apply (fun h => err_le _ _ 15 h Q15) in DE.
  set (q := fdiv s (f_of_Z L)) in *. rewrite O2 in *. assert (QB : Rabs (R_of q) <= T + / 500). { replace (R_of q) with ((R_of q - R_of s / IZR L) + R_of s / IZR L) by ring. eapply Rle_trans; [apply Rabs_triang|lra]. }
  assert (GB2 : Rabs (R_of g - / 2 * R_of lg) <= Rabs (R_of g) + 3). { replace (R_of g - / 2 * R_of lg) with (R_of g + - (/ 2 * R_of lg)) by ring. eapply Rle_trans; [apply Rabs_triang|]. rewrite Rabs_Ropp. lra. }
  assert (Z := about_sub _ _ _ _ _ _ 60 A' (about_self _ DF) ltac:(lra) ltac:(unfold huge; lra)). destruct Z as [Z1 Z2]. split; [exact Z1|].
  apply Rabs_le_inv in Z2, QM, DE. apply Rabs_le. lra.
Qed.
Lemma level_close : forall o L g f T, log2_three_six o -> (9 <= L <= 56)%Z -> ff g -> Rabs (R_of g) <= 14 -> 0 <= T <= 14 -> (forall l, (1 <= l <= L)%Z -> ff (f l) /\ Rabs (R_of (f l)) <= T) ->
  let G := fsub (fsub g (fmul (flit 1 2) (log2f o (f_of_Z L)))) (fdiv (fsum L f) (f_of_Z L)) in let m := rsum (Z.to_nat L) (fun l => R_of (f l)) / IZR L in
  ff G /\ R_of g - 3 - m - / 100 <= R_of G <= R_of g - 1.5 - m + / 100.
Proof.
  intros o L g f T LO HL GF GB HT HF G m. destruct (level_near o L g f T LO HL GF GB HT HF) as [A B]. cbv zeta in A, B. fold G in A, B. fold m in B. split; [exact A|]. apply Rabs_le_inv in B. destruct (LO L HL) as [_ C]. lra.
Qed.

Lemma steps_low : forallb (fun x => fle (f_of_Z (-2)) x) AmbeDg && forallb (fun x => fle (f_of_Z (-2)) x) AmbePlusDg = true.
Proof. vm_compute. reflexivity. Qed.
Lemma gstep_low : forall r d, is_bits 49 d -> -2 <= R_of (gstep r d).
Proof.
  intros r d Hd. pose proof (proj1 (gstep_small r d Hd)) as F. destruct (of_Z_R (-2)) as [O1 O2]; [lia|]. pose proof steps_low as G. apply andb_true_iff in G as [G1 G2]. rewrite forallb_forall in G1, G2.
  rewrite <- O2. apply fle_true; [exact O1|exact F|]. destruct r; cbn [gstep].
  - pose proof (bits_at_range 49 d [8; 9; 10; 11; 36]%Z Hd ltac:(positions)) as R. change (2 ^ Z.of_nat (length [8; 9; 10; 11; 36]%Z))%Z with 32%Z in R. apply G1, nth_In. change (length AmbeDg) with 32%nat. lia.
  - pose proof (bits_at_range 49 d [6; 7; 8; 9; 42; 43]%Z Hd ltac:(positions)) as R. change (2 ^ Z.of_nat (length [6; 7; 8; 9; 42; 43]%Z))%Z with 64%Z in R. apply G2, nth_In. change (length AmbePlusDg) with 64%nat. lia.
Qed.

(* the scale of unvoiced harmonics *)
Lemma scale_R : forall w, ff w -> 0.049 <= R_of w <= 1 -> let u := fdiv (d2f (dlit 2046 10000)) (fsqrt w) in ff u /\ 0.204 <= R_of u <= 0.95.
Proof.
  intros w F B u. unfold u. clear u. set (c := d2f (dlit 2046 10000)). assert (FC : ff c) by (apply ff_const; vm_compute; reflexivity).
  assert (CB : 0.2045 <= R_of c <= 0.2047) by (unfold c; R_val (d2f (dlit 2046 10000)); lra).
  destruct (fsqrt_e w F ltac:(lra)) as [SF SE]. pose proof u24_small as U. pose proof tiny_u as TU.
  assert (S1 : sqrt (R_of w) <= 1) by (rewrite <- sqrt_1; apply sqrt_le_1_alt; lra).
  assert (S0 : 0.221 <= sqrt (R_of w)). { rewrite <- (sqrt_square 0.221) by lra. apply sqrt_le_1_alt. lra. }
  assert (SE' : Rabs (R_of (fsqrt w) - sqrt (R_of w)) <= / 1000000) by (eapply Rle_trans; [exact SE|]; nra). apply Rabs_le_inv in SE'. set (s := R_of (fsqrt w)) in *.
  assert (IV : 0.9999 <= / s <= 4.53). { split; [|apply (Rmult_le_reg_r s); [lra|]; rewrite Rinv_l by lra; lra]. apply (Rmult_le_reg_r s); [lra|]. rewrite Rinv_l by lra. lra. }
  assert (DV : 0.20447 <= R_of c / s <= 0.928) by (unfold Rdiv; split; [apply Rle_trans with (0.2045 * 0.9999); [lra|apply Rmult_le_compat; lra]|apply Rle_trans with (0.2047 * 4.53); [apply Rmult_le_compat; lra|lra]]).
  destruct (fdiv_e c (fsqrt w) FC SF) as [DF DE]; [fold s; lra|fold s; unfold huge; rewrite Rabs_pos_eq by lra; lra|]. fold s in DE. rewrite (Rabs_pos_eq (R_of c / s)) in DE by lra.
  split; [exact DF|]. apply Rabs_le_inv in DE. assert (u24 * (R_of c / s) <= u24 * 1) by (apply Rmult_le_compat_l; lra). lra.
Qed.
Lemma amplitude_R : forall o w v x, (forall y, ff y -> Rabs (R_of y) <= 108 -> ff (exp2f o y) /\ Rabs (R_of (exp2f o y) - Rpower 2 (R_of y)) <= Rpower 2 (R_of y) / 100) ->
  ff w -> 0.049 <= R_of w <= 1 -> ff x -> -60 <= R_of x <= 60 -> ff (ambe_amplitude o w v x) /\ 0.2 * Rpower 2 (R_of x) <= R_of (ambe_amplitude o w v x) <= 1.01 * Rpower 2 (R_of x).
Proof.
  intros o w v x EX FW BW FX BX. destruct (EX x FX) as [E1 E2]; [apply Rabs_le; lra|]. apply Rabs_le_inv in E2. set (e := R_of (exp2f o x)) in *. set (p := Rpower 2 (R_of x)) in *.
  assert (P60 : / 1152921504606846976 <= p). { apply Rle_trans with (Rpower 2 (- IZR 60)); [|apply Rpower_le2; lra]. rewrite Rpower_Zneg by lia. change (2 ^ 60)%Z with 1152921504606846976%Z. lra. }
  assert (Q60 : p <= 1152921504606846976). { apply Rle_trans with (Rpower 2 60); [apply Rpower_le2; lra|]. replace 60 with (INR 60) by (rewrite INR_IZR_INZ; reflexivity). rewrite Rpower_pow by lra. lra. }
  unfold ambe_amplitude. destruct (v =? 1)%Z; [split; [exact E1|fold e; lra]|].
  destruct (scale_R w FW BW) as [UF UB]. cbv zeta in UF, UB. set (u := fdiv _ _) in *.
  assert (UE : 0.204 * e <= R_of u * e <= 0.95 * e) by (split; apply Rmult_le_compat_r; lra).
  destruct (fmul_e u (exp2f o x) UF E1) as [MF ME]; [fold e; rewrite Rabs_pos_eq by lra; unfold huge; lra|]. fold e in ME. rewrite (Rabs_pos_eq (R_of u * e)) in ME by lra.
  split; [exact MF|]. apply Rabs_le_inv in ME. pose proof u24_small as U. pose proof tiny_small as TU. assert (0 <= u24) by (unfold u24; lra). assert (u24 * (R_of u * e) <= / 1000000 * (R_of u * e)) by (apply Rmult_le_compat_r; lra). lra.
Qed.
Lemma power_seven : forall x, -7.5 <= x -> 0.0055 <= Rpower 2 x.
Proof.
  intros x Hx. apply Rle_trans with (Rpower 2 (-7.5)); [|apply Rpower_le2; lra]. replace (-7.5) with (- IZR 8 + / 2) by lra. rewrite Rpower_plus, Rpower_Zneg by lia. rewrite Rpower_sqrt by lra. change (2 ^ 8)%Z with 256%Z.
  assert (1.41 <= sqrt 2). { rewrite <- (sqrt_square 1.41) by lra. apply sqrt_le_1_alt. lra. } lra.
Qed.

Lemma rsum_parts : forall n h k r m, rsum n (fun l => h l + r * (k l - m)) = rsum n h + r * (rsum n k - INR n * m).
Proof. induction n as [|n IH]; intros h k r m; [cbn; lra|]. cbn [rsum]. rewrite IH, S_INR. ring. Qed.

Section Tame.
Variables lo hi gmax : R.
Hypothesis TM : ambe_tame lo hi gmax.
Definition reach : R := (hi - lo + 0.05) / 0.34999.
Lemma reach_eq : 0.34999 * reach = hi - lo + 0.05. Proof. unfold reach. field. lra. Qed.
Definition banded (m : parms) : Prop := exists a b, -90 <= a /\ b <= 90 /\ b - a <= reach /\ forall k, (1 <= k <= p_L m)%Z -> a <= R_of (log_at m k) <= b.
Definition leveled (m : parms) : Prop := -4.1 <= R_of (p_gamma m) <= 2 * gmax + 0.01.
Definition tied (r : codec) (m : parms) : Prop := calm r m /\ banded m /\ leveled m /\ moderate m.

Lemma past_banded : forall r prev L a b, small r prev -> (1 <= p_L prev <= 56)%Z -> -90 <= a -> b <= 90 -> (forall k, (1 <= k <= p_L prev)%Z -> a <= R_of (log_at prev k) <= b) ->
  past_ok (p_L prev) (fun l => past prev L (Z.max 1 l)) a b.
Proof.
  intros r prev L a b (LN & A) HP B1 B2 W. destruct (sizes_ok r) as (_ & _ & _ & _ & S & _).
  assert (G : forall k, past prev L k = log_at prev (if (p_L prev <? k)%Z && (k <=? L)%Z then p_L prev else k)) by reflexivity.
  split; [|split; [|split; [|lra]]].
  - intros k Hk. rewrite G. destruct (Z.ltb_spec (p_L prev) (Z.max 1 k)); [lia|]. cbn [andb]. split; [apply A; lia|apply W; lia].
  - rewrite G. replace (Z.max 1 (p_L prev + 1)) with (p_L prev + 1)%Z by lia. destruct ((p_L prev <? p_L prev + 1)%Z && (p_L prev + 1 <=? L)%Z); [apply A; lia|].
    destruct (Z.eq_dec (p_L prev) 56) as [E|E]; [|apply A; lia]. unfold log_at. rewrite nth_overflow by lia. split; reflexivity.
  - rewrite G. replace (Z.max 1 (p_L prev + 1)) with (p_L prev + 1)%Z by lia. assert (Q : forall k, (0 <= k <= 56)%Z -> Rabs (R_of (log_at prev k)) <= 130) by (intros k Hk; destruct (A k Hk); lra).
    destruct ((p_L prev <? p_L prev + 1)%Z && (p_L prev + 1 <=? L)%Z); [apply Q; lia|].
    destruct (Z.eq_dec (p_L prev) 56) as [E|E]; [|apply Q; lia]. unfold log_at. rewrite nth_overflow by lia. rewrite R_zero, Rabs_R0. lra.
Qed.
Lemma gain_leveled : forall r d g, is_bits 49 d -> ff g -> Rabs (R_of g) <= gain_range r -> R_of (gstep r d) <= gmax -> -4.1 <= R_of g <= 2 * gmax + 0.01 ->
  -4.1 <= R_of (fadd (gstep r d) (fmul (flit 1 2) g)) <= 2 * gmax + 0.01.
Proof.
  intros r d g Hd F B GM LV. destruct (gstep_small r d Hd) as [GF GB]. pose proof (gstep_low r d Hd) as GL. destruct (sizes_ok r) as (_ & _ & _ & _ & _ & S1 & S2 & S3). destruct half_R as [HF HV]. pose proof u24_small as U. pose proof tiny_u as T.
  assert (M := about_mul _ _ _ _ 0 0 1 14 (about_self _ HF) (about_self _ F)). rewrite HV in M. rewrite (Rabs_pos_eq (/ 2)) in M by lra. specialize (M ltac:(lra) ltac:(lra) ltac:(lra) ltac:(unfold huge; lra)).
  assert (B2 : Rabs (/ 2 * R_of g) <= / 2 * gain_range r) by (apply abs_mul_le; [rewrite Rabs_pos_eq; lra|exact B]).
  assert (A := about_add _ _ _ _ _ _ 30 (about_self _ GF) M ltac:(lra) ltac:(unfold huge; lra)). destruct A as [A1 A2]. apply Rabs_le_inv in A2. lra.
Qed.

Lemma new_banded : forall r o L d prev g, cosine_in_unit o -> log2_three_six o -> is_bits 49 d -> (9 <= L <= 56)%Z -> tied r prev -> ff g -> Rabs (R_of g) <= gain_range r -> -4.1 <= R_of g <= 2 * gmax + 0.01 ->
  (forall l, (1 <= l <= L)%Z -> lo <= R_of (ambe_residual o (block r L) (vector r d) (higher r d) l) <= hi) ->
  exists a b, -60 <= a /\ b - a <= reach /\ b <= 27.98 /\
    (forall l, (1 <= l <= L)%Z -> let x := ambe_log_amplitude o L (block r L) (vector r d) (higher r d) g prev l in ff x /\ a <= R_of x <= b) /\
    exists l, (1 <= l <= L)%Z /\ -7.5 <= R_of (ambe_log_amplitude o L (block r L) (vector r d) (higher r d) g prev l).
Proof.
  intros r o L d prev g CO LO Hd HL (CA & (a & b & A0 & B0 & D & W) & _) GF GB GL RS. destruct TM as (T1 & T2 & T3). pose proof reach_eq as RE. destruct rho_R as [RF RB].
  destruct (sizes_ok r) as (S1 & S2 & S3 & S4 & S5 & S6 & S7 & _). destruct CA as (SM & _ & _ & HP).
  assert (P := past_banded r prev L a b SM HP A0 B0 W).
  set (rho := R_of (d2f (dlit 65 100))) in *. set (past' := fun l => past prev L (Z.max 1 l)) in *. set (f := ambe_residual o (block r L) (vector r d) (higher r d)) in *.
  assert (HP' : (0 <= p_L prev <= 56)%Z) by lia. set (X := mixed (p_L prev) L past').
  set (mean := rsum (Z.to_nat L) X / IZR L). assert (LP : 0 < IZR L) by (apply IZR_lt; lia).
  assert (MM : forall h u v, (forall k, (1 <= k <= L)%Z -> u <= h k <= v) -> u <= rsum (Z.to_nat L) h / IZR L <= v).
  { intros h u v Hh. destruct (rsum_bound (Z.to_nat L) h u v) as [M1 M2].
    - intros k Hk. rewrite Z2Nat.id in Hk by lia. apply Hh, Hk.
    - rewrite INR_IZR_INZ, Z2Nat.id in M1, M2 by lia. split; apply (Rmult_le_reg_r (IZR L)); auto; unfold Rdiv; rewrite Rmult_assoc, Rinv_l by lra; lra. }
  assert (M : a - / 400 <= mean <= b + / 400) by (apply MM; intros k Hk; apply mixed_bounds; auto; lia).
  assert (HF : forall l, ff (f l) /\ Rabs (R_of (f l)) <= rsize r) by (intros l; apply residual_small; assumption).
  set (mt := rsum (Z.to_nat L) (fun l => R_of (f l)) / IZR L). assert (MT : lo <= mt <= hi) by (apply MM; exact RS).
  destruct (level_close o L g f (rsize r) LO HL GF ltac:(lra) ltac:(lra) (fun l _ => HF l)) as [VF VB]. cbv zeta in VF, VB. fold mt in VB. set (G := fsub _ (fdiv _ _)) in *.
  assert (HD : a <= b) by (destruct (W 1%Z ltac:(lia)); lra).
  assert (RD : 0 <= rho * (b - a + / 200) <= 0.65001 * (reach + / 200)) by (split; [apply Rmult_le_pos; lra|apply Rmult_le_compat; lra]).
  assert (A1 : 0 <= rho * (mean - (a - / 400)) <= rho * (b - a + / 200)) by (split; [apply Rmult_le_pos; lra|apply Rmult_le_compat_l; lra]).
  assert (A2 : 0 <= rho * (b + / 400 - mean) <= rho * (b - a + / 200)) by (split; [apply Rmult_le_pos; lra|apply Rmult_le_compat_l; lra]).
  assert (NW : forall l, (1 <= l <= L)%Z -> let x := ambe_log_amplitude o L (block r L) (vector r d) (higher r d) g prev l in ff x /\ Rabs (R_of x - (R_of (f l) + rho * (X l - mean) + R_of G)) <= 0.0101).
  { intros l Hl. cbv zeta. unfold ambe_log_amplitude. cbv zeta. fold f. fold past'. fold G. destruct (HF l) as [F1 F2].
    destruct (predicted_about (d2f (dlit 65 100)) (p_L prev) L past' f a b l HP' ltac:(lia) Hl P RF ltac:(fold rho; lra) F1 ltac:(lra)) as (FF & E). fold rho in E. fold X in E. fold mean in E.
    destruct (mixed_bounds (p_L prev) L past' a b l HP' ltac:(lia) Hl P) as [MB1 MB2]. fold X in MB1, MB2.
    assert (B1 : rho * (a - / 400) <= rho * X l) by (apply Rmult_le_compat_l; lra). assert (B2 : rho * X l <= rho * (b + / 400)) by (apply Rmult_le_compat_l; lra). specialize (RS l Hl). apply Rabs_le_inv in F2.
    assert (XB : Rabs (R_of (f l) + rho * (X l - mean)) <= 100) by (apply Rabs_le; lra). assert (GA : Rabs (R_of G) <= 60) by (apply Rabs_le; apply Rabs_le_inv in GB; lra).
    pose proof u24_small as U. pose proof tiny_u as TU.
    assert (Z := about_add _ _ _ _ _ _ 200 (conj FF E) (about_self _ VF) ltac:(lra) ltac:(unfold huge; lra)). destruct Z as [Z1 Z2]. split; [exact Z1|]. lra. }
  assert (LOW : exists l, (1 <= l <= L)%Z /\ -7.2 <= R_of (ambe_log_amplitude o L (block r L) (vector r d) (higher r d) g prev l)).
  { destruct (Classical_Prop.classic (exists l, (1 <= l <= L)%Z /\ -7.2 <= R_of (ambe_log_amplitude o L (block r L) (vector r d) (higher r d) g prev l))) as [K|K]; [exact K|exfalso].
    assert (S : rsum (Z.to_nat L) (fun l => R_of (f l) + rho * (X l - mean)) < rsum (Z.to_nat L) (fun l => (-7.189 - R_of G) + 0 * X l)).
    { apply rsum_lt; [lia|]. intros k Hk. assert (Hk' : (1 <= k <= L)%Z) by lia. destruct (Rlt_le_dec (R_of (ambe_log_amplitude o L (block r L) (vector r d) (higher r d) g prev k)) (-7.2)) as [C|C]; [|exfalso; apply K; eauto].
      destruct (NW k Hk') as [_ N2]. apply Rabs_le_inv in N2. lra. }
    rewrite rsum_parts, rsum_affine, INR_IZR_INZ, Z2Nat.id in S by lia.
    assert (E1 : rsum (Z.to_nat L) X = mean * IZR L) by (unfold mean; field; lra). assert (E2 : rsum (Z.to_nat L) (fun l => R_of (f l)) = mt * IZR L) by (unfold mt; field; lra).
    rewrite E1, E2 in S. assert (mt * IZR L < IZR L * (-7.189 - R_of G)) by lra. assert (mt < -7.189 - R_of G) by (apply (Rmult_lt_reg_r (IZR L)); lra). lra. }
  exists (R_of G + lo + rho * (a - / 400 - mean) - / 50), (R_of G + hi + rho * (b + / 400 - mean) + / 50).
  assert (BB : R_of G + hi + rho * (b + / 400 - mean) + / 50 - (R_of G + lo + rho * (a - / 400 - mean) - / 50) <= reach) by lra.
  assert (NX : forall l, (1 <= l <= L)%Z -> let x := ambe_log_amplitude o L (block r L) (vector r d) (higher r d) g prev l in ff x /\ R_of G + lo + rho * (a - / 400 - mean) - / 50 <= R_of x <= R_of G + hi + rho * (b + / 400 - mean) + / 50).
  { intros l Hl. destruct (NW l Hl) as [N1 N2]. split; [exact N1|]. apply Rabs_le_inv in N2. specialize (RS l Hl).
    destruct (mixed_bounds (p_L prev) L past' a b l HP' ltac:(lia) Hl P) as [MB1 MB2]. fold X in MB1, MB2.
    assert (B1 : rho * (a - / 400) <= rho * X l) by (apply Rmult_le_compat_l; lra). assert (B2 : rho * X l <= rho * (b + / 400)) by (apply Rmult_le_compat_l; lra). lra. }
  destruct LOW as (l0 & L1 & L2). destruct (NX l0 L1) as [_ L3].
  split; [lra|]. split; [exact BB|]. split; [lra|]. split; [exact NX|]. exists l0. split; [exact L1|lra].
Qed.
Lemma tied_same : forall r m m', p_log2Ml m' = p_log2Ml m -> p_Ml m' = p_Ml m -> p_L m' = p_L m -> p_gamma m' = p_gamma m -> tied r m -> tied r m'.
Proof.
  intros r m m' E F G H (A & B & C & D). split; [exact (calm_same r m m' E G H A)|]. unfold banded, leveled, log_at in *. rewrite E, G, H. split; [exact B|]. split; [exact C|].
  apply (moderate_same m); [rewrite F; reflexivity|exact G|exact D].
Qed.
Lemma tied_ones : forall r m, p_log2Ml m = repeat fzero 57 -> p_Ml m = repeat fone 57 -> p_gamma m = fzero -> (1 <= p_L m <= 56)%Z -> tied r m.
Proof.
  intros r m E F G H. destruct TM as (T1 & T2 & T3). pose proof reach_eq. split; [apply calm_zero; assumption|]. split; [|split; [|apply ones_moderate; assumption]].
  - exists 0, 0. split; [lra|]. split; [lra|]. split; [lra|]. intros k _. assert (Q : log_at m k = S754_zero false) by (unfold log_at; rewrite E; apply nth_repeat). rewrite Q, R_zero. lra.
  - unfold leveled. rewrite G. change (R_of fzero) with (R_of (S754_zero false)). rewrite R_zero. lra.
Qed.

Section Library.
Variable o : oracle.
Hypothesis AL : accurate_library o.
Hypothesis LO : log2_three_six o.

Lemma decoded_tied : forall r L w0 v vl d cur prev c1 p1, is_bits 49 d -> (9 <= L <= 56)%Z -> small r cur -> tied r prev -> ff w0 -> 0.049 <= R_of w0 <= 1 -> length (p_Ml prev) = 57%nat ->
  ambe_accepted L w0 (gstep r d) v cur prev c1 p1 ->
  (forall l, (1 <= l <= L)%Z -> let x := ambe_log_amplitude o L (block r L) (vector r d) (higher r d) (fadd (gstep r d) (fmul (flit 1 2) (p_gamma prev))) prev l in
     rd (p_log2Ml c1) l = Ok x /\ rd (p_Ml c1) l = Ok (ambe_amplitude o w0 (vl l) x)) ->
  R_of (gstep r d) <= gmax -> (forall l, (1 <= l <= L)%Z -> lo <= R_of (ambe_residual o (block r L) (vector r d) (higher r d) l) <= hi) ->
  tied r c1 /\ tied r p1.
Proof.
  intros r L w0 v vl d cur prev c1 p1 Hd HL SC TP FW BW LM AC AM GM RS. destruct AL as (CO & _ & _ & EX2). pose proof TP as (CP & BP & LP & MP).
  destruct (decoded_calm r o L w0 v d cur prev c1 p1 CO (six_of o LO) Hd HL SC CP AC (fun l Hl => proj1 (AM l Hl))) as [C1 C2].
  assert (GP : gain_within (gain_range r) prev) by apply CP. destruct GP as [GF GB]. destruct (gain_next r d _ Hd GF GB) as [NF NB]. cbv zeta in NF, NB.
  pose proof (gain_leveled r d (p_gamma prev) Hd GF GB GM LP) as NL.
  destruct (new_banded r o L d prev _ CO LO Hd HL TP NF NB NL RS) as (a & b & B1 & B2 & B3 & NW & (k0 & K1 & K2)). cbv zeta in NW.
  destruct AC as (EL & _ & _ & EG & _ & _ & _ & _ & _ & (LX & X0 & X1 & X2) & (LY & Y0 & Y1 & Y2) & EP).
  rewrite <- half_eq in EG. set (g := fadd (gstep r d) (fmul (flit 1 2) (p_gamma prev))) in *.
  assert (IN : forall l, (1 <= l <= L)%Z -> log_at c1 l = ambe_log_amplitude o L (block r L) (vector r d) (higher r d) g prev l) by (intros l Hl; apply log_rd, AM, Hl).
  assert (IM : forall l, (1 <= l <= L)%Z -> cell zero (p_Ml c1) l = ambe_amplitude o w0 (vl l) (ambe_log_amplitude o L (block r L) (vector r d) (higher r d) g prev l)).
  { intros l Hl. destruct (AM l Hl) as [_ A2]. apply rd_inv in A2 as [_ A2]. unfold cell. erewrite nth_error_nth; [reflexivity|exact A2]. }
  assert (EV : forall l, (1 <= l <= L)%Z -> let x := R_of (ambe_log_amplitude o L (block r L) (vector r d) (higher r d) g prev l) in ff (cell zero (p_Ml c1) l) /\ 0.2 * Rpower 2 x <= R_of (cell zero (p_Ml c1) l) <= 1.01 * Rpower 2 x).
  { intros l Hl x. destruct (NW l Hl) as [N1 N2]. rewrite IM by exact Hl. apply amplitude_R; try assumption. lra. }
  split; (split; [assumption|]).
  - split; [|split].
    + exists a, b. split; [lra|]. split; [lra|]. split; [exact B2|]. rewrite EL. intros k Hk. rewrite IN by exact Hk. apply NW, Hk.
    + unfold leveled. rewrite EG. exact NL.
    + split.
      * intros l Hl. rewrite EL in Hl. destruct (EV l Hl) as [E1 E2]. split; [exact E1|]. destruct (NW l Hl) as [_ N2].
        pose proof (power_top (R_of (ambe_log_amplitude o L (block r L) (vector r d) (higher r d) g prev l)) ltac:(lra)). assert (0 < Rpower 2 (R_of (ambe_log_amplitude o L (block r L) (vector r d) (higher r d) g prev l))) by apply exp_pos. lra.
      * pose proof (energy_ge c1 k0 ltac:(rewrite EL; exact K1)) as G. destruct (EV k0 K1) as [_ E2]. pose proof (power_seven _ K2) as PB.
        set (y := R_of (cell zero (p_Ml c1) k0)) in *. assert (0.0011 <= y) by lra. assert (0.0011 * 0.0011 <= y * y) by (apply Rmult_le_compat; lra). lra.
  - assert (PL : p_L p1 = p_L prev) by (rewrite EP; reflexivity). assert (PG : p_gamma p1 = p_gamma prev) by (rewrite EP; reflexivity).
    assert (HP : (1 <= p_L prev <= 56)%Z) by apply CP. assert (SP : small r prev) by apply CP.
    split; [|split].
    + destruct BP as (a2 & b2 & Q1 & Q2 & Q3 & Q4). exists a2, b2. split; [exact Q1|]. split; [exact Q2|]. split; [exact Q3|]. rewrite PL. intros k Hk.
      assert (G1 : log_at p1 k = log_at prev k). { apply log_rd. rewrite Y1 by lia. apply rd_log; [apply SP|lia]. }
      rewrite G1. apply Q4, Hk.
    + unfold leveled. rewrite PG. exact LP.
    + apply (moderate_same prev); [|exact PL|exact MP]. intros l Hl. assert (rd (p_Ml p1) l = rd (p_Ml prev) l) as E by (apply X1; lia). unfold cell.
      destruct (rd_ok (p_Ml prev) l) as [w Hv]; [lia|]. rewrite Hv in E. apply rd_inv in E as [_ E]. apply rd_inv in Hv as [_ Hv].
      rewrite (nth_error_nth _ _ _ E), (nth_error_nth _ _ _ Hv). reflexivity.
Qed.
Definition tied_state (r : codec) (st : dstate) : Prop := calm_state r st /\ tied r (prev_of st).
Lemma tied_start : forall r, tied_state r start_ambe.
Proof. intros r. split; [apply start_calm|]. apply tied_ones; try reflexivity. cbn. lia. Qed.
Lemma rest_tied : forall r a aout need n c1 p1 enh uvq t b str st' t', tied r c1 -> tied r p1 -> wf_parms c1 -> wf_parms p1 -> wf_parms enh -> (9 <= p_L c1 <= 56)%Z -> (0 <= p_L p1 <= 56)%Z -> length aout = 160%nat ->
  voice_rest o a aout need n c1 p1 enh uvq t = Ok (b, str, st', t') -> tied_state r st'.
Proof.
  intros r a aout need n c1 p1 enh uvq t b str st' t' C1 P1 WC WP WE HC HP LA H. split; [exact (rest_calm r o a aout need n c1 p1 enh uvq t b str st' t' (proj1 C1) (proj1 P1) WC WP WE HC HP LA H)|]. unfold voice_rest in H. destruct (need && (3 <=? p_repeat p1)%Z).
  - apply bind_inv in H as ([b0 t0] & _ & H). apply Ok4 in H as (_ & _ & <- & _). apply tied_start.
  - apply bind_inv in H as ([[b0 s0] t0] & HS & H). apply Ok4 in H as (_ & _ & <- & _). set (m := if need then one_more p1 else no_repeats c1) in *.
    assert (CM : tied r m) by (unfold m; destruct need; [exact (tied_same r p1 _ eq_refl eq_refl eq_refl eq_refl P1)|exact (tied_same r c1 _ eq_refl eq_refl eq_refl eq_refl C1)]).
    assert (WM : wf_parms m) by (unfold m; destruct need; assumption). assert (LM : (0 <= p_L m <= 56)%Z) by (unfold m; destruct need; [exact HP|change (0 <= p_L c1 <= 56)%Z; lia]).
    destruct (speak_inv _ _ _ _ _ _ _ _ _ _ WM WE LM LA HS) as (c' & -> & B & _). exact CM.
Qed.

Lemma voice_tied2450 : forall a cl st t b str st' t' c p e, ambe_ok cl -> sane_state st -> begin st = (c, p, e) -> tied_state R2450 (c, p, e) -> ambe_within o R2450 lo hi gmax cl ->
  do2450 o a cl st t = Ok (b, str, st', t') -> kind_of cl = Voice -> tied_state R2450 st'.
Proof.
  intros a cl st t b str st' t' c p e (Hd & Hn & LB) SS BG ((CC & _) & CP) AW H K. specialize (AW K). unfold do2450 in H. unfold kind_of in K. cbn [cur_of prev_of] in CC, CP.
  assert (WP : wf_parms (prev_of st)) by (destruct st as [[x y] z]; destruct SS as (_ & SP & _); apply SP).
  pose proof (sane_begin st SS) as SB. rewrite BG in SB. destruct SB as (SC & SP & SE).
  assert (SW : sane (with_errors (ac_errors cl) (ambe_rate (p_errorRate p) (ac_errors cl)) c)) by (apply sane_with_errors; assumption).
  destruct (kind_cases (ac_bits cl) (ac_errors cl) Hd) as [(T & N & E)|[(T & N & E)|(NT & NE & E)]]; [destruct (tone_hz (tone_id (ac_bits cl))); congruence|congruence|].
  destruct (mbe_decodeAmbe2450ParmsInternal o (ac_bits cl) (with_errors (ac_errors cl) (ambe_rate (p_errorRate p) (ac_errors cl)) c) p (ac_errors cl)) as [[[bad c1] p1]|w] eqn:HD.
  - destruct (ambe2450_accepted _ _ _ _ _ _ _ _ Hd (proj1 (proj1 SW)) NT NE HD) as [-> AC].
    pose proof (pitch2450_range _ Hd) as PR. assert (HB : (0 <= pitch2450 (ac_bits cl) < 120 \/ pitch2450 (ac_bits cl) = 124 \/ pitch2450 (ac_bits cl) = 125)%Z) by (unfold erasure2450 in NE; lia).
    assert (HW : pitch_in_range (w0_2450 (pitch2450 (ac_bits cl)))) by (apply w0_range; unfold erasure2450 in NE; lia).
    pose proof (harmonics2450_bits _ Hd NE) as HL. destruct (accepted_sane _ _ _ _ _ _ _ _ AC SW SP HL HW) as [S1 S2].
    assert (RR : (p_repeat p1 = p_repeatCount p1 /\ 0 <= p_repeatCount p1 <= 4)%Z) by (split; apply S2).
    rewrite (voice2450 _ _ _ _ _ _ _ _ _ _ _ _ _ _ _ WP BG HD (proj1 S2)) in H by lia.
    set (W := with_errors (ac_errors cl) (ambe_rate (p_errorRate p) (ac_errors cl)) c) in *. assert (CW : small R2450 W) by exact CC. clearbody W.
    assert (HU : usable_history (harmonics2450 (pitch2450 (ac_bits cl))) p).
    { split; [apply SP|]. assert (0 <= p_L p <= 56)%Z by apply SP. destruct (Z.eq_dec (p_L p) 56) as [E6|E6]; [|left; lia]. right. split; [exact E6|].
      destruct (Z.eq_dec (harmonics2450 (pitch2450 (ac_bits cl))) 23); [left; assumption|]. destruct (Z.eq_dec (harmonics2450 (pitch2450 (ac_bits cl))) 46); [right; assumption|].
      rewrite (ambe2450_outside o (ac_bits cl) W p (ac_errors cl)) in HD; try assumption; [discriminate|apply SW|apply SP]. }
    pose proof (amplitudes2450 o (ac_bits cl) W p (ac_errors cl) 0 c1 p1 Hd (proj1 SW) NT NE HU HD) as AM. cbv zeta in AM.
    assert (EL : p_L c1 = harmonics2450 (pitch2450 (ac_bits cl))) by apply AC. assert (EW : p_w0 c1 = w0_2450 (pitch2450 (ac_bits cl))) by apply AC.
    destruct (pitched2450 _ c1 HB EW EL) as [(_ & PW & _) FW]. rewrite EW in PW, FW. destruct AW as [A1 A2]. unfold harmonics, residual, gain_step in A1, A2.
    pose proof (decoded_tied R2450) as DC. rewrite vector_2450, higher_2450, block_2450, gstep_2450 in DC. rewrite logs_2450 in AM.
    destruct (DC _ _ _ (voicing2450 (ac_bits cl)) (ac_bits cl) W p c1 p1 Hd HL CW CP FW PW (proj1 (proj2 (proj1 SP))) AC AM A1 A2) as [D1 D2]. clear DC.
    eapply rest_tied; [exact D1|exact D2|exact (proj1 S1)|exact (proj1 S2)|exact (proj1 SE)|rewrite EL; exact HL|apply S2|exact LB|exact H].
  - exfalso. destruct st as [[x y] z]. unfold mbe_processAmbe2450Dataf_internal in H. cbn [prev_of] in WP. rewrite ensure_ok in H by exact WP. cbn [bind] in H. rewrite BG in H. cbn [bind] in H. rewrite entry_eq, HD in H. discriminate H.
Qed.
Lemma voice_tied2400 : forall a cl st t b str st' t' c p e, ambe_ok cl -> sane_state st -> begin st = (c, p, e) -> tied_state R2400 (c, p, e) -> fine_exp2 o R2400 -> ambe_within o R2400 lo hi gmax cl ->
  do2400 o a cl st t = Ok (b, str, st', t') -> voice2400 cl = true -> tied_state R2400 st'.
Proof.
  intros a cl st t b str st' t' c p e (Hd & Hn & LB) SS BG ((CC & _) & CP) FX AW H V. specialize (AW V). unfold do2400 in H. assert (HB : (pitch2400 (ac_bits cl) < 126)%Z) by (unfold voice2400 in V; lia). cbn [cur_of prev_of] in CC, CP.
  pose proof (pitch2400_range _ Hd) as PR. assert (HB' : (0 <= pitch2400 (ac_bits cl) < 126)%Z) by lia. pose proof (fine_good o R2400 FX _ HB') as HX. specialize (FX _ HB').
  assert (WP : wf_parms (prev_of st)) by (destruct st as [[x y] z]; destruct SS as (_ & SP & _); apply SP).
  pose proof (sane_begin st SS) as SB. rewrite BG in SB. destruct SB as (SC & SP & SE).
  assert (SW : sane (with_errors (ac_errors cl) (ambe_rate (p_errorRate p) (ac_errors cl)) c)) by (apply sane_with_errors; assumption).
  destruct (mbe_decodeAmbe2400Parms o (ac_bits cl) (with_errors (ac_errors cl) (ambe_rate (p_errorRate p) (ac_errors cl)) c) p) as [[[bad c1] p1]|w] eqn:HD.
  - destruct (ambe2400_accepted _ _ _ _ _ _ _ Hd (proj1 (proj1 SW)) HB HX HD) as [-> AC].
    assert (HW : pitch_in_range (radians (exp2f o (exponent2400 (pitch2400 (ac_bits cl)))))) by (apply f0_range; assumption).
    pose proof (harmonics2400_range _ Hd HB) as HL. destruct (accepted_sane _ _ _ _ _ _ _ _ AC SW SP HL HW) as [S1 S2].
    assert (RR : (p_repeat p1 = p_repeatCount p1 /\ 0 <= p_repeatCount p1 <= 4)%Z) by (split; apply S2).
    rewrite (voice2400_eq _ _ _ _ _ _ _ _ _ _ _ _ _ _ WP BG HD (proj1 S2)) in H by lia.
    set (W := with_errors (ac_errors cl) (ambe_rate (p_errorRate p) (ac_errors cl)) c) in *. assert (CW : small R2400 W) by exact CC. clearbody W.
    assert (HU : usable_history (harmonics2400 (pitch2400 (ac_bits cl))) p).
    { split; [apply SP|]. assert (0 <= p_L p <= 56)%Z by apply SP. destruct (Z.eq_dec (p_L p) 56) as [E6|E6]; [|left; lia]. right. split; [exact E6|].
      destruct (Z.eq_dec (harmonics2400 (pitch2400 (ac_bits cl))) 23); [left; assumption|]. destruct (Z.eq_dec (harmonics2400 (pitch2400 (ac_bits cl))) 46); [right; assumption|].
      rewrite (ambe2400_outside o (ac_bits cl) W p) in HD; try assumption; [discriminate|apply SW|apply SP]. }
    pose proof (amplitudes2400 o (ac_bits cl) W p 0 c1 p1 Hd (proj1 SW) HB HX HU HD) as AM. cbv zeta in AM.
    assert (EL : p_L c1 = harmonics2400 (pitch2400 (ac_bits cl))) by apply AC. assert (EW : p_w0 c1 = radians (exp2f o (exponent2400 (pitch2400 (ac_bits cl))))) by apply AC.
    destruct (pitched2400 o _ c1 HB' FX EW EL) as [(_ & PW & _) FW]. rewrite EW in PW, FW. destruct AW as [A1 A2]. unfold harmonics, residual, gain_step in A1, A2.
    pose proof (decoded_tied R2400) as DC. rewrite vector_2400, higher_2400, block_2400, gstep_2400 in DC. rewrite logs_2400 in AM.
    destruct (DC _ _ _ (voicing2400 o (ac_bits cl)) (ac_bits cl) W p c1 p1 Hd HL CW CP FW PW (proj1 (proj2 (proj1 SP))) AC AM A1 A2) as [D1 D2]. clear DC.
    eapply rest_tied; [exact D1|exact D2|exact (proj1 S1)|exact (proj1 S2)|exact (proj1 SE)|rewrite EL; exact HL|apply S2|exact LB|exact H].
  - exfalso. destruct st as [[x y] z]. unfold mbe_processAmbe2400Dataf in H. cbn [prev_of] in WP. rewrite ensure_ok in H by exact WP. cbn [bind] in H. rewrite BG in H. cbn [bind] in H. rewrite entry_eq, HD in H. discriminate H.
Qed.
Lemma ambe_tied : forall r a cl st t b str st' t', fine_exp2 o r -> ambe_ok cl -> ambe_within o r lo hi gmax cl -> sane_state st -> thread_ok t -> tied_state r (begin st) ->
  do_ambe r o a cl st t = Ok (b, str, st', t') -> tied_state r st'.
Proof.
  intros r a cl st t b str st' t' GX HC AW SS TH CS H. destruct (begin st) as [[c p] e] eqn:BG. destruct r; cbn [do_ambe] in H.
  - destruct (kind_of cl) eqn:K; [eapply voice_tied2450; eassumption| | |];
      destruct (step2450_ok _ _ _ _ _ _ _ _ _ _ _ _ HC SS TH H BG) as (_ & _ & _ & _ & _ & S); unfold step2450 in S; cbv zeta in S; rewrite K in S.
    + destruct S as (_ & _ & ->). set (m := erased _ p) in *. assert (Q : tied R2450 m) by (apply tied_ones; [reflexivity|reflexivity|reflexivity|change (p_L m) with 9%Z; lia]). split; [split; [exact (proj1 (proj1 Q))|exact (proj1 Q)]|exact Q].
    + destruct S as (_ & _ & ->). destruct CS as [[C1 C2] C3]. unfold tone_turned. split; [split; [destruct (o_tones o); exact C1|exact C2]|exact C3].
    + destruct S as (_ & S). destruct (p_repeatCount p <? 4)%Z.
      * destruct S as (E1 & E2 & _). destruct CS as [[C1 C2] C3]. unfold tied_state, calm_state. rewrite E1, E2. split; [split; [exact C1|exact C2]|exact C3].
      * destruct S as (-> & _). apply tied_start.
  - destruct (voice2400 cl) eqn:V; [eapply voice_tied2400; eassumption|].
    rewrite (tone2400_eq _ _ _ _ _ _ _ _ HC SS BG V) in H. apply bind_inv in H as ([b0 t0] & _ & H). apply Ok4 in H as (_ & _ & <- & _). apply tied_start.
Qed.
Lemma ambe_moderate : forall r a cs st t s st' t', fine_exp2 o r -> Forall ambe_ok cs -> Forall (ambe_within o r lo hi gmax) cs -> st = start \/ st = start_ambe -> thread_ok t -> cs <> [] ->
  ambe_stream (do_ambe r o a) cs st t = Ok (s, st', t') -> moderate (prev_of st').
Proof.
  intros r a cs st t s st' t' GX HF HW HS TH NE H. destruct cs as [|c cs]; [congruence|].
  assert (SS : sane_state st) by (destruct HS as [->| ->]; [apply sane_start|apply sane_start_ambe]).
  assert (B : begin st = start_ambe). { destruct HS as [->| ->]; [apply begin_case|apply begin_own, begin_case]. }
  rewrite (stream_begin o r a c cs st t SS), B in H.
  assert (I : sane_state st' /\ thread_ok t' /\ foreign (prev_of st') = false /\ tied_state r st').
  { revert H. apply (stream_inv (do_ambe r o a) (fun c => ambe_ok c /\ ambe_within o r lo hi gmax c) (fun st t => sane_state st /\ thread_ok t /\ foreign (prev_of st) = false /\ tied_state r st)).
    - intros c0 st0 t0 b0 s0 st3 t3 [Hc0 Hw0] (A1 & A2 & A3 & A4) D. destruct (ambe_step _ _ _ _ _ _ _ _ _ _ (fine_good o r GX) Hc0 A1 A2 D) as (B1 & B2 & _ & _ & _ & BD).
      split; [exact B1|]. split; [exact B2|]. split; [apply (ad_foreign _ _ _ _ _ _ BD), begin_ours|].
      eapply ambe_tied; [exact GX|exact Hc0|exact Hw0|exact A1|exact A2|rewrite begin_own by exact A3; exact A4|exact D].
    - apply Forall_forall. intros x Hx. rewrite Forall_forall in HF, HW. auto.
    - split; [apply sane_start_ambe|]. split; [exact TH|]. split; [apply foreign_exact, start_exact|apply tied_start]. }
  destruct I as (_ & _ & _ & _ & _ & _ & _ & M). exact M.
Qed.
End Library.
End Tame.
Lemma tame_state : forall o lo hi g r a cs st t, accurate_library o -> log2_three_six o -> fine_exp2 o r -> accurate_angles o -> bounded_transforms o -> ambe_tame lo hi g ->
  Forall ambe_ok cs -> Forall (few_bands r) cs -> heard r cs -> Forall (fun c => ac_errors c <= 20)%Z cs -> Forall (ambe_within o r lo hi g) cs -> st = start \/ st = start_ambe -> thread_ok t -> (Z.of_nat (length cs) <= 300000)%Z ->
  exists s st' t', ambe_stream (do_ambe r o a) cs st t = Ok (s, st', t') /\ Forall (fun f => Forall audible (fst f)) s /\
    (cs <> [] -> amplitudes_to 1e9 (cur_of st') /\ amplitudes_to 1e9 (prev_of st') /\ amplitudes_to 1e9 (enh_of st')).
Proof.
  intros o lo hi g r a cs st t AL LO FX AA BT TM FC FB GP FE FW HS TH HN.
  destruct (ambe_start_total r o a cs st t (fine_good o r FX) FC FB TH HS ltac:(lia)) as (s & st' & t' & H). exists s, st', t'. split; [exact H|].
  destruct (ambe_alive o AA BT r a cs st t s st' t') as [F1 F2]; try eassumption.
  - intros k r1 st1 t1 Hk K. eapply (ambe_moderate lo hi g TM o AL LO r a (firstn k cs) st t); try eassumption.
    + rewrite <- (firstn_skipn k cs) in FC. apply Forall_app in FC. apply FC.
    + rewrite <- (firstn_skipn k cs) in FW. apply Forall_app in FW. apply FW.
    + destruct cs; [cbn in Hk; lia|]. destruct k; [lia|]. discriminate.
  - split; [exact F1|]. intros NE. destruct (F2 NE) as [(gn & A) B]. split; [exact B|]. split; [|apply A].
    pose proof (ambe_moderate lo hi g TM o AL LO r a cs st t s st' t' FX FC FW HS TH NE H) as [M _]. intros l Hl. destruct (M l Hl) as [M1 M2]. split; [exact M1|lra].
Qed.
Lemma tame_ambe : forall o lo hi g r a cs st t, accurate_library o -> log2_three_six o -> fine_exp2 o r -> accurate_angles o -> bounded_transforms o -> ambe_tame lo hi g ->
  Forall ambe_ok cs -> Forall (few_bands r) cs -> heard r cs -> Forall (fun c => ac_errors c <= 20)%Z cs -> Forall (ambe_within o r lo hi g) cs -> st = start \/ st = start_ambe -> thread_ok t -> (Z.of_nat (length cs) <= 300000)%Z ->
  exists s st' t', ambe_stream (do_ambe r o a) cs st t = Ok (s, st', t') /\ Forall (fun f => Forall audible (fst f)) s.
Proof.
  intros o lo hi g r a cs st t AL LO FX AA BT TM FC FB GP FE FW HS TH HN.
  destruct (tame_state o lo hi g r a cs st t AL LO FX AA BT TM FC FB GP FE FW HS TH HN) as (s & st' & t' & H & F & _). exists s, st', t'. split; assumption.
Qed.
Lemma tame_amplitudes : forall o lo hi g r a cs st t, accurate_library o -> log2_three_six o -> fine_exp2 o r -> accurate_angles o -> bounded_transforms o -> ambe_tame lo hi g ->
  Forall ambe_ok cs -> Forall (few_bands r) cs -> heard r cs -> Forall (fun c => ac_errors c <= 20)%Z cs -> Forall (ambe_within o r lo hi g) cs -> st = start \/ st = start_ambe -> thread_ok t -> (1 <= Z.of_nat (length cs) <= 300000)%Z ->
  exists s st' t', ambe_stream (do_ambe r o a) cs st t = Ok (s, st', t') /\ amplitudes_to 1e9 (cur_of st') /\ amplitudes_to 1e9 (prev_of st') /\ amplitudes_to 1e9 (enh_of st').
Proof.
  intros o lo hi g r a cs st t AL LO FX AA BT TM FC FB GP FE FW HS TH HN.
  destruct (tame_state o lo hi g r a cs st t AL LO FX AA BT TM FC FB GP FE FW HS TH (proj2 HN)) as (s & st' & t' & H & _ & F). exists s, st', t'. split; [exact H|]. apply F. destruct cs; [cbn in HN; lia|discriminate].
Qed.
