(* Real-number meaning of floorf, ceilf and fmodf. *)
From Coq Require Import ZArith List Bool Lia Reals Lra.
From Verif Require Import Res F32 PFloat.
From Flocq Require Import Core.Core Calc.Round IEEE754.BinarySingleNaN.
Local Open Scope Z_scope.

Lemma floor_Z_R : forall s m e, sf_floor_Z s m e = Zfloor (R_of (S754_finite s m e)).
Proof.
  intros s m e. unfold sf_floor_Z. destruct (Z.leb_spec 0 e) as [He|He].
  - rewrite R_pos_exp by exact He. now rewrite Zfloor_IZR.
  - rewrite R_neg_exp by exact He. symmetry. apply Zfloor_div. pose proof (Z.pow_pos_nonneg 2 (- e)). lia.
Qed.
Lemma norm_Z : forall z s, (Z.abs z <= 16777216)%Z ->
  ff (SpecFloat.binary_normalize 24 128 z 0 s) /\ R_of (SpecFloat.binary_normalize 24 128 z 0 s) = IZR z.
Proof.
  intros z s H. destruct z as [|p|p]; [split; [split; reflexivity|reflexivity]| |]; exact (of_Z_R _ H).
Qed.
Lemma floor_abs : forall x, (Rabs x <= 16777216)%R -> (Z.abs (Zfloor x) <= 16777216)%Z.
Proof.
  intros x H. apply Rabs_le_inv in H as [H1 H2].
  assert (A : -16777216 <= Zfloor x) by (apply Zfloor_lub; lra).
  assert (B : (IZR (Zfloor x) <= IZR 16777216)%R) by (pose proof (Zfloor_lb x); lra). apply le_IZR in B. lia.
Qed.
Lemma ffloor_R : forall x, ff x -> (Rabs (R_of x) <= 16777216)%R ->
  ff (ffloor x) /\ R_of (ffloor x) = IZR (Zfloor (R_of x)).
Proof.
  intros [s|s| |s m e] [V F] H; try discriminate F.
  - split; [split; reflexivity|]. cbn [ffloor]. change (R_of (S754_zero s)) with (IZR 0). now rewrite Zfloor_IZR.
  - cbn [ffloor]. rewrite floor_Z_R. apply norm_Z, floor_abs, H.
Qed.
Lemma fceil_R : forall x, ff x -> (Rabs (R_of x) <= 16777216)%R ->
  ff (fceil x) /\ R_of (fceil x) = IZR (Zceil (R_of x)).
Proof.
  intros x F H. unfold fceil. destruct (ffloor_R (fopp x)) as [A B]; [now apply fopp_ff|rewrite R_fopp, Rabs_Ropp; exact H|].
  split; [now apply fopp_ff|]. rewrite R_fopp, B, R_fopp. unfold Zceil. now rewrite opp_IZR.
Qed.

Lemma F2R_scale : forall z e d, 0 <= d -> F2R (Float radix2 (z * 2 ^ d) (e - d)) = F2R (Float radix2 z e).
Proof.
  intros z e d Hd. rewrite (F2R_change_exp radix2 (e - d) z e) by lia. f_equal. f_equal. f_equal. now replace (e - (e - d)) with d by lia.
Qed.

Lemma mantissa_bound : forall s m e, vf (S754_finite s m e) -> Z.pos m < 2 ^ 24 /\ SpecFloat.emin 24 128 <= e.
Proof.
  intros s m e V. unfold vf, vb, valid_binary, bounded, canonical_mantissa in V. apply andb_prop in V as [V _].
  apply Zeq_bool_eq in V. unfold SpecFloat.fexp in V. rewrite Zpos_digits2_pos in V.
  pose proof (Zdigits_correct radix2 (Z.pos m)) as [_ D]. cbn [Z.abs] in D. split; [|lia].
  apply Z.lt_le_trans with (1 := D). change (Zpower radix2 (Zdigits radix2 (Z.pos m))) with (2 ^ Zdigits radix2 (Z.pos m)).
  apply Z.pow_le_mono_r; lia.
Qed.

(* fmodf by a positive number: between 0 and +-y, with the sign of x, and x minus a multiple of y *)
Lemma ffmod_R : forall x m e, ff x -> vf (S754_finite false m e) ->
  let y := S754_finite false m e in
  ff (ffmod x y) /\ (Rabs (R_of (ffmod x y)) <= R_of y)%R /\ (0 <= R_of x -> 0 <= R_of (ffmod x y))%R /\
  (R_of x <= 0 -> R_of (ffmod x y) <= 0)%R /\ exists k : Z, R_of (ffmod x y) = (R_of x - IZR k * R_of y)%R.
Proof.
  intros x m e [V F] Vy y. pose proof (R_finite_pos m e) as Py. fold y in Py, Vy.
  destruct x as [s|s| |sx mx ex]; try discriminate F.
  - cbn [ffmod y]. change (R_of (S754_zero s)) with 0%R. split; [split; reflexivity|]. rewrite Rabs_R0. repeat split; try lra.
    exists 0. lra.
  - cbn [ffmod y]. set (e0 := Z.min ex e). set (a := Z.pos mx * 2 ^ (ex - e0)). set (b := Z.pos m * 2 ^ (e - e0)).
    assert (Hb : 0 < b) by (unfold b; pose proof (Z.pow_pos_nonneg 2 (e - e0)); lia).
    assert (Ha : 0 <= a) by (unfold a; pose proof (Z.pow_nonneg 2 (ex - e0)); lia).
    pose proof (Z.mod_pos_bound a b Hb) as Hm. pose proof (Z.mod_le a b Ha Hb) as Hl.
    assert (Rb : F2R (Float radix2 b e0) = R_of y).
    { unfold b. replace e0 with (e - (e - e0)) at 2 by lia. rewrite F2R_scale by lia. reflexivity. }
    assert (Ra : F2R (Float radix2 (cond_Zopp sx a) e0) = R_of (S754_finite sx mx ex)).
    { unfold a. replace e0 with (ex - (ex - e0)) at 2 by lia.
      replace (cond_Zopp sx (Z.pos mx * 2 ^ (ex - e0))) with (cond_Zopp sx (Z.pos mx) * 2 ^ (ex - e0)).
      - rewrite F2R_scale by lia. reflexivity.
      - destruct sx; cbn [cond_Zopp]; lia. }
    set (r := a mod b) in *.
    assert (Rr : (0 <= F2R (Float radix2 r e0) <= R_of y)%R).
    { split; [apply F2R_ge_0; cbn; lia|]. rewrite <- Rb. apply F2R_le. lia. }
    assert (Rs : F2R (Float radix2 (cond_Zopp sx r) e0) = if sx then (- F2R (Float radix2 r e0))%R else F2R (Float radix2 r e0)).
    { destruct sx; [cbn [cond_Zopp]; now rewrite F2R_Zopp|reflexivity]. }
    assert (Vo : vf (fopp y)) by now apply vf_fopp.
    destruct (norm_R 24 128 Hp24 He24 (cond_Zopp sx r) e0 sx (fopp y) y) as [A B].
    { split; [exact Vo|]. split; [exact Vy|]. rewrite R_fopp, Rs. destruct sx; lra. }
    assert (G : rnd 24 128 (F2R (Float radix2 (cond_Zopp sx r) e0)) = F2R (Float radix2 (cond_Zopp sx r) e0)).
    { unfold rnd. apply round_generic; [apply valid_rnd_N|].
      apply (generic_format_FLT radix2 (SpecFloat.emin 24 128) 24). exists (Float radix2 (cond_Zopp sx r) e0); [reflexivity| |].
      - cbn [Fnum]. replace (Z.abs (cond_Zopp sx r)) with r by (destruct sx; cbn [cond_Zopp]; lia). change (radix2 ^ 24) with (2 ^ 24).
        destruct (Z.min_spec ex e) as [[C E]|[C E]]; fold e0 in E.
        + assert (a = Z.pos mx) by (unfold a; replace (ex - e0) with 0 by lia; lia).
          pose proof (mantissa_bound _ _ _ V). lia.
        + assert (b = Z.pos m) by (unfold b; replace (e - e0) with 0 by lia; lia).
          pose proof (mantissa_bound _ _ _ Vy). lia.
      - cbn [Fexp]. pose proof (mantissa_bound _ _ _ V). pose proof (mantissa_bound _ _ _ Vy). lia. }
    rewrite G in B. rewrite Rs in B.
    split; [split; [apply vb_norm; [exact Hp24|exact He24]|exact A]|]. rewrite B.
    assert (Sx : if sx then (R_of (S754_finite sx mx ex) < 0)%R else (0 < R_of (S754_finite sx mx ex))%R).
    { destruct sx; [apply R_finite_neg|apply R_finite_pos]. }
    split; [apply Rabs_le; destruct sx; lra|].
    split; [intros Hx; destruct sx; lra|]. split; [intros Hx; destruct sx; lra|].
    exists (cond_Zopp sx (a / b)). rewrite <- Rs, <- Ra, <- Rb.
    assert (E : cond_Zopp sx r = cond_Zopp sx a - cond_Zopp sx (a / b) * b).
    { unfold r. pose proof (Z.div_mod a b ltac:(lia)). destruct sx; cbn [cond_Zopp]; nia. }
    rewrite E. unfold F2R. cbn [Fnum Fexp]. rewrite minus_IZR, mult_IZR. ring.
Qed.
