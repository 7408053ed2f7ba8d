(* Single precision operations as real operations with a relative error. *)
From Coq Require Import ZArith Reals Lra Lia List Bool.
From Verif Require Import Res F32 PFloat.
From Flocq Require Import Core.Core Relative IEEE754.BinarySingleNaN.
Local Open Scope R_scope.

Definition u24 : R := / 16777216.
Definition tiny : R := bpow radix2 (-150).
Lemma tiny_pos : 0 < tiny. Proof. apply bpow_gt_0. Qed.
Lemma tiny_small : tiny <= / 1267650600228229401496703205376.
Proof. unfold tiny. apply (Rle_trans _ (bpow radix2 (-100))); [apply bpow_le; lia|]. cbn. lra. Qed.
Lemma rnd_rel : forall r, Rabs (rndf r - r) <= u24 * Rabs r + tiny.
Proof.
  intros r. unfold rndf, rnd.
  change (SpecFloat.fexp 24 128) with (FLT_exp (SpecFloat.emin 24 128) 24).
  destruct (error_N_FLT radix2 (SpecFloat.emin 24 128) 24 eq_refl (fun x => negb (Z.even x)) r) as (eps & eta & A & B & _ & ->).
  replace (r * (1 + eps) + eta - r) with (eps * r + eta) by ring.
  eapply Rle_trans; [apply Rabs_triang|]. rewrite Rabs_mult. apply Rplus_le_compat.
  - apply Rmult_le_compat_r; [apply Rabs_pos|]. eapply Rle_trans; [exact A|]. unfold u24. cbn. lra.
  - eapply Rle_trans; [exact B|]. unfold tiny. change (-150)%Z with (SpecFloat.emin 24 128 - 1)%Z. unfold Zminus. rewrite bpow_plus. cbn [bpow radix2]. cbn. lra.
Qed.
Definition huge : R := 3.4e38.
Lemma big_max : huge <= R_of FLT_MAX /\ R_of (fopp FLT_MAX) <= - huge.
Proof. rewrite R_fopp. R_val FLT_MAX. unfold huge. split; lra. Qed.
Lemma in_max : forall r, Rabs r <= huge -> R_of (fopp FLT_MAX) <= r <= R_of FLT_MAX.
Proof. intros r H. apply Rabs_le_inv in H. destruct big_max. lra. Qed.
Lemma fopp_max : ff (fopp FLT_MAX). Proof. apply fopp_ff, ff_max. Qed.
Lemma fmul_e : forall x y, ff x -> ff y -> Rabs (R_of x * R_of y) <= huge ->
  ff (fmul x y) /\ Rabs (R_of (fmul x y) - R_of x * R_of y) <= u24 * Rabs (R_of x * R_of y) + tiny.
Proof.
  intros x y X Y H. destruct (fmul_b x y _ _ X Y fopp_max ff_max (in_max _ H)) as (A & _ & E). split; [exact A|]. rewrite E. apply rnd_rel.
Qed.
Lemma fadd_e : forall x y, ff x -> ff y -> Rabs (R_of x + R_of y) <= huge ->
  ff (fadd x y) /\ Rabs (R_of (fadd x y) - (R_of x + R_of y)) <= u24 * Rabs (R_of x + R_of y) + tiny.
Proof.
  intros x y X Y H. destruct (fadd_b x y _ _ X Y fopp_max ff_max (in_max _ H)) as (A & _ & E). split; [exact A|]. rewrite E. apply rnd_rel.
Qed.
Lemma fsub_e : forall x y, ff x -> ff y -> Rabs (R_of x - R_of y) <= huge ->
  ff (fsub x y) /\ Rabs (R_of (fsub x y) - (R_of x - R_of y)) <= u24 * Rabs (R_of x - R_of y) + tiny.
Proof.
  intros x y X Y H. destruct (fsub_b x y _ _ X Y fopp_max ff_max (in_max _ H)) as (A & _ & E). split; [exact A|]. rewrite E. apply rnd_rel.
Qed.
Lemma fdiv_e : forall x y, ff x -> ff y -> R_of y <> 0 -> Rabs (R_of x / R_of y) <= huge ->
  ff (fdiv x y) /\ Rabs (R_of (fdiv x y) - R_of x / R_of y) <= u24 * Rabs (R_of x / R_of y) + tiny.
Proof.
  intros x y X Y N H. destruct (fdiv_b x y _ _ X Y N fopp_max ff_max (in_max _ H)) as (A & _ & E). split; [exact A|]. rewrite E. apply rnd_rel.
Qed.
