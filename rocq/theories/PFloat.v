(* Real-number meaning of the float operations of F32.v, through Flocq's verified binary arithmetic. *)
From Coq Require Import ZArith List Bool Lia Reals Lra.
From Verif Require Import Res F32.
From Flocq Require Import Core.Core Calc.Round IEEE754.BinarySingleNaN.
Local Open Scope Z_scope.

(* the real value of a float; 0 for infinities and NaN *)
Definition R_of (x : spec_float) : R := SF2R radix2 x.

Section Fmt.
Variables prec emax : Z.
Context (Hp : Prec_gt_0 prec) (He : Prec_lt_emax prec emax).

Definition vb (x : spec_float) : Prop := valid_binary prec emax x = true.
Definition rnd (x : R) : R := round radix2 (SpecFloat.fexp prec emax) ZnearestE x.

(* SpecFloat against Flocq, as in Flocq's PrimFloat.v but for any format *)
Lemma round_nearest_even_equiv : forall s m l, round_nearest_even m l = choice_mode mode_NE s m l.
Proof.
  intros s m l. case l as [|c]; [reflexivity|]. case c; try reflexivity. simpl. unfold cond_incr. now case Z.even.
Qed.
Lemma binary_round_aux_equiv : forall sx mx ex lx,
  SpecFloat.binary_round_aux prec emax sx mx ex lx = binary_round_aux prec emax mode_NE sx mx ex lx.
Proof.
  intros sx mx ex lx. unfold SpecFloat.binary_round_aux, binary_round_aux.
  set (mrse' := shr_fexp _ _ _ _ _). case mrse'. intros mrs' e'. now rewrite (round_nearest_even_equiv sx).
Qed.
Lemma binary_round_equiv : forall s m e,
  SpecFloat.binary_round prec emax s m e = binary_round prec emax mode_NE s m e.
Proof.
  intros s m e. unfold SpecFloat.binary_round, binary_round, shl_align_fexp.
  set (mez := shl_align _ _ _). case mez. intros mz ez. apply binary_round_aux_equiv.
Qed.
Lemma binary_normalize_equiv : forall m e szero,
  SpecFloat.binary_normalize prec emax m e szero = B2SF (binary_normalize prec emax Hp He mode_NE m e szero).
Proof.
  intros m e szero. case m as [|p|p]; [reflexivity| |]; simpl; rewrite B2SF_SF2B; apply binary_round_equiv.
Qed.

Lemma mul_equiv : forall x y, SFmul prec emax (B2SF x) (B2SF y) = B2SF (Bmult (prec:=prec) (emax:=emax) mode_NE x y).
Proof.
  intros [sx|sx| |sx mx ex Bx] [sy|sy| |sy my ey By]; try reflexivity.
  simpl. rewrite B2SF_SF2B. apply binary_round_aux_equiv.
Qed.
Lemma add_equiv : forall x y, SFadd prec emax (B2SF x) (B2SF y) = B2SF (Bplus (prec:=prec) (emax:=emax) mode_NE x y).
Proof.
  intros [sx|sx| |sx mx ex Bx] [sy|sy| |sy my ey By]; try reflexivity; try (simpl; now case Bool.eqb).
  apply binary_normalize_equiv.
Qed.
Lemma sub_equiv : forall x y, SFsub prec emax (B2SF x) (B2SF y) = B2SF (Bminus (prec:=prec) (emax:=emax) mode_NE x y).
Proof.
  intros [sx|sx| |sx mx ex Bx] [sy|sy| |sy my ey By]; try reflexivity; try (simpl; now case Bool.eqb).
  simpl. unfold Zminus. rewrite <- cond_Zopp_negb. apply binary_normalize_equiv.
Qed.
Lemma div_equiv : forall x y, SFdiv prec emax (B2SF x) (B2SF y) = B2SF (Bdiv (prec:=prec) (emax:=emax) mode_NE x y).
Proof.
  intros [sx|sx| |sx mx ex Bx] [sy|sy| |sy my ey By]; try reflexivity.
  simpl. rewrite B2SF_SF2B. set (melz := SFdiv_core_binary _ _ _ _ _ _). case melz as [[mz ez] lz].
  apply binary_round_aux_equiv.
Qed.
Lemma sqrt_equiv : forall x, SFsqrt prec emax (B2SF x) = B2SF (Bsqrt (prec:=prec) (emax:=emax) mode_NE x).
Proof.
  intros [sx|[|]| |[|] mx ex Bx]; try reflexivity.
  simpl. rewrite B2SF_SF2B. set (melz := SFsqrt_core_binary _ _ _ _). case melz as [[mz ez] lz].
  apply binary_round_aux_equiv.
Qed.

Lemma lift : forall x, vb x -> exists b : binary_float prec emax, x = B2SF b.
Proof. intros x H. exists (SF2B x H). now rewrite B2SF_SF2B. Qed.
Lemma vb_B2SF : forall b : binary_float prec emax, vb (B2SF b).
Proof. apply valid_binary_B2SF. Qed.
Lemma fin_B2SF : forall b : binary_float prec emax, is_finite_sf (B2SF b) = is_finite b.
Proof. now intros [ | | | ]. Qed.
Lemma R_B2SF : forall b : binary_float prec emax, R_of (B2SF b) = B2R b.
Proof. apply SF2R_B2SF. Qed.

(* validity *)
Lemma vb_mul : forall x y, vb x -> vb y -> vb (SFmul prec emax x y).
Proof. intros x y Hx Hy. destruct (lift x Hx) as [a ->], (lift y Hy) as [b ->]. rewrite mul_equiv. apply vb_B2SF. Qed.
Lemma vb_add : forall x y, vb x -> vb y -> vb (SFadd prec emax x y).
Proof. intros x y Hx Hy. destruct (lift x Hx) as [a ->], (lift y Hy) as [b ->]. rewrite add_equiv. apply vb_B2SF. Qed.
Lemma vb_sub : forall x y, vb x -> vb y -> vb (SFsub prec emax x y).
Proof. intros x y Hx Hy. destruct (lift x Hx) as [a ->], (lift y Hy) as [b ->]. rewrite sub_equiv. apply vb_B2SF. Qed.
Lemma vb_div : forall x y, vb x -> vb y -> vb (SFdiv prec emax x y).
Proof. intros x y Hx Hy. destruct (lift x Hx) as [a ->], (lift y Hy) as [b ->]. rewrite div_equiv. apply vb_B2SF. Qed.
Lemma vb_sqrt : forall x, vb x -> vb (SFsqrt prec emax x).
Proof. intros x Hx. destruct (lift x Hx) as [a ->]. rewrite sqrt_equiv. apply vb_B2SF. Qed.
Lemma vb_opp : forall x, vb x -> vb (SFopp x).
Proof. now intros [ | | | ] H. Qed.
Lemma vb_abs : forall x, vb x -> vb (SFabs x).
Proof. now intros [ | | | ] H. Qed.
Lemma vb_round : forall s m e, vb (SpecFloat.binary_round prec emax s m e).
Proof. intros s m e. rewrite binary_round_equiv. apply (binary_round_correct prec emax Hp He mode_NE s m e). Qed.
Lemma vb_norm : forall m e s, vb (SpecFloat.binary_normalize prec emax m e s).
Proof. intros m e s. rewrite binary_normalize_equiv. apply vb_B2SF. Qed.

(* rounding stays between representable bounds *)
Lemma rnd_between : forall lo hi x, vb lo -> vb hi -> (R_of lo <= x <= R_of hi)%R -> (R_of lo <= rnd x <= R_of hi)%R.
Proof.
  intros lo hi x Hl Hh H. destruct (lift lo Hl) as [a ->], (lift hi Hh) as [b ->]. rewrite !R_B2SF in *. unfold rnd. split.
  - apply round_ge_generic; [apply fexp_correct; assumption|apply valid_rnd_N|apply generic_format_B2R|apply H].
  - apply round_le_generic; [apply fexp_correct; assumption|apply valid_rnd_N|apply generic_format_B2R|apply H].
Qed.
Lemma rnd_small : forall lo hi x, vb lo -> vb hi -> (R_of lo <= x <= R_of hi)%R -> (Rabs (rnd x) < bpow radix2 emax)%R.
Proof.
  intros lo hi x Hl Hh H. pose proof (rnd_between lo hi x Hl Hh H) as B.
  destruct (lift lo Hl) as [a ->], (lift hi Hh) as [b ->]. rewrite !R_B2SF in *.
  pose proof (abs_B2R_lt_emax prec emax a) as A1. pose proof (abs_B2R_lt_emax prec emax b) as A2.
  apply Rabs_def2 in A1, A2. apply Rabs_def1; lra.
Qed.
Lemma rnd_vb : forall x, vb x -> rnd (R_of x) = R_of x.
Proof.
  intros x Hx. destruct (lift x Hx) as [a ->]. rewrite R_B2SF. unfold rnd. apply round_generic; [apply valid_rnd_N|].
  apply generic_format_B2R.
Qed.
Lemma rnd_mono : forall x y, (x <= y)%R -> (rnd x <= rnd y)%R.
Proof. intros x y H. unfold rnd. apply round_le; [apply fexp_correct; assumption|apply valid_rnd_N|exact H]. Qed.
Lemma rnd_0 : rnd 0 = 0%R.
Proof. unfold rnd. apply round_0. apply valid_rnd_N. Qed.

(* operations whose exact result lies between two finite floats *)
Definition within (lo hi : spec_float) (x : R) : Prop :=
  vb lo /\ vb hi /\ (R_of lo <= x <= R_of hi)%R.

Lemma mul_R : forall x y lo hi, vb x -> vb y -> is_finite_sf x = true -> is_finite_sf y = true ->
  within lo hi (R_of x * R_of y) ->
  is_finite_sf (SFmul prec emax x y) = true /\ R_of (SFmul prec emax x y) = rnd (R_of x * R_of y).
Proof.
  intros x y lo hi Hx Hy Fx Fy (Hl & Hh & H). destruct (lift x Hx) as [a ->], (lift y Hy) as [b ->].
  rewrite mul_equiv, fin_B2SF, !R_B2SF in *. rewrite ?fin_B2SF in Fx, Fy.
  pose proof (Bmult_correct prec emax _ _ mode_NE a b) as C.
  rewrite Rlt_bool_true in C by exact (rnd_small lo hi _ Hl Hh H). destruct C as (C1 & C2 & _).
  rewrite C2, Fx, Fy. split; [reflexivity|exact C1].
Qed.
Lemma add_R : forall x y lo hi, vb x -> vb y -> is_finite_sf x = true -> is_finite_sf y = true ->
  within lo hi (R_of x + R_of y) ->
  is_finite_sf (SFadd prec emax x y) = true /\ R_of (SFadd prec emax x y) = rnd (R_of x + R_of y).
Proof.
  intros x y lo hi Hx Hy Fx Fy (Hl & Hh & H). destruct (lift x Hx) as [a ->], (lift y Hy) as [b ->].
  rewrite add_equiv, fin_B2SF, !R_B2SF in *. rewrite ?fin_B2SF in Fx, Fy.
  pose proof (Bplus_correct prec emax _ _ mode_NE a b Fx Fy) as C.
  rewrite Rlt_bool_true in C by exact (rnd_small lo hi _ Hl Hh H). destruct C as (C1 & C2 & _).
  split; [exact C2|exact C1].
Qed.
Lemma sub_R : forall x y lo hi, vb x -> vb y -> is_finite_sf x = true -> is_finite_sf y = true ->
  within lo hi (R_of x - R_of y) ->
  is_finite_sf (SFsub prec emax x y) = true /\ R_of (SFsub prec emax x y) = rnd (R_of x - R_of y).
Proof.
  intros x y lo hi Hx Hy Fx Fy (Hl & Hh & H). destruct (lift x Hx) as [a ->], (lift y Hy) as [b ->].
  rewrite sub_equiv, fin_B2SF, !R_B2SF in *. rewrite ?fin_B2SF in Fx, Fy.
  pose proof (Bminus_correct prec emax _ _ mode_NE a b Fx Fy) as C.
  rewrite Rlt_bool_true in C by exact (rnd_small lo hi _ Hl Hh H). destruct C as (C1 & C2 & _).
  split; [exact C2|exact C1].
Qed.
Lemma div_R : forall x y lo hi, vb x -> vb y -> is_finite_sf x = true -> R_of y <> 0%R ->
  within lo hi (R_of x / R_of y) ->
  is_finite_sf (SFdiv prec emax x y) = true /\ R_of (SFdiv prec emax x y) = rnd (R_of x / R_of y).
Proof.
  intros x y lo hi Hx Hy Fx Fy (Hl & Hh & H). destruct (lift x Hx) as [a ->], (lift y Hy) as [b ->].
  rewrite div_equiv, fin_B2SF, !R_B2SF in *. rewrite ?fin_B2SF in Fx.
  pose proof (Bdiv_correct prec emax _ _ mode_NE a b Fy) as C.
  rewrite Rlt_bool_true in C by exact (rnd_small lo hi _ Hl Hh H). destruct C as (C1 & C2 & _).
  rewrite C2, Fx. split; [reflexivity|exact C1].
Qed.
Lemma sqrt_R : forall x, vb x -> is_finite_sf x = true -> (0 <= R_of x)%R ->
  is_finite_sf (SFsqrt prec emax x) = true /\ R_of (SFsqrt prec emax x) = rnd (sqrt (R_of x)).
Proof.
  intros x Hx Fx P. destruct (lift x Hx) as [a ->]. rewrite sqrt_equiv, fin_B2SF, !R_B2SF in *. rewrite ?fin_B2SF in Fx.
  destruct (Bsqrt_correct prec emax _ _ mode_NE a) as (C1 & C2 & _). rewrite C2. split; [|exact C1].
  destruct a as [s|s| |[|] m e B]; try reflexivity; try discriminate Fx. exfalso. simpl in P.
  pose proof (F2R_lt_0 radix2 (Float radix2 (Z.neg m) e) ltac:(reflexivity)). lra.
Qed.
Lemma norm_R : forall m e s lo hi, within lo hi (F2R (Float radix2 m e)) ->
  is_finite_sf (SpecFloat.binary_normalize prec emax m e s) = true /\
  R_of (SpecFloat.binary_normalize prec emax m e s) = rnd (F2R (Float radix2 m e)).
Proof.
  intros m e s lo hi (Hl & Hh & H). rewrite binary_normalize_equiv, fin_B2SF, R_B2SF.
  pose proof (binary_normalize_correct prec emax Hp He mode_NE m e s) as C. cbv zeta in C.
  rewrite Rlt_bool_true in C by exact (rnd_small lo hi _ Hl Hh H). destruct C as (C1 & C2 & _).
  split; [exact C2|exact C1].
Qed.
Lemma round_R : forall s m e lo hi, within lo hi (R_of (S754_finite s m e)) ->
  is_finite_sf (SpecFloat.binary_round prec emax s m e) = true /\
  R_of (SpecFloat.binary_round prec emax s m e) = rnd (R_of (S754_finite s m e)).
Proof.
  intros s m e lo hi (Hl & Hh & H). rewrite binary_round_equiv.
  pose proof (binary_round_correct prec emax Hp He mode_NE s m e) as C. cbv zeta in C. destruct C as [_ C].
  rewrite Rlt_bool_true in C by exact (rnd_small lo hi _ Hl Hh H). destruct C as (C1 & C2 & _).
  split; [exact C2|exact C1].
Qed.

(* the same with the result bounded *)
Lemma mul_b : forall x y lo hi, vb x -> vb y -> is_finite_sf x = true -> is_finite_sf y = true ->
  within lo hi (R_of x * R_of y) ->
  is_finite_sf (SFmul prec emax x y) = true /\ (R_of lo <= R_of (SFmul prec emax x y) <= R_of hi)%R.
Proof.
  intros x y lo hi Hx Hy Fx Fy H. destruct (mul_R x y lo hi Hx Hy Fx Fy H) as [A B]. rewrite B. split; [exact A|].
  destruct H as (L & Hh & H). now apply rnd_between.
Qed.
Lemma add_b : forall x y lo hi, vb x -> vb y -> is_finite_sf x = true -> is_finite_sf y = true ->
  within lo hi (R_of x + R_of y) ->
  is_finite_sf (SFadd prec emax x y) = true /\ (R_of lo <= R_of (SFadd prec emax x y) <= R_of hi)%R.
Proof.
  intros x y lo hi Hx Hy Fx Fy H. destruct (add_R x y lo hi Hx Hy Fx Fy H) as [A B]. rewrite B. split; [exact A|].
  destruct H as (L & Hh & H). now apply rnd_between.
Qed.
Lemma sub_b : forall x y lo hi, vb x -> vb y -> is_finite_sf x = true -> is_finite_sf y = true ->
  within lo hi (R_of x - R_of y) ->
  is_finite_sf (SFsub prec emax x y) = true /\ (R_of lo <= R_of (SFsub prec emax x y) <= R_of hi)%R.
Proof.
  intros x y lo hi Hx Hy Fx Fy H. destruct (sub_R x y lo hi Hx Hy Fx Fy H) as [A B]. rewrite B. split; [exact A|].
  destruct H as (L & Hh & H). now apply rnd_between.
Qed.
Lemma div_b : forall x y lo hi, vb x -> vb y -> is_finite_sf x = true -> R_of y <> 0%R ->
  within lo hi (R_of x / R_of y) ->
  is_finite_sf (SFdiv prec emax x y) = true /\ (R_of lo <= R_of (SFdiv prec emax x y) <= R_of hi)%R.
Proof.
  intros x y lo hi Hx Hy Fx Fy H. destruct (div_R x y lo hi Hx Hy Fx Fy H) as [A B]. rewrite B. split; [exact A|].
  destruct H as (L & Hh & H). now apply rnd_between.
Qed.

(* finite operands: rounded, or an infinity of the right sign *)
Lemma mul_cases : forall x y, vb x -> vb y -> is_finite_sf x = true -> is_finite_sf y = true ->
  (is_finite_sf (SFmul prec emax x y) = true /\ R_of (SFmul prec emax x y) = rnd (R_of x * R_of y)) \/
  SFmul prec emax x y = S754_infinity (xorb (sign_SF x) (sign_SF y)).
Proof.
  intros x y Hx Hy Fx Fy. destruct (lift x Hx) as [a ->], (lift y Hy) as [b ->].
  rewrite mul_equiv, fin_B2SF, !R_B2SF. rewrite fin_B2SF in Fx, Fy.
  pose proof (Bmult_correct prec emax _ _ mode_NE a b) as C.
  destruct (Rlt_bool _ _).
  - left. destruct C as (C1 & C2 & _). rewrite C2, Fx, Fy. split; [reflexivity|exact C1].
  - right. rewrite C. unfold binary_overflow. cbn. now destruct a, b.
Qed.
Lemma add_cases : forall x y, vb x -> vb y -> is_finite_sf x = true -> is_finite_sf y = true ->
  (is_finite_sf (SFadd prec emax x y) = true /\ R_of (SFadd prec emax x y) = rnd (R_of x + R_of y)) \/
  (SFadd prec emax x y = S754_infinity (sign_SF x) /\ sign_SF x = sign_SF y).
Proof.
  intros x y Hx Hy Fx Fy. destruct (lift x Hx) as [a ->], (lift y Hy) as [b ->].
  rewrite add_equiv, fin_B2SF, !R_B2SF. rewrite fin_B2SF in Fx, Fy.
  pose proof (Bplus_correct prec emax _ _ mode_NE a b Fx Fy) as C.
  destruct (Rlt_bool _ _).
  - left. destruct C as (C1 & C2 & _). split; [exact C2|exact C1].
  - right. destruct C as [C1 C2]. rewrite C1. unfold binary_overflow. cbn. now destruct a, b.
Qed.
Lemma div_cases : forall x y, vb x -> vb y -> is_finite_sf x = true -> R_of y <> 0%R ->
  (is_finite_sf (SFdiv prec emax x y) = true /\ R_of (SFdiv prec emax x y) = rnd (R_of x / R_of y)) \/
  SFdiv prec emax x y = S754_infinity (xorb (sign_SF x) (sign_SF y)).
Proof.
  intros x y Hx Hy Fx Fy. destruct (lift x Hx) as [a ->], (lift y Hy) as [b ->].
  rewrite div_equiv, fin_B2SF, !R_B2SF. rewrite fin_B2SF in Fx. rewrite R_B2SF in Fy.
  pose proof (Bdiv_correct prec emax _ _ mode_NE a b Fy) as C.
  destruct (Rlt_bool _ _).
  - left. destruct C as (C1 & C2 & _). rewrite C2, Fx. split; [reflexivity|exact C1].
  - right. rewrite C. unfold binary_overflow. cbn. now destruct a, b.
Qed.

(* comparisons of finite floats *)
Lemma ltb_R : forall x y, vb x -> vb y -> is_finite_sf x = true -> is_finite_sf y = true ->
  SFltb x y = Rlt_bool (R_of x) (R_of y).
Proof.
  intros x y Hx Hy Fx Fy. destruct (lift x Hx) as [a ->], (lift y Hy) as [b ->]. rewrite !R_B2SF. rewrite fin_B2SF in *.
  exact (Bltb_correct prec emax a b Fx Fy).
Qed.
Lemma leb_R : forall x y, vb x -> vb y -> is_finite_sf x = true -> is_finite_sf y = true ->
  SFleb x y = Rle_bool (R_of x) (R_of y).
Proof.
  intros x y Hx Hy Fx Fy. destruct (lift x Hx) as [a ->], (lift y Hy) as [b ->]. rewrite !R_B2SF. rewrite fin_B2SF in *.
  exact (Bleb_correct prec emax a b Fx Fy).
Qed.
Lemma lt_true : forall x y, vb x -> vb y -> is_finite_sf x = true -> is_finite_sf y = true ->
  SFltb x y = true <-> (R_of x < R_of y)%R.
Proof.
  intros x y Hx Hy Fx Fy. rewrite ltb_R by assumption. split.
  - destruct (Rlt_bool_spec (R_of x) (R_of y)); [auto|discriminate].
  - intros H. now apply Rlt_bool_true.
Qed.
Lemma lt_false : forall x y, vb x -> vb y -> is_finite_sf x = true -> is_finite_sf y = true ->
  SFltb x y = false <-> (R_of y <= R_of x)%R.
Proof.
  intros x y Hx Hy Fx Fy. rewrite ltb_R by assumption. split.
  - destruct (Rlt_bool_spec (R_of x) (R_of y)); [discriminate|auto].
  - intros H. now apply Rlt_bool_false.
Qed.
Lemma le_true : forall x y, vb x -> vb y -> is_finite_sf x = true -> is_finite_sf y = true ->
  SFleb x y = true <-> (R_of x <= R_of y)%R.
Proof.
  intros x y Hx Hy Fx Fy. rewrite leb_R by assumption. split.
  - destruct (Rle_bool_spec (R_of x) (R_of y)); [auto|discriminate].
  - intros H. now apply Rle_bool_true.
Qed.
Lemma le_false : forall x y, vb x -> vb y -> is_finite_sf x = true -> is_finite_sf y = true ->
  SFleb x y = false <-> (R_of y < R_of x)%R.
Proof.
  intros x y Hx Hy Fx Fy. rewrite leb_R by assumption. split.
  - destruct (Rle_bool_spec (R_of x) (R_of y)); [discriminate|auto].
  - intros H. now apply Rle_bool_false.
Qed.

(* the largest finite float bounds every float *)
Lemma R_le_max : forall x, vb x -> (Rabs (R_of x) <= bpow radix2 emax - bpow radix2 (emax - prec))%R.
Proof. intros x Hx. destruct (lift x Hx) as [a ->]. rewrite R_B2SF. apply abs_B2R_le_emax_minus_prec. exact Hp. Qed.
End Fmt.

(* ---- the two formats ---- *)
Lemma Hp24 : Prec_gt_0 24. Proof. reflexivity. Qed.
Lemma He24 : Prec_lt_emax 24 128. Proof. reflexivity. Qed.
Lemma Hp53 : Prec_gt_0 53. Proof. reflexivity. Qed.
Lemma He53 : Prec_lt_emax 53 1024. Proof. reflexivity. Qed.

(* a binary32 datum; a finite one *)
Definition vf (x : spec_float) : Prop := vb 24 128 x.
Definition ff (x : spec_float) : Prop := vf x /\ is_finite_sf x = true.
Definition rndf : R -> R := rnd 24 128.
Definition vd (x : spec_float) : Prop := vb 53 1024 x.
Definition fd (x : spec_float) : Prop := vd x /\ is_finite_sf x = true.
Definition rndd : R -> R := rnd 53 1024.

(* value of a literal, in a form lra understands *)
Lemma R_neg_exp : forall s m e, (e < 0)%Z ->
  R_of (S754_finite s m e) = (IZR (cond_Zopp s (Zpos m)) / IZR (2 ^ (- e)))%R.
Proof.
  intros s m e H. unfold R_of, SF2R, F2R. cbn [Fnum Fexp]. destruct e as [|p|p]; try lia.
  change (bpow radix2 (Z.neg p)) with (/ IZR (Z.pow_pos 2 p))%R. reflexivity.
Qed.
Lemma R_pos_exp : forall s m e, (0 <= e)%Z ->
  R_of (S754_finite s m e) = IZR (cond_Zopp s (Zpos m) * 2 ^ e).
Proof.
  intros s m e H. unfold R_of, SF2R, F2R. cbn [Fnum Fexp]. rewrite <- IZR_Zpower by exact H. now rewrite mult_IZR.
Qed.
Lemma R_zero : forall s, R_of (S754_zero s) = 0%R.
Proof. reflexivity. Qed.

(* rewrite the value of the closed float c in the goal or everywhere *)
Ltac R_val c :=
  let c' := eval vm_compute in c in
  match c' with
  | S754_finite ?s ?m ?e =>
      let n := eval vm_compute in (cond_Zopp s (Zpos m)) in
      match e with
      | Z.neg _ =>
          let d := eval vm_compute in (2 ^ (- e))%Z in
          let H := fresh "HR" in
          assert (H : R_of c = (IZR n / IZR d)%R) by (exact (R_neg_exp s m e eq_refl)); rewrite ?H in *; clear H
      | _ =>
          let d := eval vm_compute in (n * 2 ^ e)%Z in
          let H := fresh "HR" in
          assert (H : R_of c = IZR d) by (apply (R_pos_exp s m e); discriminate); rewrite ?H in *; clear H
      end
  | S754_zero _ => change (R_of c) with 0%R in *
  end.

Lemma R_fopp : forall x, R_of (fopp x) = (- R_of x)%R.
Proof.
  intros [s|s| |s m e]; cbn; try lra. change (F2R (Float radix2 (cond_Zopp (negb s) (Z.pos m)) e) = - F2R (Float radix2 (cond_Zopp s (Z.pos m)) e))%R.
  rewrite <- F2R_Zopp, <- cond_Zopp_negb. reflexivity.
Qed.
Lemma R_fabs : forall x, R_of (fabs x) = Rabs (R_of x).
Proof.
  intros [s|s| |s m e]; cbn; try (now rewrite Rabs_R0). unfold fabs, SFabs, R_of, SF2R. rewrite <- F2R_Zabs. now destruct s.
Qed.

Lemma vf_fadd : forall x y, vf x -> vf y -> vf (fadd x y).
Proof. exact (vb_add 24 128 Hp24 He24). Qed.
Lemma vf_fsub : forall x y, vf x -> vf y -> vf (fsub x y).
Proof. exact (vb_sub 24 128 Hp24 He24). Qed.
Lemma vf_fmul : forall x y, vf x -> vf y -> vf (fmul x y).
Proof. exact (vb_mul 24 128 Hp24 He24). Qed.
Lemma vf_fdiv : forall x y, vf x -> vf y -> vf (fdiv x y).
Proof. exact (vb_div 24 128 Hp24 He24). Qed.
Lemma vf_fsqrt : forall x, vf x -> vf (fsqrt x).
Proof. exact (vb_sqrt 24 128 Hp24 He24). Qed.
Lemma vf_fopp : forall x, vf x -> vf (fopp x).
Proof. exact (vb_opp 24 128). Qed.
Lemma vf_fabs : forall x, vf x -> vf (fabs x).
Proof. exact (vb_abs 24 128). Qed.
Lemma vf_canon : forall x, vf (f_canon x).
Proof. intros [ | | | ]; try reflexivity. apply (vb_round 24 128 Hp24 He24). Qed.
Lemma vf_d2f : forall x, vf (d2f x).
Proof. intros [ | | | ]; try reflexivity. apply (vb_round 24 128 Hp24 He24). Qed.
Lemma vf_of_Z : forall z, vf (f_of_Z z).
Proof. intros z. apply (vb_norm 24 128 Hp24 He24). Qed.
Lemma vf_ffloor : forall x, vf x -> vf (ffloor x).
Proof. intros [ | | | ] H; try exact H. apply (vb_norm 24 128 Hp24 He24). Qed.
Lemma vf_fceil : forall x, vf x -> vf (fceil x).
Proof. intros x H. apply vf_fopp, vf_ffloor, vf_fopp, H. Qed.
Lemma vf_ffmod : forall x y, vf x -> vf (ffmod x y).
Proof. intros [ | | | ] [ | | | ] H; try exact H; try reflexivity. apply (vb_norm 24 128 Hp24 He24). Qed.
Lemma vd_dadd : forall x y, vd x -> vd y -> vd (dadd x y).
Proof. exact (vb_add 53 1024 Hp53 He53). Qed.
Lemma vd_dmul : forall x y, vd x -> vd y -> vd (dmul x y).
Proof. exact (vb_mul 53 1024 Hp53 He53). Qed.
Lemma vd_ddiv : forall x y, vd x -> vd y -> vd (ddiv x y).
Proof. exact (vb_div 53 1024 Hp53 He53). Qed.
Lemma vd_f2d : forall x, vd (f2d x).
Proof. intros [ | | | ]; try reflexivity. apply (vb_round 53 1024 Hp53 He53). Qed.
Lemma vd_of_Z : forall z, vd (d_of_Z z).
Proof. intros z. apply (vb_norm 53 1024 Hp53 He53). Qed.

(* single precision: the exact result lies between finite floats lo and hi *)
Lemma fmul_b : forall x y lo hi, ff x -> ff y -> ff lo -> ff hi -> (R_of lo <= R_of x * R_of y <= R_of hi)%R ->
  ff (fmul x y) /\ (R_of lo <= R_of (fmul x y) <= R_of hi)%R /\ R_of (fmul x y) = rndf (R_of x * R_of y).
Proof.
  intros x y lo hi [Vx Fx] [Vy Fy] [Vl _] [Vh _] H.
  destruct (mul_R 24 128 Hp24 He24 x y lo hi Vx Vy Fx Fy (conj Vl (conj Vh H))) as [A B].
  split; [split; [exact (vf_fmul x y Vx Vy)|exact A]|]. split; [|exact B].
  change (R_of (fmul x y)) with (R_of (SFmul 24 128 x y)). rewrite B. now apply (rnd_between 24 128 Hp24).
Qed.
Lemma fadd_b : forall x y lo hi, ff x -> ff y -> ff lo -> ff hi -> (R_of lo <= R_of x + R_of y <= R_of hi)%R ->
  ff (fadd x y) /\ (R_of lo <= R_of (fadd x y) <= R_of hi)%R /\ R_of (fadd x y) = rndf (R_of x + R_of y).
Proof.
  intros x y lo hi [Vx Fx] [Vy Fy] [Vl _] [Vh _] H.
  destruct (add_R 24 128 Hp24 He24 x y lo hi Vx Vy Fx Fy (conj Vl (conj Vh H))) as [A B].
  split; [split; [exact (vf_fadd x y Vx Vy)|exact A]|]. split; [|exact B].
  change (R_of (fadd x y)) with (R_of (SFadd 24 128 x y)). rewrite B. now apply (rnd_between 24 128 Hp24).
Qed.
Lemma fsub_b : forall x y lo hi, ff x -> ff y -> ff lo -> ff hi -> (R_of lo <= R_of x - R_of y <= R_of hi)%R ->
  ff (fsub x y) /\ (R_of lo <= R_of (fsub x y) <= R_of hi)%R /\ R_of (fsub x y) = rndf (R_of x - R_of y).
Proof.
  intros x y lo hi [Vx Fx] [Vy Fy] [Vl _] [Vh _] H.
  destruct (sub_R 24 128 Hp24 He24 x y lo hi Vx Vy Fx Fy (conj Vl (conj Vh H))) as [A B].
  split; [split; [exact (vf_fsub x y Vx Vy)|exact A]|]. split; [|exact B].
  change (R_of (fsub x y)) with (R_of (SFsub 24 128 x y)). rewrite B. now apply (rnd_between 24 128 Hp24).
Qed.
Lemma fdiv_b : forall x y lo hi, ff x -> ff y -> R_of y <> 0%R -> ff lo -> ff hi ->
  (R_of lo <= R_of x / R_of y <= R_of hi)%R ->
  ff (fdiv x y) /\ (R_of lo <= R_of (fdiv x y) <= R_of hi)%R /\ R_of (fdiv x y) = rndf (R_of x / R_of y).
Proof.
  intros x y lo hi [Vx Fx] [Vy Fy] N [Vl _] [Vh _] H.
  destruct (div_R 24 128 Hp24 He24 x y lo hi Vx Vy Fx N (conj Vl (conj Vh H))) as [A B].
  split; [split; [exact (vf_fdiv x y Vx Vy)|exact A]|]. split; [|exact B].
  change (R_of (fdiv x y)) with (R_of (SFdiv 24 128 x y)). rewrite B. now apply (rnd_between 24 128 Hp24).
Qed.
Lemma fopp_ff : forall x, ff x -> ff (fopp x).
Proof. intros x [V F]. split; [now apply vf_fopp|]. now destruct x. Qed.
Lemma fabs_ff : forall x, ff x -> ff (fabs x).
Proof. intros x [V F]. split; [now apply vf_fabs|]. now destruct x. Qed.
Lemma flt_true : forall x y, ff x -> ff y -> flt x y = true <-> (R_of x < R_of y)%R.
Proof. intros x y [Vx Fx] [Vy Fy]. exact (lt_true 24 128 x y Vx Vy Fx Fy). Qed.
Lemma flt_false : forall x y, ff x -> ff y -> flt x y = false <-> (R_of y <= R_of x)%R.
Proof. intros x y [Vx Fx] [Vy Fy]. exact (lt_false 24 128 x y Vx Vy Fx Fy). Qed.
Lemma fle_true : forall x y, ff x -> ff y -> fle x y = true <-> (R_of x <= R_of y)%R.
Proof. intros x y [Vx Fx] [Vy Fy]. exact (le_true 24 128 x y Vx Vy Fx Fy). Qed.
Lemma fle_false : forall x y, ff x -> ff y -> fle x y = false <-> (R_of y < R_of x)%R.
Proof. intros x y [Vx Fx] [Vy Fy]. exact (le_false 24 128 x y Vx Vy Fx Fy). Qed.

Lemma ff_max : ff FLT_MAX.
Proof. split; reflexivity. Qed.
Lemma le_FLT_MAX : forall x, vf x -> (R_of x <= R_of FLT_MAX)%R.
Proof.
  intros x Hx. pose proof (R_le_max 24 128 Hp24 x Hx) as H. R_val FLT_MAX.
  assert (E : (bpow radix2 128 - bpow radix2 (128 - 24) = IZR 340282346638528859811704183484516925440)%R).
  { rewrite <- !IZR_Zpower by (vm_compute; discriminate). rewrite <- minus_IZR. reflexivity. }
  rewrite E in H. apply Rabs_le_inv in H. lra.
Qed.

(* comparison of arbitrary floats *)
Lemma SFcompare_swap : forall x y, SFcompare y x = option_map CompOpp (SFcompare x y).
Proof.
  intros [sx|[|]| |[|] mx ex] [sy|[|]| |[|] my ey]; try reflexivity; cbn.
  - rewrite (Z.compare_antisym ex ey). destruct (ex ?= ey)%Z; try reflexivity. cbn.
    change (Some (CompOpp (Pos.compare my mx)) = Some (CompOpp (CompOpp (Pos.compare mx my)))).
    rewrite (Pos.compare_antisym my mx). now destruct (my ?= mx)%positive.
  - rewrite (Z.compare_antisym ex ey). destruct (ex ?= ey)%Z; try reflexivity. cbn.
    change (Some (Pos.compare my mx) = Some (CompOpp (Pos.compare mx my))).
    rewrite (Pos.compare_antisym mx my). reflexivity.
Qed.
Lemma not_lt : forall x y, flt x y = false -> is_nan_sf x = true \/ is_nan_sf y = true \/ fle y x = true.
Proof.
  intros x y H. unfold flt, SFltb in H. unfold fle, SFleb. rewrite (SFcompare_swap x y).
  destruct (SFcompare x y) as [[| |]|] eqn:E; try discriminate H; auto.
  destruct x as [sx|[|]| |[|] mx ex], y as [sy|[|]| |[|] my ey]; try discriminate E; auto.
Qed.

(* non-negative floats: +-0, positive, +infinity *)
Definition nn (x : spec_float) : Prop := vf x /\ fle fzero x = true.
Lemma nn_inv : forall x, nn x -> x = S754_infinity false \/ (ff x /\ (0 <= R_of x)%R).
Proof.
  intros [s|[|]| |[|] m e] [V H]; try discriminate H; auto; right; (split; [split; [exact V|reflexivity]|]).
  - cbn. lra.
  - unfold R_of, SF2R. apply F2R_ge_0. cbn. lia.
Qed.
Lemma nn_ff : forall x, ff x -> (0 <= R_of x)%R -> nn x.
Proof. intros x [V F] H. split; [exact V|]. apply fle_true; [split; reflexivity|split; assumption|exact H]. Qed.
Lemma nn_not_nan : forall x, nn x -> is_nan_sf x = false.
Proof. intros [s|[|]| |[|] m e] [V H]; try discriminate H; reflexivity. Qed.
Lemma rndf_nn : forall r, (0 <= r)%R -> (0 <= rndf r)%R.
Proof. intros r H. unfold rndf. rewrite <- (rnd_0 24 128). now apply (rnd_mono 24 128 Hp24). Qed.
Lemma nn_sign : forall x, nn x -> (sign_SF x = false \/ exists s, x = S754_zero s).
Proof. intros [s|[|]| |[|] m e] [V H]; try discriminate H; eauto. Qed.
Lemma nn_sq : forall x, vf x -> is_nan_sf x = false -> nn (fmul x x).
Proof.
  intros x V N. split; [now apply vf_fmul|]. destruct (is_finite_sf x) eqn:F.
  - destruct (mul_cases 24 128 Hp24 He24 x x V V F F) as [[A B]|A].
    + apply fle_true; [split; reflexivity|split; [now apply vf_fmul|exact A]|].
      change (R_of (fmul x x)) with (R_of (SFmul 24 128 x x)). rewrite B. apply rndf_nn. nra.
    + change (fmul x x) with (SFmul 24 128 x x). rewrite A. now destruct (sign_SF x).
  - destruct x as [s|[|]| |s m e]; try discriminate; reflexivity.
Qed.
Lemma nn_add : forall x y, nn x -> nn y -> nn (fadd x y).
Proof.
  intros x y Hx Hy. split; [apply vf_fadd; [apply Hx|apply Hy]|].
  destruct (nn_inv x Hx) as [->|[[Vx Fx] Px]].
  - destruct Hy as [_ Hy]. destruct y as [s|[|]| |[|] m e]; try discriminate Hy; reflexivity.
  - destruct (nn_inv y Hy) as [->|[[Vy Fy] Py]].
    + destruct Hx as [_ Hx]. destruct x as [s|[|]| |[|] m e]; try discriminate Hx; reflexivity.
    + destruct (add_cases 24 128 Hp24 He24 x y Vx Vy Fx Fy) as [[A B]|[A B]].
      * apply fle_true; [split; reflexivity|split; [now apply vf_fadd|exact A]|].
        change (R_of (fadd x y)) with (R_of (SFadd 24 128 x y)). rewrite B. apply rndf_nn. lra.
      * change (fadd x y) with (SFadd 24 128 x y). rewrite A.
        destruct (nn_sign x Hx) as [->|[s ->]]; [reflexivity|].
        exfalso. clear - A Fy. destruct y as [s0|s0| |s0 m e]; try discriminate Fy; cbn in A; [destruct (Bool.eqb s s0)|]; discriminate A.
Qed.
Lemma nn_mul : forall c x, ff c -> (0 < R_of c)%R -> nn x -> nn (fmul c x).
Proof.
  intros c x [Vc Fc] Pc Hx. split; [apply vf_fmul; [exact Vc|apply Hx]|].
  destruct (nn_inv x Hx) as [->|[[Vx Fx] Px]].
  - destruct c as [s|s| |[|] m e]; try discriminate Fc; cbn in Pc; [lra| |reflexivity].
    exfalso. pose proof (F2R_lt_0 radix2 (Float radix2 (Z.neg m) e) ltac:(reflexivity)) as Q. unfold R_of, SF2R in Pc. cbn in Pc. lra.
  - destruct (mul_cases 24 128 Hp24 He24 c x Vc Vx Fc Fx) as [[A B]|A].
    + apply fle_true; [split; reflexivity|split; [now apply vf_fmul|exact A]|].
      change (R_of (fmul c x)) with (R_of (SFmul 24 128 c x)). rewrite B. apply rndf_nn. nra.
    + change (fmul c x) with (SFmul 24 128 c x). rewrite A.
      assert (Sc : sign_SF c = false).
      { destruct c as [s|s| |[|] m e]; try discriminate Fc; cbn in Pc; [lra| |reflexivity].
        exfalso. pose proof (F2R_lt_0 radix2 (Float radix2 (Z.neg m) e) ltac:(reflexivity)) as Q. unfold R_of, SF2R in Pc. cbn in Pc. lra. }
      destruct (nn_sign x Hx) as [Sx|[s ->]]; [rewrite Sc, Sx; reflexivity|].
      exfalso. clear - A Fc. destruct c; try discriminate Fc; discriminate A.
Qed.

(* integers up to 2^24 are exact *)
Lemma of_Z_R : forall z, (Z.abs z <= 16777216)%Z -> ff (f_of_Z z) /\ R_of (f_of_Z z) = IZR z.
Proof.
  intros z Hz. pose (hi := f_of_Z 16777216). pose (lo := f_of_Z (-16777216)).
  assert (Vh : vf hi) by apply vf_of_Z. assert (Vl : vf lo) by apply vf_of_Z.
  assert (Eh : R_of hi = 16777216%R) by (unfold hi; R_val (f_of_Z 16777216); reflexivity).
  assert (El : R_of lo = (-16777216)%R) by (unfold lo; R_val (f_of_Z (-16777216)); reflexivity).
  assert (EF : F2R (Float radix2 z 0) = IZR z) by (unfold F2R; cbn; lra).
  destruct (norm_R 24 128 Hp24 He24 z 0 false lo hi) as [A B].
  { split; [exact Vl|]. split; [exact Vh|]. rewrite EF, Eh, El. split; apply IZR_le; lia. }
  split; [split; [apply vf_of_Z|exact A]|]. change (f_of_Z z) with (SpecFloat.binary_normalize 24 128 z 0 false).
  rewrite B, EF. unfold rnd. apply round_generic; [apply valid_rnd_N|].
  destruct (Z.eq_dec (Z.abs z) 16777216) as [E|N].
  - assert (D : z = 16777216 \/ z = -16777216) by lia. destruct D as [->| ->].
    + rewrite <- Eh. change (R_of hi) with (SF2R radix2 hi). rewrite <- (B2R_SF2B 24 128 hi Vh). apply generic_format_B2R.
    + rewrite <- El. change (R_of lo) with (SF2R radix2 lo). rewrite <- (B2R_SF2B 24 128 lo Vl). apply generic_format_B2R.
  - apply (generic_format_FLT radix2 (SpecFloat.emin 24 128) 24). exists (Float radix2 z 0); [now rewrite EF| |].
    + cbn. lia.
    + cbn. vm_compute. discriminate.
Qed.

(* truncation *)
Lemma trunc_R : forall x, is_finite_sf x = true -> sf_trunc x = Some (Ztrunc (R_of x)).
Proof.
  intros [s|s| |s m e] F; try discriminate F.
  - cbn. change (R_of (S754_zero s)) with (IZR 0). now rewrite Ztrunc_IZR.
  - unfold sf_trunc. cbv zeta. f_equal. destruct (Z.leb_spec 0 e) as [He|He].
    + rewrite R_pos_exp by exact He. rewrite Ztrunc_IZR. destruct s; cbn [cond_Zopp]; lia.
    + rewrite R_neg_exp by exact He.
      assert (P : (IZR (2 ^ (- e)) > 0)%R) by (apply IZR_lt, Z.pow_pos_nonneg; lia).
      assert (Q : Ztrunc (IZR (Zpos m) / IZR (2 ^ (- e))) = Zpos m / 2 ^ (- e)).
      { rewrite Ztrunc_floor; [apply Zfloor_div; pose proof (Z.pow_pos_nonneg 2 (- e)); lia|].
        apply Rmult_le_pos; [apply IZR_le; lia|]. left. apply Rinv_0_lt_compat. exact P. }
      destruct s; cbn [cond_Zopp].
      * change (Z.neg m) with (- Zpos m)%Z. rewrite opp_IZR. unfold Rdiv. rewrite <- Ropp_mult_distr_l. rewrite Ztrunc_opp.
        unfold Rdiv in Q. rewrite Q. reflexivity.
      * now rewrite Q.
Qed.
Lemma trunc_of_Z : forall z, (Z.abs z <= 16777216)%Z -> sf_trunc (f_of_Z z) = Some z.
Proof. intros z H. destruct (of_Z_R z H) as [[_ F] E]. rewrite trunc_R by exact F. now rewrite E, Ztrunc_IZR. Qed.
Lemma trunc_bound : forall x n, 0 <= n -> (- (IZR n + 1) < x < IZR n + 1)%R -> - n <= Ztrunc x <= n.
Proof.
  intros x n Hn [H1 H2]. destruct (Rle_or_lt 0 x) as [H|H].
  - rewrite Ztrunc_floor by exact H. pose proof (Zfloor_lb x) as K.
    assert (K1 : 0 <= Zfloor x) by (apply Zfloor_lub; exact H).
    assert (K2 : (IZR (Zfloor x) < IZR (n + 1))%R) by (rewrite plus_IZR; lra). apply lt_IZR in K2. lia.
  - rewrite Ztrunc_ceil by lra. pose proof (Zceil_ub x) as K.
    assert (K1 : Zceil x <= 0) by (apply Zceil_glb; lra).
    assert (K2 : (IZR (- (n + 1)) < IZR (Zceil x))%R) by (rewrite opp_IZR, plus_IZR; lra). apply lt_IZR in K2. lia.
Qed.
Lemma R_finite_pos : forall m e, (0 < R_of (S754_finite false m e))%R.
Proof. intros m e. exact (F2R_gt_0 radix2 (Float radix2 (Z.pos m) e) ltac:(reflexivity)). Qed.
Lemma R_finite_neg : forall m e, (R_of (S754_finite true m e) < 0)%R.
Proof. intros m e. exact (F2R_lt_0 radix2 (Float radix2 (Z.neg m) e) ltac:(reflexivity)). Qed.
