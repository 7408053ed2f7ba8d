(* The log amplitudes of the repeated loud AMBE frame. *)
From Coq Require Import ZArith Reals Lra Lia List Bool.
From Verif Require Import Res F32 TabAmbe2450 TabAmbe2400 MFrame MParms MAdaptive MUnvoiced MSynth MImbe MAmbe SpecEcc SpecFrame SpecImbe SpecAmbe SpecAmp SpecState SpecAmbeMachine SpecBound SpecLoud SpecLoud2 SpecNum2
  PBase PFloat PReal PAmp PAmp2 PPredict PResid PResid2 PBound PBound2 PLoud2 PLoud7 PNum11.
From Flocq Require Import Core.Core.
Import ListNotations.
Local Open Scope R_scope.

Definition at_home2 (l : Z) : bool := let x := position 42 42 l in (whole_part x =? l)%Z && sfeq (fraction x) (S754_zero false).
Lemma all_home2 : forallb at_home2 (upto 42) = true.
Proof. vm_compute. reflexivity. Qed.
Lemma mixed_home2 : forall a l, (1 <= l <= 42)%Z -> mixed 42 42 a l = R_of (a l).
Proof.
  intros a l Hl. pose proof all_home2 as F. rewrite forallb_forall in F. specialize (F l). unfold at_home2 in F. cbv zeta in F.
  assert (I : In l (upto 42)) by (unfold upto; apply in_map_iff; exists (Z.to_nat l); split; [lia|apply in_seq; lia]).
  apply F in I. apply andb_true_iff in I as [I J]. apply Z.eqb_eq in I. apply sfeq_eq in J. unfold mixed. cbv zeta. rewrite I, J, R_zero. ring.
Qed.
Definition mean2 (m : parms) : R := rsum 42 (fun l => R_of (log_at m l)) / 42.
Definition lead2 (m : parms) : R := R_of (log_at m 1) - mean2 m.
(* what a frame can be predicted from, with the lead of the first harmonic *)
Definition led2 (m : parms) (x : R) : Prop := 0 <= x /\ (quiet_past m /\ x = 0 \/ p_L m = 42%Z /\ x <= lead2 m).
Lemma rho_low : 0.6499 <= R_of (d2f (dlit 65 100)).
Proof. R_val (d2f (dlit 65 100)). lra. Qed.
Lemma log2_42 : ln (IZR 42) / ln 2 <= 5.4.
Proof.
  assert (P : 0 < ln 2) by (rewrite <- ln_1; apply ln_increasing; lra). apply (Rmult_le_reg_r (ln 2 * 5)); [lra|]. replace (ln (IZR 42) / ln 2 * (ln 2 * 5)) with (INR 5 * ln (IZR 42)) by (cbn [INR]; field; lra).
  rewrite <- ln_pow by lra. replace (5.4 * (ln 2 * 5)) with (INR 27 * ln 2) by (rewrite INR_IZR_INZ; cbn [Z.of_nat Pos.of_succ_nat Pos.succ]; lra). rewrite <- ln_pow by lra. apply Rlt_le, ln_increasing; lra.
Qed.
Lemma log2_of : forall o, accurate_library2 o -> log2_three_six o.
Proof.
  intros o (_ & _ & A) L HL. destruct (A L HL) as [F E]. split; [exact F|]. apply Rabs_le_inv in E. assert (P : 0 < ln 2) by (rewrite <- ln_1; apply ln_increasing; lra).
  assert (L1 : 9 <= IZR L <= 56) by (split; apply IZR_le; lia).
  assert (LO : 31 * ln 2 <= 10 * ln (IZR L)).
  { replace 31 with (INR 31) by (rewrite INR_IZR_INZ; reflexivity). replace 10 with (INR 10) by (rewrite INR_IZR_INZ; reflexivity). rewrite <- !ln_pow by lra. apply Rle_trans with (ln (9 ^ 10)); [apply Rlt_le, ln_increasing; lra|]. rewrite !ln_pow by lra. apply Rmult_le_compat_l; [apply pos_INR|]. destruct (Req_dec 9 (IZR L)) as [<-|]; [lra|]. apply Rlt_le, ln_increasing; lra. }
  assert (HI : 10 * ln (IZR L) <= 59 * ln 2).
  { replace 59 with (INR 59) by (rewrite INR_IZR_INZ; reflexivity). replace 10 with (INR 10) by (rewrite INR_IZR_INZ; reflexivity). rewrite <- !ln_pow by lra. apply Rle_trans with (ln (56 ^ 10)); [|apply Rlt_le, ln_increasing; lra]. rewrite !ln_pow by lra. apply Rmult_le_compat_l; [apply pos_INR|]. destruct (Req_dec 56 (IZR L)) as [<-|]; [lra|]. apply Rlt_le, ln_increasing; lra. }
  assert (Q : 3.1 <= ln (IZR L) / ln 2 <= 5.9). { split; apply (Rmult_le_reg_r (ln 2)); auto; unfold Rdiv; rewrite Rmult_assoc, Rinv_l by lra; lra. }
  lra.
Qed.
Lemma gain_31 : 6.8744 <= R_of (gain2450 loud_bits2450).
Proof. change (gain2450 loud_bits2450) with (nth 31 AmbeDg fzero). R_val (nth 31 AmbeDg fzero). lra. Qed.

Section Accurate.
Variable o : oracle.
Hypothesis A : accurate_library2 o.
Lemma gain_step2 : forall g y, ff g -> Rabs (R_of g) <= 14 -> y <= R_of g -> 6.874 + 0.5 * y <= R_of (fadd (gain2450 loud_bits2450) (fmul (flit 1 2) g)).
Proof.
  intros g y F B Y. assert (Hd : is_bits 49 loud_bits2450) by (split; [reflexivity|repeat (constructor; [first [left; reflexivity|right; reflexivity]|]); constructor]).
  destruct (gstep_small R2450 loud_bits2450 Hd) as [GF GB]. destruct (sizes_ok R2450) as (_ & _ & _ & _ & _ & S1 & S2 & S3). destruct half_R as [HF HV]. pose proof u24_small as U. pose proof tiny_u as T. pose proof gain_31 as G. rewrite gstep_2450 in GF, GB.
  assert (M := about_mul _ _ _ _ 0 0 1 14 (about_self _ HF) (about_self _ F)). rewrite HV in M. rewrite (Rabs_pos_eq (/ 2)) in M by lra. specialize (M ltac:(lra) ltac:(lra) ltac:(lra) ltac:(unfold huge; lra)).
  assert (B2 : Rabs (/ 2 * R_of g) <= / 2 * 14) by (apply abs_mul_le; [rewrite Rabs_pos_eq; lra|exact B]).
  assert (A2 := about_add _ _ _ _ _ _ 30 (about_self _ GF) M ltac:(lra) ltac:(unfold huge; lra)). destruct A2 as [A1 A2]. apply Rabs_le_inv in A2. lra.
Qed.
(* one more frame *)
Lemma lead_step2 : forall prev x g, calm R2450 prev -> led2 prev x -> ff g -> Rabs (R_of g) <= 14 ->
  let N := fun l => R_of (ambe_log_amplitude o 42 (block2450 42) (gain_vector2450 loud_bits2450) (higher2450 loud_bits2450) g prev l) in
  R_of g - 2.714 <= rsum 42 N / 42 /\ 7.407 + 0.6499 * x <= N 1%Z - rsum 42 N / 42.
Proof.
  intros prev x g CA (X0 & LD) GF GB N. destruct rho_R as [RF RB]. pose proof rho_low as RL. destruct (past_calm R2450 prev 42 CA) as (lo & hi & HD & P). destruct (sizes_ok R2450) as (S1 & S2 & S3 & S4 & S5 & S6 & S7 & _).
  assert (HP : (1 <= p_L prev <= 56)%Z) by apply CA. assert (HP' : (0 <= p_L prev <= 56)%Z) by lia. assert (CO : cosine_in_unit o) by apply A. assert (Hd : is_bits 49 loud_bits2450) by (split; [reflexivity|repeat (constructor; [first [left; reflexivity|right; reflexivity]|]); constructor]).
  set (rho := R_of (d2f (dlit 65 100))) in *. set (past' := fun l => past prev 42 (Z.max 1 l)) in *. set (f := ambe_residual o (block2450 42) (gain_vector2450 loud_bits2450) (higher2450 loud_bits2450)).
  assert (HF : forall l, ff (f l) /\ Rabs (R_of (f l)) <= rsize R2450) by (intros l; exact (residual_small R2450 o 42 loud_bits2450 l CO Hd ltac:(lia))).
  set (X := mixed (p_L prev) 42 past'). set (mean := rsum 42 X / 42).
  set (mt := rsum 42 (fun l => R_of (f l)) / 42).
  destruct (level_near o 42 g f (rsize R2450) (log2_of o A) ltac:(lia) GF GB ltac:(lra) (fun l _ => HF l)) as [VF VB]. cbv zeta in VF, VB. change (Z.to_nat 42) with 42%nat in VB. fold mt in VB. set (G := fsub _ (fdiv _ _)) in *.
  destruct (loud_residuals o A) as [T1 TS]. cbv zeta in T1, TS. fold f in T1. change (rsum 42 (fun l => R_of (f l)) <= -14.09) in TS.
  assert (MT : mt <= -0.33547) by (unfold mt; lra).
  assert (MT0 : -14 <= mt).
  { destruct (rsum_bound 42 (fun l => R_of (f l)) (-14) 14) as [M1 M2]; [intros k Hk; destruct (HF k) as [_ B]; apply Rabs_le_inv in B; lra|]. replace (INR 42) with 42 in M1 by (rewrite INR_IZR_INZ; reflexivity). unfold mt. lra. }
  assert (LG : R_of (log2f o (f_of_Z 42)) <= 5.401). { destruct A as (_ & _ & AL). destruct (AL 42%Z ltac:(lia)) as [_ E]. apply Rabs_le_inv in E. pose proof log2_42. lra. }
  assert (LG0 : 3 <= R_of (log2f o (f_of_Z 42)) <= 6) by (apply (log2_of o A); lia).
  assert (MM : lo - / 400 <= mean <= hi + / 400).
  { destruct (rsum_bound 42 X (lo - / 400) (hi + / 400)) as [M1 M2]; [intros k Hk; apply mixed_bounds; auto; lia|]. replace (INR 42) with 42 in M1, M2 by (rewrite INR_IZR_INZ; reflexivity). unfold mean. lra. }
  assert (NW : forall l, (1 <= l <= 42)%Z -> Rabs (N l - (R_of (f l) + rho * (X l - mean) + R_of G)) <= 0.0101).
  { intros l Hl. unfold N, ambe_log_amplitude. cbv zeta. fold f. fold past'. fold G. destruct (HF l) as [F1 F2].
    destruct (predicted_about (d2f (dlit 65 100)) (p_L prev) 42 past' f lo hi l HP' ltac:(lia) Hl P RF ltac:(fold rho; lra) F1 ltac:(lra)) as (FF & E). fold rho in E. fold X in E. change (Z.to_nat 42) with 42%nat in E. fold mean in E.
    destruct (mixed_bounds (p_L prev) 42 past' lo hi l HP' ltac:(lia) Hl P) as [MB1 MB2]. fold X in MB1, MB2.
    assert (B1 : 0 <= rho * Rabs (X l - mean) <= 0.65001 * 77) by (split; [apply Rmult_le_pos; [lra|apply Rabs_pos]|apply Rmult_le_compat; try lra; [apply Rabs_pos|apply Rabs_le; lra]]).
    assert (XB : Rabs (R_of (f l) + rho * (X l - mean)) <= 100). { eapply Rle_trans; [apply Rabs_triang|]. rewrite (Rabs_mult rho), (Rabs_pos_eq rho) by lra. lra. }
    assert (GA : Rabs (R_of G) <= 60) by (apply Rabs_le; apply Rabs_le_inv in VB, GB; lra).
    pose proof u24_small as U. pose proof tiny_u as TU.
    assert (Z := about_add _ _ _ _ _ _ 200 (conj FF E) (about_self _ VF) ltac:(lra) ltac:(unfold huge; lra)). destruct Z as [_ Z2]. lra. }
  assert (SUM : Rabs (rsum 42 N - (rsum 42 (fun l => R_of (f l)) + 42 * R_of G)) <= 42 * 0.0101).
  { pose proof (rsum_diff 42 N (fun l => (R_of (f l) + R_of G) + rho * (X l - mean)) 0.0101) as Q. rewrite (rsum_lin 42 (fun l => R_of (f l) + R_of G) X mean rho) in Q. replace (INR 42) with 42 in Q by (rewrite INR_IZR_INZ; reflexivity).
    replace (rsum 42 X - 42 * mean) with 0 in Q by (unfold mean; field). assert (E : rsum 42 (fun l => R_of (f l) + R_of G) = rsum 42 (fun l => R_of (f l)) + 42 * R_of G).
    { assert (E1 : rsum 42 (fun l => R_of (f l) + R_of G) = rsum 42 (fun l => R_of (f l) + 1 * (R_of G - 0))) by (apply rsum_ext; intros; ring). rewrite E1, (rsum_lin 42 (fun l => R_of (f l)) (fun _ => R_of G) 0 1). f_equal.
      cbn [rsum]. ring. }
    rewrite E in Q. replace (rho * 0) with 0 in Q by ring. rewrite Rplus_0_r in Q. apply Q. intros k Hk. replace (R_of (f k) + R_of G + rho * (X k - mean)) with (R_of (f k) + rho * (X k - mean) + R_of G) by ring. apply NW. lia. }
  assert (ES : rsum 42 (fun l => R_of (f l)) = 42 * mt) by (unfold mt; field). rewrite ES in SUM. apply Rabs_le_inv in SUM, VB. pose proof (NW 1%Z ltac:(lia)) as N1. apply Rabs_le_inv in N1.
  split; [lra|].
  assert (LE : rho * x <= rho * (X 1%Z - mean)).
  { destruct LD as [[Q ->]|[EL LD]].
    - assert (Z0 : forall l, X l = 0). { intros l. unfold X, mixed. cbv zeta. assert (PQ : forall k, R_of (past' k) = 0) by (intros k; exact (Q _)). rewrite !PQ. ring. }
      unfold mean. rewrite Z0, (rsum_ext 42 X (fun _ => 0) (fun k _ => Z0 k)). replace (rsum 42 (fun _ => 0)) with 0 by (cbn [rsum]; ring). lra.
    - assert (E : forall l, (1 <= l <= 42)%Z -> X l = R_of (log_at prev l)).
      { intros l Hl. unfold X. rewrite EL, mixed_home2 by exact Hl. unfold past', past, log_at. rewrite EL. replace (Z.max 1 l) with l by lia. destruct (Z.ltb_spec 42 l); [lia|]. reflexivity. }
      unfold mean. rewrite E by lia. rewrite (rsum_ext 42 X (fun l => R_of (log_at prev l)) E). apply Rmult_le_compat_l; [lra|]. exact LD. }
  assert (0.6499 * x <= rho * x) by (apply Rmult_le_compat_r; lra). lra.
Qed.
End Accurate.
