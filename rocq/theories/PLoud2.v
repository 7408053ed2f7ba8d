(* The log amplitudes of a repeated loud frame. *)
From Coq Require Import ZArith Reals Lra Lia List Bool.
From Verif Require Import Res F32 TabImbe MParms SpecEcc SpecFrame SpecImbe SpecAmp SpecBound SpecLoud PFloat PReal PPredict PResid PBound PIv PCos PLoud.
From Flocq Require Import Core.Core.
Import ListNotations.
Local Open Scope R_scope.

Definition at_home (l : Z) : bool := let x := position 25 25 l in (whole_part x =? l)%Z && sfeq (fraction x) (S754_zero false).
Lemma all_home : forallb at_home (upto 25) = true.
Proof. vm_compute. reflexivity. Qed.
Lemma mixed_home : forall a l, (1 <= l <= 25)%Z -> mixed 25 25 a l = R_of (a l).
Proof.
  intros a l Hl. pose proof all_home as F. rewrite forallb_forall in F. specialize (F l). unfold at_home in F. cbv zeta in F.
  assert (I : In l (upto 25)) by (unfold upto; apply in_map_iff; exists (Z.to_nat l); split; [lia|apply in_seq; lia]).
  apply F in I. apply andb_true_iff in I as [I J]. apply Z.eqb_eq in I. apply sfeq_eq in J. unfold mixed. cbv zeta. rewrite I, J, R_zero. ring.
Qed.
Definition past_mean (m : parms) : R := rsum 25 (fun l => R_of (log_at m l)) / 25.
Definition lead (m : parms) : R := R_of (log_at m 4) - past_mean m.
(* what a frame can be predicted from, with the lead of harmonic 4 *)
Definition quiet_past (m : parms) : Prop := forall k, R_of (log_at m k) = 0.
Definition led (m : parms) (x : R) : Prop := 0 <= x /\ (quiet_past m /\ x = 0 \/ p_L m = 25%Z /\ x <= lead m).

Lemma rsum_ext : forall n f g, (forall k, (1 <= k <= Z.of_nat n)%Z -> f k = g k) -> rsum n f = rsum n g.
Proof. induction n as [|n IH]; intros f g H; cbn [rsum]; [reflexivity|]. rewrite (IH f g), H by (intros; try apply H; lia). reflexivity. Qed.
Lemma rsum_lin : forall n f g c r, rsum n (fun l => f l + r * (g l - c)) = rsum n f + r * (rsum n g - INR n * c).
Proof. induction n as [|n IH]; intros f g c r; [cbn; ring|]. cbn [rsum]. rewrite IH, S_INR. ring. Qed.
Lemma rsum_diff : forall n f g e, (forall k, (1 <= k <= Z.of_nat n)%Z -> Rabs (f k - g k) <= e) -> Rabs (rsum n f - rsum n g) <= INR n * e.
Proof.
  induction n as [|n IH]; intros f g e H; [cbn; rewrite Rminus_0_r, Rabs_R0; lra|]. cbn [rsum]. rewrite S_INR. specialize (IH f g e (fun k K => H k ltac:(lia))). specialize (H (Z.of_nat (S n)) ltac:(lia)).
  apply Rabs_le. apply Rabs_le_inv in IH, H. lra.
Qed.

Lemma rho_near : ff (prediction 25) /\ 0.6999 <= R_of (prediction 25) <= 0.7001.
Proof.
  assert (F : ff (prediction 25)) by (split; vm_compute; reflexivity). split; [exact F|].
  replace (R_of (prediction 25)) with (IZR 11744051 / 16777216); [lra|].
  replace (prediction 25) with (S754_finite false 11744051 (-24)) by (vm_compute; reflexivity).
  unfold R_of. cbn [Flocq.IEEE754.BinarySingleNaN.SF2R]. unfold Flocq.Core.Defs.F2R. cbn [Flocq.Core.Defs.Fnum Flocq.Core.Defs.Fexp Flocq.Core.Zaux.cond_Zopp].
  change (bpow radix2 (-24)) with (/ 16777216). lra.
Qed.
Lemma T_range : forall l, (1 <= l <= 25)%Z -> 0 <= IZR (fst (nth (Z.to_nat (l - 1)) T_table (0, 0)%Z)) /\ IZR (snd (nth (Z.to_nat (l - 1)) T_table (0, 0)%Z)) <= 50000.
Proof.
  intros l Hl. assert (G : Forall (fun u => 0 <= fst u /\ snd u <= 50000)%Z T_table) by (unfold T_table; repeat constructor; cbn; lia).
  rewrite Forall_forall in G. destruct (G (nth (Z.to_nat (l - 1)) T_table (0, 0)%Z)); [apply nth_In; cbn [T_table length]; lia|]. split; apply IZR_le; assumption.
Qed.

Section Accurate.
Variable o : oracle.
Hypothesis A : accurate_library o.
Let T := PLoud.T o.
Lemma T_sum : 8.408 <= rsum 25 T / 25 <= 8.824 /\ 16.478 <= T 4.
Proof.
  assert (Q : forall l lo hi, (1 <= l <= 25)%Z -> nth (Z.to_nat (l - 1)) T_table (0, 0)%Z = (lo, hi) -> IZR lo / 1000 <= T l <= IZR hi / 1000).
  { intros l lo hi Hl E. pose proof (proj2 (T_in o A l Hl)) as H. rewrite E in H. exact H. }
  pose proof (Q 1 12353 12358 ltac:(lia) eq_refl)%Z as Q1.
  pose proof (Q 2 13030 13035 ltac:(lia) eq_refl)%Z as Q2.
  pose proof (Q 3 12700 12704 ltac:(lia) eq_refl)%Z as Q3.
  pose proof (Q 4 16478 16483 ltac:(lia) eq_refl)%Z as Q4.
  pose proof (Q 5 8023 8027 ltac:(lia) eq_refl)%Z as Q5.
  pose proof (Q 6 6238 6243 ltac:(lia) eq_refl)%Z as Q6.
  pose proof (Q 7 9389 9393 ltac:(lia) eq_refl)%Z as Q7.
  pose proof (Q 8 10706 10710 ltac:(lia) eq_refl)%Z as Q8.
  pose proof (Q 9 8335 8339 ltac:(lia) eq_refl)%Z as Q9.
  pose proof (Q 10 6850 6855 ltac:(lia) eq_refl)%Z as Q10.
  pose proof (Q 11 8895 8899 ltac:(lia) eq_refl)%Z as Q11.
  pose proof (Q 12 10512 10516 ltac:(lia) eq_refl)%Z as Q12.
  pose proof (Q 13 6760 6764 ltac:(lia) eq_refl)%Z as Q13.
  pose proof (Q 14 6322 6326 ltac:(lia) eq_refl)%Z as Q14.
  pose proof (Q 15 7850 7854 ltac:(lia) eq_refl)%Z as Q15.
  pose proof (Q 16 9151 9155 ltac:(lia) eq_refl)%Z as Q16.
  pose proof (Q 17 6865 6869 ltac:(lia) eq_refl)%Z as Q17.
  pose proof (Q 18 6095 6099 ltac:(lia) eq_refl)%Z as Q18.
  pose proof (Q 19 7153 7157 ltac:(lia) eq_refl)%Z as Q19.
  pose proof (Q 20 8121 8125 ltac:(lia) eq_refl)%Z as Q20.
  pose proof (Q 21 5679 7737 ltac:(lia) eq_refl)%Z as Q21.
  pose proof (Q 22 5679 7737 ltac:(lia) eq_refl)%Z as Q22.
  pose proof (Q 23 5679 7737 ltac:(lia) eq_refl)%Z as Q23.
  pose proof (Q 24 5679 7737 ltac:(lia) eq_refl)%Z as Q24.
  pose proof (Q 25 5679 7737 ltac:(lia) eq_refl)%Z as Q25.
  clear Q. split; [|lra].
  cbn [rsum Z.of_nat Pos.of_succ_nat Pos.succ]. unfold T in *. lra.
Qed.
(* one more frame *)
Lemma lead_step : forall prev x, steady prev -> (0 <= p_L prev <= 56)%Z -> led prev x ->
  let N := fun l => R_of (imbe_log_amplitude o 25 loud_bits prev l) in
  (forall l, (1 <= l <= 25)%Z -> ff (imbe_log_amplitude o 25 loud_bits prev l)) /\ 8.397 <= rsum 25 N / 25 /\ 7.633 + 0.6999 * x <= N 4%Z - rsum 25 N / 25.
Proof.
  intros prev x S HP (X0 & LD) N. destruct (past_small prev 25 S HP) as (lo & hi & _ & P). set (rho := R_of (prediction 25)).
  assert (RF : ff (prediction 25) /\ 0.6999 <= rho <= 1) by (destruct rho_near as [F E]; split; [exact F|unfold rho; lra]).
  destruct RF as [RF RB]. set (M := mixed (p_L prev) 25 (past prev 25)).
  assert (TB : forall l, (1 <= l <= 25)%Z -> ff (imbe_residual o 25 loud_bits l) /\ Rabs (T l) <= 50).
  { intros l Hl. destruct (T_in o A l Hl) as [F B]. split; [exact F|]. destruct (T_range l Hl). apply Rabs_le. fold T in B. lra. }
  assert (AB : forall l, (1 <= l <= 25)%Z -> ff (imbe_log_amplitude o 25 loud_bits prev l) /\ Rabs (N l - (T l + rho * (M l - rsum 25 M / 25))) <= / 100).
  { intros l Hl. destruct (TB l Hl) as [F B]. destruct (predicted_about (prediction 25) (p_L prev) 25 (past prev 25) (imbe_residual o 25 loud_bits) lo hi l) as [G1 G2]; auto; try lia; fold rho; try lra.
  }
  split; [intros l Hl; apply AB, Hl|]. destruct T_sum as [TS T4].
  assert (SUM : Rabs (rsum 25 N - rsum 25 T) <= 25 * / 100).
  { pose proof (rsum_diff 25 N (fun l => T l + rho * (M l - rsum 25 M / 25)) (/ 100) (fun k K => proj2 (AB k K))) as Q. rewrite rsum_lin in Q.
    replace (INR 25) with 25 in Q by (cbn; lra). replace (rsum 25 T + rho * (rsum 25 M - 25 * (rsum 25 M / 25))) with (rsum 25 T) in Q by field. exact Q. }
  apply Rabs_le_inv in SUM. split; [lra|]. destruct (AB 4%Z ltac:(lia)) as [_ A4]. apply Rabs_le_inv in A4.
  assert (LE : rho * x <= rho * (M 4%Z - rsum 25 M / 25)).
  { destruct LD as [[Q ->]|[EL LD]].
    - assert (Z0 : forall l, M l = 0). { intros l. unfold M, mixed. cbv zeta. assert (PQ : forall k, R_of (past prev 25 k) = 0) by (intros k; exact (Q _)). rewrite !PQ. ring. }
      rewrite Z0, (rsum_ext 25 M (fun _ => 0) (fun k _ => Z0 k)). cbn [rsum]. lra.
    - assert (E : forall l, (1 <= l <= 25)%Z -> M l = R_of (log_at prev l)).
      { intros l Hl. unfold M. rewrite EL, mixed_home by exact Hl. unfold past, log_at. rewrite EL. destruct (Z.ltb_spec 25 l); [lia|]. reflexivity. }
      rewrite E by lia. rewrite (rsum_ext 25 M (fun l => R_of (log_at prev l)) E). apply Rmult_le_compat_l; [lra|]. exact LD. }
  assert (0.6999 * x <= rho * x) by (apply Rmult_le_compat_r; lra). lra.
Qed.
End Accurate.
