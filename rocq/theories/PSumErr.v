(* The rounding error of a sum of at most 300 terms, in whichever order they are added. *)
From Coq Require Import ZArith List Bool Lia Reals Lra Permutation.
From Verif Require Import Res F32 SpecSum PFloat PReal PSum.
From Flocq Require Import Core.Core.
Import ListNotations.
Local Open Scope R_scope.

Definition rtot (xs : list f32) : R := fold_right (fun x s => R_of x + s) 0 xs.
Definition rabs (xs : list f32) : R := fold_right (fun x s => Rabs (R_of x) + s) 0 xs.
Lemma rtot_app : forall a b, rtot (a ++ b) = rtot a + rtot b.
Proof. intros a b. unfold rtot. induction a as [|x a IH]; cbn [app fold_right]; [ring|]. rewrite IH. ring. Qed.
Lemma rabs_app : forall a b, rabs (a ++ b) = rabs a + rabs b.
Proof. intros a b. unfold rabs. induction a as [|x a IH]; cbn [app fold_right]; [ring|]. rewrite IH. ring. Qed.
Lemma rabs_pos : forall a, 0 <= rabs a.
Proof. intros a. unfold rabs. induction a as [|x a IH]; cbn [fold_right]; [lra|]. pose proof (Rabs_pos (R_of x)). lra. Qed.
Lemma rtot_rabs : forall a, Rabs (rtot a) <= rabs a.
Proof. intros a. unfold rtot, rabs. induction a as [|x a IH]; cbn [fold_right]; [rewrite Rabs_R0; lra|]. eapply Rle_trans; [apply Rabs_triang|]. lra. Qed.
Lemma rtot_perm : forall a b, Permutation a b -> rtot a = rtot b.
Proof. intros a b H. unfold rtot. induction H; cbn [fold_right]; [reflexivity|rewrite IHPermutation; reflexivity|ring|congruence]. Qed.
Lemma rabs_perm : forall a b, Permutation a b -> rabs a = rabs b.
Proof. intros a b H. unfold rabs. induction H; cbn [fold_right]; [reflexivity|rewrite IHPermutation; reflexivity|ring|congruence]. Qed.

Lemma one_add : forall x y rx ry ax ay n k, ff x -> ff y -> Rabs rx <= ax -> Rabs ry <= ay -> ax + ay <= 1e35 -> 0 <= n -> 0 <= k -> n + k <= 299 ->
  Rabs (R_of x - rx) <= n * (1.01 * u24 * ax + 2 * tiny) -> Rabs (R_of y - ry) <= k * (1.01 * u24 * ay + 2 * tiny) ->
  ff (fadd x y) /\ Rabs (R_of (fadd x y) - (rx + ry)) <= (n + k + 1) * (1.01 * u24 * (ax + ay) + 2 * tiny).
Proof.
  intros x y rx ry ax ay n k Fx Fy Bx By HA Hn Hk Hnk Ex Ey.
  assert (U : 0 < u24 <= 6e-8) by (unfold u24; lra). assert (T : 0 < tiny <= 1e-30). { split; [apply tiny_pos|]. eapply Rle_trans; [apply tiny_small|]. lra. }
  assert (AX : 0 <= ax) by (pose proof (Rabs_pos rx); lra). assert (AY : 0 <= ay) by (pose proof (Rabs_pos ry); lra).
  set (wx := u24 * ax) in *. set (wy := u24 * ay) in *.
  assert (WX : 0 <= wx <= 6e-8 * ax) by (unfold wx; split; [apply Rmult_le_pos; lra|apply Rmult_le_compat_r; lra]).
  assert (WY : 0 <= wy <= 6e-8 * ay) by (unfold wy; split; [apply Rmult_le_pos; lra|apply Rmult_le_compat_r; lra]).
  replace (1.01 * u24 * ax) with (1.01 * wx) in Ex by (unfold wx; ring). replace (1.01 * u24 * ay) with (1.01 * wy) in Ey by (unfold wy; ring). replace (1.01 * u24 * (ax + ay)) with (1.01 * wx + 1.01 * wy) by (unfold wx, wy; ring).
  assert (X1 : n * (1.01 * wx + 2 * tiny) <= (n + k) * (1.01 * wx) + n * (2 * tiny)) by (pose proof (Rmult_le_pos k (1.01 * wx) Hk ltac:(lra)); lra).
  assert (Y1 : k * (1.01 * wy + 2 * tiny) <= (n + k) * (1.01 * wy) + k * (2 * tiny)) by (pose proof (Rmult_le_pos n (1.01 * wy) Hn ltac:(lra)); lra).
  assert (X2 : (n + k) * (1.01 * wx) <= 299 * (1.01 * wx)) by (apply Rmult_le_compat_r; lra).
  assert (Y2 : (n + k) * (1.01 * wy) <= 299 * (1.01 * wy)) by (apply Rmult_le_compat_r; lra).
  assert (T2 : (n + k) * (2 * tiny) <= 299 * (2 * tiny)) by (apply Rmult_le_compat_r; lra).
  assert (T3 : 0 <= n * (2 * tiny)) by (apply Rmult_le_pos; lra). assert (T4 : 0 <= k * (2 * tiny)) by (apply Rmult_le_pos; lra).
  apply Rabs_le_inv in Ex. apply Rabs_le_inv in Ey. apply Rabs_le_inv in Bx. apply Rabs_le_inv in By.
  assert (S : Rabs (R_of x + R_of y) <= 1.0001 * (ax + ay) + 598 * tiny) by (apply Rabs_le; lra).
  destruct (fadd_e x y Fx Fy) as [F E]; [unfold huge; lra|]. split; [exact F|].
  assert (UE : u24 * Rabs (R_of x + R_of y) <= 1.0001 * (wx + wy) + 6e-8 * (598 * tiny)).
  { eapply Rle_trans; [apply Rmult_le_compat_l; [lra|exact S]|]. replace (u24 * (1.0001 * (ax + ay) + 598 * tiny)) with (1.0001 * (wx + wy) + u24 * (598 * tiny)) by (unfold wx, wy; ring). apply Rplus_le_compat_l, Rmult_le_compat_r; lra. }
  replace ((n + k + 1) * (1.01 * wx + 1.01 * wy + 2 * tiny)) with ((n + k) * (1.01 * wx) + (n + k) * (1.01 * wy) + n * (2 * tiny) + k * (2 * tiny) + (1.01 * wx + 1.01 * wy + 2 * tiny)) by ring.
  apply Rabs_le_inv in E. apply Rabs_le. lra.
Qed.
Lemma summed_error : forall xs s n, summed xs s n -> (n <= 300)%nat -> Forall ff xs -> rabs xs <= 1e35 ->
  ff s /\ Rabs (R_of s - rtot xs) <= INR n * (1.01 * u24 * rabs xs + 2 * tiny).
Proof.
  intros xs s n H. induction H as [|x xs s n H IH|xs s n ys t m H1 IH1 H2 IH2]; intros Hn F B.
  - split; [split; reflexivity|]. change (R_of (S754_zero false)) with 0. cbn [rtot rabs fold_right INR]. rewrite Rminus_0_r, Rabs_R0, Rmult_0_l. lra.
  - inversion F as [|? ? Fx F']; subst. cbn [rabs fold_right] in B. fold (rabs xs) in B. pose proof (Rabs_pos (R_of x)) as P. destruct IH as [Fs Es]; [lia|exact F'|lra|].
    destruct (one_add s x (rtot xs) (R_of x) (rabs xs) (Rabs (R_of x)) (INR n) 0 Fs Fx) as [A E].
    + apply rtot_rabs.
    + lra.
    + lra.
    + apply pos_INR.
    + lra.
    + rewrite Rplus_0_r. replace 299 with (INR 299) by (rewrite INR_IZR_INZ; reflexivity). apply le_INR. lia.
    + exact Es.
    + unfold Rminus. rewrite Rplus_opp_r, Rabs_R0. lra.
    + split; [exact A|]. rewrite S_INR. cbn [rtot rabs fold_right]. fold (rtot xs) (rabs xs). rewrite (Rplus_comm (R_of x)), (Rplus_comm (Rabs (R_of x))). rewrite Rplus_0_r in E. exact E.
  - apply Forall_app in F as [F1 F2]. rewrite rabs_app in B |- *. rewrite rtot_app. pose proof (rabs_pos xs). pose proof (rabs_pos ys).
    destruct IH1 as [Fs Es]; [lia|exact F1|lra|]. destruct IH2 as [Ft Et]; [lia|exact F2|lra|].
    replace (INR (Datatypes.S (n + m))) with (INR n + INR m + 1) by (rewrite S_INR, plus_INR; reflexivity).
    apply one_add; auto using rtot_rabs, pos_INR. rewrite <- plus_INR. replace 299 with (INR 299) by (rewrite INR_IZR_INZ; reflexivity). apply le_INR. lia.
Qed.
Lemma add_all_error : forall simd xs, (length xs <= 290)%nat -> Forall ff xs -> rabs xs <= 1e35 ->
  ff (add_all simd xs) /\ Rabs (R_of (add_all simd xs) - rtot xs) <= (INR (length xs) + 3) * (1.01 * u24 * rabs xs + 2 * tiny).
Proof.
  intros simd xs L F B. destruct (add_all_summed simd xs) as (ys & n & P & S & N).
  destruct (summed_error ys (add_all simd xs) n S) as [A E]; [lia|eapply Permutation_Forall; eauto|now rewrite <- (rabs_perm _ _ P)|].
  split; [exact A|]. rewrite <- (rtot_perm _ _ P), <- (rabs_perm _ _ P) in E. eapply Rle_trans; [exact E|]. apply Rmult_le_compat_r.
  - pose proof (rabs_pos xs). pose proof tiny_pos. assert (0 < u24) by (unfold u24; lra). assert (0 <= u24 * rabs xs) by (apply Rmult_le_pos; lra). lra.
  - replace 3 with (INR 3) by (cbn; lra). rewrite <- plus_INR. apply le_INR. exact N.
Qed.
