(* The cosines of the inverse transforms of 4, 5 and 6 points as intervals. *)
From Coq Require Import ZArith Reals Lra Lia List Bool.
From Verif Require Import Res F32 MParms SpecAmp SpecBound PFloat PReal PNyq PResid PFftErr PIv.
From Flocq Require Import Core.Core.
Import ListNotations.
Local Open Scope R_scope.

(* cos (pi m / N) in units of 1e-5, for N = 12 and N = 8 *)
Definition base (N m : Z) : Z := nth (Z.to_nat m) (if (N =? 12)%Z then [100000; 96593; 86603; 70711; 50000; 25882; 0] else [100000; 92388; 70711; 38268; 0])%Z 0%Z.
Definition ctab (N m : Z) : Z :=
  let r := (m mod (2 * N))%Z in let s := if (N <? r)%Z then (2 * N - r)%Z else r in if (N / 2 <? s)%Z then (- base N (N - s))%Z else base N s.

Lemma sqrt_between : forall x a b, 0 <= a -> 0 <= b -> 0 <= x -> a * a <= x -> x <= b * b -> a <= sqrt x <= b.
Proof.
  intros x a b A B X H G. split.
  - rewrite <- (sqrt_square a A). apply sqrt_le_1; nra.
  - rewrite <- (sqrt_square b B). apply sqrt_le_1; nra.
Qed.
Lemma root2 : 1.414213 <= sqrt 2 <= 1.414214. Proof. apply sqrt_between; lra. Qed.
Lemma root3 : 1.732050 <= sqrt 3 <= 1.732051. Proof. apply sqrt_between; lra. Qed.
Lemma inv_root2 : 0.707106 <= 1 / sqrt 2 <= 0.707107.
Proof.
  pose proof (sqrt_lt_R0 2 ltac:(lra)) as P. replace (1 / sqrt 2) with (sqrt 2 / 2). { pose proof root2. lra. }
  apply (Rmult_eq_reg_r (2 * sqrt 2)); [|lra]. replace (sqrt 2 / 2 * (2 * sqrt 2)) with (sqrt 2 * sqrt 2) by field. rewrite sqrt_sqrt by lra. field. lra.
Qed.
Lemma half8 : 0.923879 <= cos (PI / 8) <= 0.923880 /\ 0.382683 <= sin (PI / 8) <= 0.382684.
Proof.
  pose proof PI_bounds as B. assert (C : 0 < cos (PI / 8)) by (apply cos_gt_0; lra). assert (S : 0 < sin (PI / 8)) by (apply sin_gt_0; lra).
  pose proof (cos_2a_cos (PI / 8)) as E1. pose proof (cos_2a_sin (PI / 8)) as E2. replace (2 * (PI / 8)) with (PI / 4) in E1, E2 by field. rewrite cos_PI4 in E1, E2. pose proof inv_root2 as R.
  set (i := 1 / sqrt 2) in *. split; split; nra.
Qed.
Lemma base12 : forall m, (0 <= m <= 6)%Z -> Rabs (cos (PI * IZR m / 12) - IZR (base 12 m) / 100000) <= / 100000.
Proof.
  intros m H. pose proof root2. pose proof root3. pose proof inv_root2.
  assert (D : (m = 0 \/ m = 1 \/ m = 2 \/ m = 3 \/ m = 4 \/ m = 5 \/ m = 6)%Z) by lia.
  destruct D as [->|[->|[->|[->|[->|[->| ->]]]]]].
  - change (base 12 0) with 100000%Z. replace (PI * 0 / 12) with 0 by field. rewrite cos_0. apply Rabs_le. lra.
  - change (base 12 1) with 96593%Z. replace (PI * 1 / 12) with (PI / 3 - PI / 4) by field. rewrite cos_minus, cos_PI3, sin_PI3, cos_PI4, sin_PI4. apply Rabs_le. set (i := 1 / sqrt 2) in *. set (s := sqrt 3) in *.
    assert (0.707106 * 1.73205 <= i * s <= 0.707107 * 1.732051) by (split; apply Rmult_le_compat; lra). lra.
  - change (base 12 2) with 86603%Z. replace (PI * 2 / 12) with (PI / 6) by field. rewrite cos_PI6. apply Rabs_le. lra.
  - change (base 12 3) with 70711%Z. replace (PI * 3 / 12) with (PI / 4) by field. rewrite cos_PI4. apply Rabs_le. lra.
  - change (base 12 4) with 50000%Z. replace (PI * 4 / 12) with (PI / 3) by field. rewrite cos_PI3. apply Rabs_le. lra.
  - change (base 12 5) with 25882%Z. replace (PI * 5 / 12) with (PI / 6 + PI / 4) by field. rewrite cos_plus, cos_PI6, sin_PI6, cos_PI4, sin_PI4. apply Rabs_le. set (i := 1 / sqrt 2) in *. set (s := sqrt 3) in *.
    assert (0.707106 * 1.73205 <= i * s <= 0.707107 * 1.732051) by (split; apply Rmult_le_compat; lra). lra.
  - change (base 12 6) with 0%Z. replace (PI * 6 / 12) with (PI / 2) by field. rewrite cos_PI2. apply Rabs_le. lra.
Qed.
Lemma base8 : forall m, (0 <= m <= 4)%Z -> Rabs (cos (PI * IZR m / 8) - IZR (base 8 m) / 100000) <= / 100000.
Proof.
  intros m H. destruct half8 as [A B]. pose proof inv_root2. assert (D : (m = 0 \/ m = 1 \/ m = 2 \/ m = 3 \/ m = 4)%Z) by lia.
  destruct D as [->|[->|[->|[->| ->]]]].
  - change (base 8 0) with 100000%Z. replace (PI * 0 / 8) with 0 by field. rewrite cos_0. apply Rabs_le. lra.
  - change (base 8 1) with 92388%Z. replace (PI * 1 / 8) with (PI / 8) by field. apply Rabs_le. lra.
  - change (base 8 2) with 70711%Z. replace (PI * 2 / 8) with (PI / 4) by field. rewrite cos_PI4. apply Rabs_le. lra.
  - change (base 8 3) with 38268%Z. replace (PI * 3 / 8) with (PI / 2 - PI / 8) by field. rewrite cos_shift. apply Rabs_le. lra.
  - change (base 8 4) with 0%Z. replace (PI * 4 / 8) with (PI / 2) by field. rewrite cos_PI2. apply Rabs_le. lra.
Qed.
Lemma ctab_near : forall N m, (N = 12 \/ N = 8)%Z -> (0 <= m)%Z -> Rabs (cos (PI * IZR m / IZR N) - IZR (ctab N m) / 100000) <= / 100000.
Proof.
  intros N m HN Hm. assert (NR : 0 < IZR N) by (destruct HN as [-> | ->]; lra). assert (NZ : (0 < N)%Z) by lia.
  assert (BA : forall s, (0 <= s <= N / 2)%Z -> Rabs (cos (PI * IZR s / IZR N) - IZR (base N s) / 100000) <= / 100000).
  { intros s Hs. destruct HN as [-> | ->]; [apply base12|apply base8]; exact Hs. }
  assert (H2 : (N - N / 2 <= N / 2)%Z) by (destruct HN as [-> | ->]; vm_compute; discriminate).
  pose proof (Z.div_mod m (2 * N) ltac:(lia)) as E. pose proof (Z.mod_pos_bound m (2 * N) ltac:(lia)) as B. pose proof (Z.div_pos m (2 * N) Hm ltac:(lia)) as Q.
  unfold ctab. cbv zeta. set (r := (m mod (2 * N))%Z) in *. set (q := (m / (2 * N))%Z) in *.
  assert (E1 : cos (PI * IZR m / IZR N) = cos (PI * IZR r / IZR N)).
  { rewrite <- (cos_period (PI * IZR r / IZR N) (Z.to_nat q)). f_equal. rewrite E, plus_IZR, !mult_IZR, INR_IZR_INZ, Z2Nat.id by exact Q. field. lra. }
  assert (E2 : cos (PI * IZR r / IZR N) = cos (PI * IZR (if (N <? r)%Z then 2 * N - r else r) / IZR N)).
  { destruct (N <? r)%Z; [|reflexivity]. rewrite minus_IZR, mult_IZR. replace (PI * (2 * IZR N - IZR r) / IZR N) with (- (PI * IZR r / IZR N) + 2 * INR 1 * PI) by (cbn; field; lra).
    rewrite cos_period, cos_neg. reflexivity. }
  rewrite E1, E2. set (s := if (N <? r)%Z then (2 * N - r)%Z else r). assert (S : (0 <= s <= N)%Z) by (unfold s; destruct (Z.ltb_spec N r); lia).
  destruct (Z.ltb_spec (N / 2) s) as [G|G].
  - specialize (BA (N - s)%Z ltac:(lia)). replace (PI * IZR (N - s) / IZR N) with (- (PI * IZR s / IZR N) + PI) in BA by (rewrite minus_IZR; field; lra).
    rewrite neg_cos, cos_neg in BA. rewrite opp_IZR. apply Rabs_le_inv in BA. apply Rabs_le. lra.
  - apply BA. lia.
Qed.

(* the angles *)
Definition odd_part (k j : Z) : Z := ((k - 1) * (2 * j - 1))%Z.
Definition angle_fine (n k j : Z) : bool :=
  match exactly (dct_angle n k j) with
  | Some (a, b) => ((314159266 * odd_part k j - 1000 * (2 * n)) * 2 ^ 30 <=? a * (2 * n) * 100000000)%Z && (b * (2 * n) * 100000000 <=? (314159265 * odd_part k j + 1000 * (2 * n)) * 2 ^ 30)%Z
  | None => false
  end.
Lemma angles_fine : forallb (fun n => forallb (fun k => forallb (fun j => angle_fine n k j) (upto n)) (upto n)) [4; 5; 6]%Z = true.
Proof. vm_compute. reflexivity. Qed.
Lemma upto_in : forall n k, (1 <= k <= n)%Z -> In k (upto n).
Proof. intros n k H. unfold upto. apply in_map_iff. exists (Z.to_nat k). split; [lia|]. apply in_seq. lia. Qed.
Lemma angle_near : forall n k j, In n [4; 5; 6]%Z -> (1 <= k <= n)%Z -> (1 <= j <= n)%Z ->
  ff (dct_angle n k j) /\ Rabs (R_of (dct_angle n k j) - PI * IZR (odd_part k j) / IZR (2 * n)) <= / 100000.
Proof.
  intros n k j Hn Hk Hj. pose proof angles_fine as F. rewrite forallb_forall in F. specialize (F n Hn). rewrite forallb_forall in F. specialize (F k (upto_in _ _ Hk)).
  rewrite forallb_forall in F. specialize (F j (upto_in _ _ Hj)). assert (N : (4 <= n <= 6)%Z) by (destruct Hn as [<-|[<-|[<-|[]]]]; lia).
  assert (M : (0 <= odd_part k j)%Z) by (unfold odd_part; apply Z.mul_nonneg_nonneg; lia).
  unfold angle_fine in F. pose proof (exactly_in (dct_angle n k j)) as I. destruct (exactly (dct_angle n k j)) as [[a b]|]; [|discriminate]. destruct I as [FF I]. split; [exact FF|].
  apply andb_true_iff in F as [F1 F2]. apply Z.leb_le in F1, F2. change (2 ^ 30)%Z with 1073741824%Z in F1, F2. apply IZR_le in M.
  set (m := odd_part k j) in *. assert (NR : 8 <= IZR (2 * n) <= 12) by (split; apply IZR_le; lia). set (x := R_of (dct_angle n k j)) in *.
  set (p := (2 * n)%Z) in *. rename F1 into G1. rename F2 into G2.
  apply IZR_le in G1, G2. rewrite !mult_IZR, minus_IZR, !mult_IZR in G1. rewrite !mult_IZR, plus_IZR, !mult_IZR in G2.
  assert (X : (IZR a * IZR p <= x * 1073741824 * IZR p /\ x * 1073741824 * IZR p <= IZR b * IZR p)) by (unfold unit30 in I; split; apply Rmult_le_compat_r; lra).
  pose proof PI_bounds as PB. assert (Y : 314159265 / 100000000 * IZR m <= PI * IZR m <= 314159266 / 100000000 * IZR m) by (split; apply Rmult_le_compat_r; lra).
  apply Rabs_le. split; apply (Rmult_le_reg_r (IZR p)); try lra; unfold Rminus; rewrite Rmult_plus_distr_r; replace (- (PI * IZR m / IZR p) * IZR p) with (- (PI * IZR m)) by (field; lra); lra.
Qed.

(* the cosines *)
Definition ci (n k j : Z) : iv :=
  if (n =? 5)%Z && negb (k =? 1)%Z then Some (- 2 ^ 30, 2 ^ 30)%Z
  else let c := if (n =? 5)%Z then 100000%Z else ctab (2 * n) (odd_part k j) in Some (c * 2 ^ 30 / 100000 - 33000, c * 2 ^ 30 / 100000 + 33001)%Z.
Lemma ci_in : forall o n k j, cosine_in_unit o -> (forall x, ff x -> Rabs (R_of x) <= 16 -> Rabs (R_of (cosf o x) - cos (R_of x)) <= / 1048576) ->
  In n [4; 5; 6]%Z -> (1 <= k <= n)%Z -> (1 <= j <= n)%Z -> inside (dct_cosine o n k j) (ci n k j).
Proof.
  intros o n k j CU CC Hn Hk Hj. destruct (angle_near n k j Hn Hk Hj) as [FA AN]. change (dct_cosine o n k j) with (cosf o (dct_angle n k j)).
  destruct (CU (dct_angle n k j) FA) as [FC UC]. unfold ci. destruct ((n =? 5)%Z && negb (k =? 1)%Z) eqn:S.
  - cbn [inside]. split; [exact FC|]. apply Rabs_le_inv in UC. change (- 2 ^ 30)%Z with (-1073741824)%Z. change (2 ^ 30)%Z with 1073741824%Z. unfold unit30. lra.
  - assert (N : (4 <= n <= 6)%Z) by (destruct Hn as [<-|[<-|[<-|[]]]]; lia).
    assert (M : (0 <= odd_part k j <= 55)%Z) by (unfold odd_part; split; [apply Z.mul_nonneg_nonneg; lia|nia]).
    assert (MR : 0 <= IZR (odd_part k j) <= 55) by (split; apply IZR_le; lia). assert (NR : 8 <= IZR (2 * n) <= 12) by (split; apply IZR_le; lia).
    set (r := PI * IZR (odd_part k j) / IZR (2 * n)) in *. pose proof PI_bounds as PB.
    assert (RB : 0 <= r <= 22).
    { unfold r. assert (0 <= PI * IZR (odd_part k j) <= 3.2 * 55) by (split; [apply Rmult_le_pos; lra|apply Rmult_le_compat; lra]).
      split; apply (Rmult_le_reg_r (IZR (2 * n))); try lra; replace (PI * IZR (odd_part k j) / IZR (2 * n) * IZR (2 * n)) with (PI * IZR (odd_part k j)) by (field; lra); lra. }
    assert (C1 : Rabs (R_of (cosf o (dct_angle n k j)) - cos r) <= / 1048576 + / 100000).
    { assert (SA : Rabs (R_of (dct_angle n k j)) <= 16).
      { assert (RB2 : r <= 14.7).
        { unfold r. apply (Rmult_le_reg_r (IZR (2 * n))); [lra|]. replace (PI * IZR (odd_part k j) / IZR (2 * n) * IZR (2 * n)) with (PI * IZR (odd_part k j)) by (field; lra).
          assert (Q : (odd_part k j <= (n - 1) * (2 * n - 1))%Z) by (unfold odd_part; apply Z.mul_le_mono_nonneg; lia).
          assert (Q2 : (odd_part k j * 12 <= 55 * (2 * n))%Z) by (destruct Hn as [<-|[<-|[<-|[]]]]; lia). apply IZR_le in Q2. rewrite (mult_IZR (odd_part k j)), (mult_IZR 55) in Q2.
          assert (PI * IZR (odd_part k j) <= 3.1416 * IZR (odd_part k j)) by (apply Rmult_le_compat_r; lra). lra. }
        apply Rabs_le_inv in AN. apply Rabs_le. lra. }
      specialize (CC _ FA SA). pose proof (cos_lip (R_of (dct_angle n k j)) r) as L.
      replace (R_of (cosf o (dct_angle n k j)) - cos r) with ((R_of (cosf o (dct_angle n k j)) - cos (R_of (dct_angle n k j))) + (cos (R_of (dct_angle n k j)) - cos r)) by ring.
      eapply Rle_trans; [apply Rabs_triang|]. lra. }
    set (c := if (n =? 5)%Z then 100000%Z else ctab (2 * n) (odd_part k j)).
    assert (C2 : Rabs (cos r - IZR c / 100000) <= / 100000).
    { unfold c. destruct (Z.eqb_spec n 5) as [E|E].
      - destruct (Z.eqb_spec k 1) as [K|K]; [|discriminate]. unfold r. replace (odd_part k j) with 0%Z by (unfold odd_part; rewrite K; ring). replace (PI * 0 / IZR (2 * n)) with 0 by (field; lra). rewrite cos_0. apply Rabs_le. lra.
      - unfold r. apply ctab_near; [|lia]. destruct Hn as [<-|[<-|[<-|[]]]]; [right; reflexivity|contradiction|left; reflexivity]. }
    cbv zeta. fold c. cbn [inside]. split; [exact FC|]. apply Rabs_le_inv in C1, C2.
    pose proof (Z.div_mod (c * 2 ^ 30) 100000 ltac:(lia)) as D1. pose proof (Z.mod_pos_bound (c * 2 ^ 30) 100000 ltac:(lia)) as D2. set (q := (c * 2 ^ 30 / 100000)%Z) in *.
    assert (D3 : (100000 * q <= c * 1073741824)%Z) by (change 1073741824%Z with (2 ^ 30)%Z; lia). assert (D4 : (c * 1073741824 <= 100000 * (q + 1))%Z) by (change 1073741824%Z with (2 ^ 30)%Z; lia).
    apply IZR_le in D3, D4. rewrite !mult_IZR in D3, D4. rewrite plus_IZR in D4. rewrite minus_IZR, plus_IZR. unfold unit30. lra.
Qed.
